(** Both networks of a hybrid session, line by line. *)
From Coq Require Import Ascii String List.
From Verif Require Import Base BaseFacts Str_Model Str_Proofs Config_Model Graph_Model Graph_Spec GraphAdd_Proofs
  Receptive_Model Factory_Model Factory_Spec Factory_Proofs FactoryRun_Proofs FactoryLines_Proofs Hybrid_Model Hybrid_Spec Hybrid_Proofs.
Local Open Scope string_scope.
Local Open Scope list_scope.
Local Open Scope nat_scope.

Section Run.
Context {D : Type} (read_datum : str -> D) (d0 d1 : D) (rand : nat -> Z).
Variables (cfg cfg' : geo) (data data' : connection) (classes : Z) (add_loss_layer : bool) (g g' : graph).
Hypothesis Hpatch : g_patch cfg = true.
Hypothesis Hfcn : g_patch cfg' = false.
Notation layer := (@layer D).
Notation fstate := (@fstate D).
Notation sim := (@sim D cfg cfg' data data').
Notation L st' tw ex := (leads data data' (heap (f_graph st')) tw ex).

Definition out_pair (st' : fstate) (tw : list (nat * nat)) (ex : list (nat * layer)) (q q' : nat) : Prop := L st' tw ex (mkConn (Some q) 0 true) (mkConn (Some q') 0 true).
Record both (st st' : fstate) (tw : list (nat * nat)) (ex : list (nat * layer)) : Prop := mkBoth {
  both_sim : sim st st' tw ex;
  both_built : built g (f_graph st) (f_made st);
  both_built' : built g' (f_graph st') (f_made st');
  both_outs : Forall2 (out_pair st' tw ex) (outputs_of (f_graph st) (f_made st)) (outputs_of (f_graph st') (f_made st')) }.

Definition agrees (r r' : res fstate) : Prop :=
  match r, r' with
  | Ok s, Ok s' => exists tw ex, both s s' tw ex
  | Fatal, Fatal | UB, UB => True
  | _, _ => False
  end.

Lemma outputs_kept (g0 g1 g2 : graph) (m1 m2 : list (nat * layer)) : built g0 g1 m1 -> built g1 g2 m2 ->
  outputs_of g2 (m1 ++ m2) = outputs_of g1 m1 ++ outputs_of g2 m2.
Proof.
  intros B1 B2. rewrite outputs_app. f_equal. apply (filter_stable _ _ _ _ _ _ B1 B2). apply same_output.
Qed.

(** Steps that change neither graph. *)
Lemma both_vars st st' tw ex s s' : both st st' tw ex -> sim s s' tw ex ->
  f_graph s = f_graph st -> f_made s = f_made st -> f_graph s' = f_graph st' -> f_made s' = f_made st' -> both s s' tw ex.
Proof.
  intros [S B B' O] S2 E1 E2 E3 E4. constructor; [exact S2|rewrite E1, E2; exact B|rewrite E3, E4; exact B'|].
  unfold out_pair in *. rewrite E1, E2, E3, E4. exact O.
Qed.

Lemma layer_both w out a st st' tw ex : both st st' tw ex -> act_fine a -> (out = true -> exists l, a = AActivation l) ->
  agrees (perform_line rand cfg data add_loss_layer (KLayer w out a) st) (perform_line rand cfg' data' add_loss_layer (KLayer w out a) st').
Proof.
  intros [S Bt Bt' O] Hf Hout.
  destruct (layer_line_ok rand cfg data add_loss_layer w out a st (sim_good _ _ _ _ _ _ _ _ S) Hf Hout) as (s & made & E & A & _ & _ & Os & _).
  destruct (layer_line_ok rand cfg' data' add_loss_layer w out a st' (sim_good' _ _ _ _ _ _ _ _ S) Hf Hout) as (s' & made' & E' & A' & _ & _ & Os' & _).
  assert (S0 : sim (set_out st out) (set_out st' out) tw ex) by (apply (sim_vars cfg cfg' data data' st st'); auto; apply S).
  destruct (sim_perform rand cfg cfg' data data' Hpatch Hfcn a _ _ tw ex S0 Hf Hout) as (s1 & s1' & tw1 & ex1 & E1 & E1' & S1 & I1 & J1 & K1).
  destruct (sim_final cfg cfg' data data' Hpatch s1 s1' tw1 ex1 S1 K1) as (s2 & s2' & ex2 & E2 & E2' & S2 & J2 & K2).
  destruct (sim_loss cfg cfg' data data' add_loss_layer w s2 s2' tw1 ex2 S2 K2) as (s3 & s3' & tw3 & E3 & E3' & S3 & I3).
  rewrite E, E'. cbn [perform_line] in E, E'. rewrite E1 in E. rewrite E1' in E'. cbn [bind] in E, E'. rewrite E2 in E. rewrite E2' in E'. cbn [bind] in E, E'.
  rewrite E3 in E. rewrite E3' in E'. injection E as <-. injection E' as <-.
  exists tw3, ex2. destruct A as [G1 B1 M1 K]. destruct A' as [G1' B1' M1' K']. 
  assert (W : forall q q', out_pair st' tw ex q q' -> out_pair s3' tw3 ex2 q q').
  { intros q q'. apply leads_weaken; [apply (built_ext _ _ _ B1')|eapply incl_tran; eassumption|eapply incl_tran; eassumption]. }
  constructor.
  - exact S3.
  - rewrite M1. eapply built_trans; eassumption.
  - rewrite M1'. eapply built_trans; eassumption.
  - rewrite M1, M1', (outputs_kept _ _ _ _ _ Bt B1), (outputs_kept _ _ _ _ _ Bt' B1').
    apply Forall2_app; [eapply Forall2_weaken; [exact W|exact O]|].
    rewrite <- (sim_out _ _ _ _ _ _ _ _ S3) in Os'. destruct (f_out s3).
    + destruct Os as (q & -> & El & _). destruct Os' as (q' & -> & El' & _). constructor; [|constructor]. unfold out_pair. rewrite <- El, <- El'. apply S3.
    + rewrite Os, Os'. constructor.
Qed.

Lemma stack_lengths (st st' : fstate) tw ex s : sim st st' tw ex -> length (stack_of st s) = length (stack_of st' s).
Proof. intros S. eapply Forall2_length, (sim_stacks _ _ _ _ _ _ _ _ S). Qed.
Lemma sim_set_stack (st st' : fstate) tw ex s c c' l l' : sim st st' tw ex -> inside (f_graph st) c -> inside (f_graph st') c' -> L st' tw ex c c' ->
  Forall (inside (f_graph st)) l -> Forall (inside (f_graph st')) l' -> Forall2 (L st' tw ex) l l' ->
  sim (set_stack (set_out st false) s c l) (set_stack (set_out st' false) s c' l') tw ex.
Proof.
  intros [G G' S1 S2 S3 S4 S5 S6 S7] Hc Hc' HL Hl Hl' HF. constructor.
  - now apply set_stack_good.
  - now apply set_stack_good.
  - destruct s; exact S1.
  - destruct s; reflexivity.
  - destruct s; exact S3.
  - exact S4.
  - destruct s; exact S5.
  - destruct s; exact HL.
  - intros t. replace (heap (f_graph (set_stack (set_out st' false) s c' l'))) with (heap (f_graph st')) by (destruct s; reflexivity).
    destruct s, t; cbn [set_stack stack_of f_a f_b set_out]; try exact HF; [apply (S7 B)|apply (S7 A)].
Qed.

Lemma line_both k st st' tw ex : both st st' tw ex ->
  (forall w out a, k = KLayer w out a -> act_fine a /\ (out = true -> exists l, a = AActivation l)) ->
  agrees (perform_line rand cfg data add_loss_layer k st) (perform_line rand cfg' data' add_loss_layer k st').
Proof.
  intros H Hk. pose proof (both_sim _ _ _ _ H) as S. destruct k as [| |s|s|w out a].
  - exists tw, ex. exact H.
  - exists tw, ex. apply (both_vars st st'); auto. apply (sim_vars cfg cfg' data data' st st'); auto; apply S.
  - cbn [perform_line]. unfold push. rewrite <- (stack_lengths _ _ _ _ s S). destruct (_ <? _); [|exact I].
    exists tw, ex. apply (both_vars st st'); auto; try (destruct s; reflexivity).
    apply sim_set_stack; auto; try (apply S).
    + constructor; [apply (good_last _ _ _ (sim_good _ _ _ _ _ _ _ _ S))|apply (good_stacks _ _ _ (sim_good _ _ _ _ _ _ _ _ S))].
    + constructor; [apply (good_last _ _ _ (sim_good' _ _ _ _ _ _ _ _ S))|apply (good_stacks _ _ _ (sim_good' _ _ _ _ _ _ _ _ S))].
    + constructor; apply S.
  - cbn [perform_line]. unfold pop. pose proof (sim_stacks _ _ _ _ _ _ _ _ S s) as F.
    pose proof (good_stacks _ _ _ (sim_good _ _ _ _ _ _ _ _ S) s) as F1. pose proof (good_stacks _ _ _ (sim_good' _ _ _ _ _ _ _ _ S) s) as F2.
    destruct F as [|c c' l l' Fc Fl]; cbn [bind fst snd]; [exact I|]. inversion F1; subst. inversion F2; subst.
    exists tw, ex. apply (both_vars st st'); auto; try (destruct s; reflexivity). now apply sim_set_stack.
  - destruct (Hk w out a eq_refl) as [Hf Ho]. now apply (layer_both w out a st st' tw ex).
Qed.

Notation read c dt := (read_config_line read_datum d0 d1 rand c dt classes add_loss_layer).
Lemma read_both line st st' tw ex : neutral line -> both st st' tw ex -> agrees (read cfg data st line) (read cfg' data' st' line).
Proof.
  intros N H. rewrite !read_line_action. destruct (neutral_action read_datum d0 d1 cfg cfg' classes Hpatch Hfcn line N) as [E|(w & E & E')].
  - rewrite <- E. destruct (line_action read_datum d0 d1 cfg classes line) as [k| |] eqn:Ek; cbn [bind]; try exact I.
    apply (line_both k st st' tw ex H). intros w out a ->. split; [exact (line_fine _ _ _ _ _ _ _ _ _ Ek)|].
    pose proof (action_inv read_datum d0 d1 cfg classes line _ Ek) as (_ & Ho & _). intros Ho'. apply (Ho Ho').
  - rewrite E, E'. cbn [bind perform_line perform]. unfold final_upscale, add_loss. cbn [f_out set_out andb bind].
    exists tw, ex. pose proof (both_sim _ _ _ _ H) as S. apply (both_vars st st'); auto. apply (sim_vars cfg cfg' data data' st st'); auto; apply S.
Qed.
Lemma lines_both lines : Forall neutral lines -> forall st st' tw ex, both st st' tw ex -> agrees (foldm (read cfg data) lines st) (foldm (read cfg' data') lines st').
Proof.
  induction 1 as [|line lines N _ IH]; intros st st' tw ex H; cbn [foldm]; [now exists tw, ex|].
  pose proof (read_both line st st' tw ex N H) as R. unfold agrees in R. destruct (read cfg data st line), (read cfg' data' st' line); try contradiction; cbn [bind]; try exact I.
  destruct R as (tw2 & ex2 & H2). now apply (IH _ _ tw2 ex2).
Qed.

Lemma start_both : healthy g -> four_outputs g data -> healthy g' -> four_outputs g' data' -> c_buffer data = 0 -> c_buffer data' = 0 ->
  exists st st' tw ex, start cfg data g = Ok st /\ start cfg' data' g' = Ok st' /\ both st st' tw ex.
Proof.
  intros Hh Hd Hh' Hd' Hb Hb'.
  set (s0 := mkF g data [] [] ((factorx cfg =? 1) && (factory_ cfg =? 1))%Z 0 [] false : fstate).
  set (s0' := mkF g' data' [] [] ((factorx cfg' =? 1) && (factory_ cfg' =? 1))%Z 0 [] false : fstate).
  assert (S : sim s0 s0' [] []).
  { constructor; try reflexivity.
    - constructor; cbn [f_graph s0 f_last f_up]; auto. { exact (proj1 Hd). } intros []; constructor.
    - constructor; cbn [f_graph s0' f_last f_up]; auto. { exact (proj1 Hd'). } intros []; constructor.
    - constructor.
    - constructor.
    - constructor.
    - apply leads_data; cbn; congruence.
    - intros []; constructor. }
  assert (E : start cfg data g = Ok s0) by (unfold start; rewrite (no_fcn cfg Hpatch); reflexivity).
  unfold start at 2. fold s0'. destruct (fcn cfg' && _) eqn:F.
  - destruct (sim_add_extra cfg cfg' data data' s0 s0' [] [] (LResize (a_rf (g_x cfg')) (a_rf (g_y cfg'))) false false S I ltac:(discriminate) (or_introl eq_refl))
      as (s1 & ex1 & E1 & S1 & _ & _).
    destruct (start_ok (D := D) cfg' data' g' Hh' Hd') as (s2 & E2 & G2 & B2 & _).
    unfold start in E2. fold s0' in E2. rewrite F, E1 in E2. injection E2 as <-.
    exists s0, s1, [], ex1. split; [exact E|]. split; [exact E1|]. constructor; [exact S1|apply built_nil|exact B2|].
    destruct (add_behind_ok cfg' data' s0' (LResize (a_rf (g_x cfg')) (a_rf (g_y cfg'))) false false (sim_good' _ _ _ _ _ _ _ _ S) I ltac:(discriminate))
      as (s2 & E2 & A2 & _ & _ & _ & _ & _ & _ & O2 & _). rewrite E1 in E2. injection E2 as <-. rewrite (adv_made _ _ _ _ _ A2).
    cbn [s0' f_made app]. cbn zeta in O2. rewrite O2. constructor.
  - exists s0, s0', [], []. split; [exact E|]. split; [reflexivity|]. constructor; [exact S|apply built_nil|apply built_nil|constructor].
Qed.
End Run.

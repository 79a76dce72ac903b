(** Building both networks of a hybrid session side by side. *)
From Coq Require Import Ascii String List.
From Verif Require Import Base BaseFacts Str_Model Str_Proofs Config_Model Graph_Model Graph_Spec GraphAdd_Proofs
  Receptive_Model Factory_Model Factory_Spec Factory_Proofs FactoryRun_Proofs FactoryLines_Proofs Hybrid_Model Hybrid_Spec.
Local Open Scope string_scope.
Local Open Scope list_scope.
Local Open Scope nat_scope.

(** ** Connections *)
Section Leads.
Context {D : Type} (data data' : connection).
Notation layer := (@layer D).

Lemma leads_weaken h h2 tw tw2 (ex ex2 : list (nat * layer)) c c' :
  (forall n nd, nth_error h n = Some nd -> exists nd', nth_error h2 n = Some nd' /\ n_inputs nd' = n_inputs nd) ->
  incl tw tw2 -> incl ex ex2 -> leads data data' h tw ex c c' -> leads data data' h2 tw2 ex2 c c'.
Proof.
  intros Hh Ht He. induction 1 as [c c' H1 H2 H3|c c' p p' H1 H2 H3 H4|c c' q nd c'' H1 H2 H3 H4 H5 _ IH].
  - now apply leads_data.
  - apply (leads_twin _ _ _ _ _ _ _ p p'); auto.
  - destruct (Hh q nd H4) as (nd' & E & Ei). apply (leads_extra _ _ _ _ _ _ _ q nd' c''); auto; [|congruence].
    apply in_map_iff in H1. destruct H1 as (x & <- & Hx). apply in_map. auto.
Qed.
Lemma leads_flags h tw (ex : list (nat * layer)) c c' d d' : leads data data' h tw ex c c' ->
  c_node d = c_node c -> c_buffer d = c_buffer c -> c_node d' = c_node c' -> c_buffer d' = c_buffer c' -> leads data data' h tw ex d d'.
Proof.
  intros L. revert d d'. induction L as [c c' H1 H2 H3|c c' p p' H1 H2 H3 H4|c c' q nd c'' H1 H2 H3 H4 H5 _ IH]; intros d d' E1 E2 E3 E4.
  - apply leads_data; congruence.
  - apply (leads_twin _ _ _ _ _ _ _ p p'); congruence.
  - apply (leads_extra _ _ _ _ _ _ _ q nd c''); auto; congruence.
Qed.
Lemma settled_node h c : c_node (settled h c) = c_node c /\ c_buffer (settled h c) = c_buffer c.
Proof. unfold settled. destruct (c_node c) eqn:E; [|auto]. destruct (_ && _); cbn; auto. Qed.
Lemma leads_settled h1 h2 h tw (ex : list (nat * layer)) cs cs' : Forall2 (leads data data' h tw ex) cs cs' ->
  Forall2 (leads data data' h tw ex) (map (settled h1) cs) (map (settled h2) cs').
Proof.
  induction 1 as [|c c' cs cs' H _ IH]; cbn [map]; constructor; [|exact IH].
  eapply leads_flags; [exact H|apply settled_node..].
Qed.
End Leads.

Lemma Forall2_weaken {X Y} (R S : X -> Y -> Prop) xs ys : (forall x y, R x y -> S x y) -> Forall2 R xs ys -> Forall2 S xs ys.
Proof. intros H. induction 1; constructor; auto. Qed.
Lemma built_ext {D} g g' (made : list (nat * @layer D)) : built g g' made ->
  forall n nd, nth_error (heap g) n = Some nd -> exists nd', nth_error (heap g') n = Some nd' /\ n_inputs nd' = n_inputs nd.
Proof. intros Bt n nd E. destruct (built_same _ _ _ Bt n nd E) as (nd' & E' & S). exists nd'. split; [exact E'|apply S]. Qed.

Section Sim.
Context {D : Type} (read_datum : str -> D) (d0 d1 : D) (rand : nat -> Z).
Variables (cfg cfg' : geo) (data data' : connection) (classes : Z) (add_loss_layer : bool).
Hypothesis Hpatch : g_patch cfg = true.
Hypothesis Hfcn : g_patch cfg' = false.
Notation layer := (@layer D).
Notation fstate := (@fstate D).
Notation L st' tw ex := (leads data data' (heap (f_graph st')) tw ex).

Definition twin_inputs (st st' : fstate) (R : connection -> connection -> Prop) (x : nat * nat) : Prop :=
  exists nd nd', nth_error (heap (f_graph st)) (fst x) = Some nd /\ nth_error (heap (f_graph st')) (snd x) = Some nd' /\
    Forall2 R (n_inputs nd) (n_inputs nd').

Record sim (st st' : fstate) (tw : list (nat * nat)) (ex : list (nat * layer)) : Prop := mkSim {
  sim_good : good cfg data st; sim_good' : good cfg' data' st';
  sim_draws : f_draws st = f_draws st'; sim_out : f_out st = f_out st';
  sim_al : aligned (f_made st) (f_made st') tw ex;
  sim_extra : Forall (fun x => whole_image cfg' (snd x)) ex;
  sim_twins : Forall (twin_inputs st st' (L st' tw ex)) tw;
  sim_last : L st' tw ex (f_last st) (f_last st');
  sim_stacks : forall s, Forall2 (L st' tw ex) (stack_of st s) (stack_of st' s) }.

(** Variables. *)
Lemma sim_vars st st' tw ex s s' : sim st st' tw ex ->
  f_graph s = f_graph st -> f_last s = f_last st -> f_a s = f_a st -> f_b s = f_b st -> f_made s = f_made st -> (f_up s = false -> f_up st = false) ->
  f_graph s' = f_graph st' -> f_last s' = f_last st' -> f_a s' = f_a st' -> f_b s' = f_b st' -> f_made s' = f_made st' -> (f_up s' = false -> f_up st' = false) ->
  f_draws s = f_draws s' -> f_out s = f_out s' -> sim s s' tw ex.
Proof.
  intros [G G' S1 S2 S3 S4 S5 S6 S7] E1 E2 E3 E4 E5 E6 F1 F2 F3 F4 F5 F6 Ed Eo. constructor; auto.
  - now apply (good_vars _ _ st).
  - now apply (good_vars _ _ st').
  - now rewrite E5, F5.
  - unfold twin_inputs in *. now rewrite E1, F1.
  - now rewrite E2, F1, F2.
  - intros s0. replace (stack_of s s0) with (stack_of st s0) by (destruct s0; cbn; congruence).
    replace (stack_of s' s0) with (stack_of st' s0) by (destruct s0; cbn; congruence). rewrite F1. apply S7.
Qed.

(** The same layer in both networks. *)
Lemma sim_both st st' tw ex l cs cs' out out' : sim st st' tw ex ->
  Forall (inside (f_graph st)) cs -> Forall (inside (f_graph st')) cs' -> Forall2 (L st' tw ex) cs cs' ->
  exists s s' p p', new_node st l cs out = Ok (p, s) /\ new_node st' l cs' out' = Ok (p', s') /\
    sim s s' (tw ++ [(p, p')]) ex /\ f_last s = f_last st /\ f_last s' = f_last st' /\ f_out s = f_out st /\
    f_up s = f_up st /\ f_up s' = f_up st' /\ (forall bp, L s' (tw ++ [(p, p')]) ex (mkConn (Some p) 0 bp) (mkConn (Some p') 0 bp)).
Proof.
  intros [G G' S1 S2 S3 S4 S5 S6 S7] Hc Hc' HL.
  destruct (new_node_ok cfg data st l cs out G Hc) as (s & E & A & Q1 & Q2 & Q3 & Q4 & Hi & _).
  destruct (new_node_ok cfg' data' st' l cs' out' G' Hc') as (s' & E' & A' & Q1' & Q2' & Q3' & Q4' & Hi' & _). cbn zeta in *.
  set (p := length (heap (f_graph st))) in *. set (p' := length (heap (f_graph st'))) in *.
  exists s, s', p, p'. split; [exact E|]. split; [exact E'|].
  assert (W : forall c c', L st' tw ex c c' -> L s' (tw ++ [(p, p')]) ex c c').
  { intros c c'. apply leads_weaken; [apply (built_ext _ _ _ (adv_built _ _ _ _ _ A'))|apply incl_appl, incl_refl|apply incl_refl]. }
  split; [|split; [exact Q1|split; [exact Q1'|split; [exact Q3|split; [exact Q2|split; [exact Q2'|]]]]]].
  - constructor.
    + apply A.
    + apply A'.
    + congruence.
    + congruence.
    + rewrite (adv_made _ _ _ _ _ A), (adv_made _ _ _ _ _ A'). now constructor.
    + exact S4.
    + apply Forall_app. split.
      * eapply Forall_impl; [|exact S5]. intros [q q'] (nd & nd' & En & En' & HF).
        destruct (built_ext _ _ _ (adv_built _ _ _ _ _ A) _ _ En) as (md & Em & Ei).
        destruct (built_ext _ _ _ (adv_built _ _ _ _ _ A') _ _ En') as (md' & Em' & Ei').
        exists md, md'. split; [exact Em|]. split; [exact Em'|]. rewrite Ei, Ei'. eapply Forall2_weaken; [exact W|exact HF].
      * constructor; [|constructor]. destruct Hi as (nd & En & Ei). destruct Hi' as (nd' & En' & Ei').
        exists nd, nd'. split; [exact En|]. split; [exact En'|]. rewrite Ei, Ei'. apply leads_settled. eapply Forall2_weaken; [exact W|exact HL].
    + rewrite Q1, Q1'. now apply W.
    + intros s0. rewrite (adv_stacks _ _ _ _ _ A), (adv_stacks _ _ _ _ _ A'). eapply Forall2_weaken; [exact W|apply S7].
  - intros bp. apply (leads_twin _ _ _ _ _ _ _ p p'); auto. apply in_or_app. right. now left.
Qed.

Lemma sim_add_last st st' tw ex l cs cs' out out' bp : sim st st' tw ex -> no_error l ->
  Forall (inside (f_graph st)) cs -> Forall (inside (f_graph st')) cs' -> Forall2 (L st' tw ex) cs cs' ->
  exists s s' tw2, add_last st l cs out bp = Ok s /\ add_last st' l cs' out' bp = Ok s' /\ sim s s' tw2 ex /\
    c_buffer (f_last s) = 0 /\ c_buffer (f_last s') = 0 /\ f_out s = f_out st /\ incl tw tw2.
Proof.
  intros S Hl Hc Hc' HL. destruct (sim_both st st' tw ex l cs cs' out out' S Hc Hc' HL) as (s & s' & p & p' & E & E' & S2 & Q1 & Q2 & Q3 & Q4 & Q5 & HL2).
  destruct (add_last_ok cfg data st l cs out bp (sim_good _ _ _ _ S) Hc Hl) as (t & F & Adv & _).
  destruct (add_last_ok cfg' data' st' l cs' out' bp (sim_good' _ _ _ _ S) Hc' Hl) as (t' & F' & Adv' & _).
  exists t, t', (tw ++ [(p, p')]). split; [exact F|]. split; [exact F'|].
  unfold add_last in F, F'. rewrite E in F. rewrite E' in F'. cbn [bind] in F, F'. injection F as <-. injection F' as <-.
  split; [|cbn [f_last set_last c_buffer f_out]; auto using incl_appl, incl_refl]. destruct S2 as [H1 H2 H3 H4 H5 H6 H7 H8 H9]. constructor; auto.
  - apply Adv.
  - apply Adv'.
  - apply HL2.
Qed.

Lemma sim_add_behind st st' tw ex l out out' bp : sim st st' tw ex -> no_error l ->
  exists s s' tw2, add_behind st l out bp = Ok s /\ add_behind st' l out' bp = Ok s' /\ sim s s' tw2 ex /\
    c_buffer (f_last s) = 0 /\ c_buffer (f_last s') = 0 /\ f_out s = f_out st /\ incl tw tw2.
Proof.
  intros S Hl. apply (sim_add_last st st' tw ex); auto.
  - constructor; [apply (good_last _ _ _ (sim_good _ _ _ _ S))|constructor].
  - constructor; [apply (good_last _ _ _ (sim_good' _ _ _ _ S))|constructor].
  - constructor; [apply (sim_last _ _ _ _ S)|constructor].
Qed.

(** A layer for whole images. *)
Lemma sim_add_extra st st' tw ex l out bp : sim st st' tw ex -> no_error l -> l <> LConcatenation -> whole_image cfg' l ->
  exists s' ex2, add_behind st' l out bp = Ok s' /\ sim st s' tw ex2 /\ c_buffer (f_last s') = 0 /\ incl ex ex2.
Proof.
  intros [G G' S1 S2 S3 S4 S5 S6 S7] Hl Hn Hw.
  destruct (add_behind_ok cfg' data' st' l out bp G' Hl Hn) as (s' & E' & A' & Q1' & Q2' & Q3' & Q4' & _ & Hi' & _). cbn zeta in *.
  set (p' := length (heap (f_graph st'))) in *. exists s', (ex ++ [(p', l)]). split; [exact E'|].
  assert (W : forall c c', L st' tw ex c c' -> L s' tw (ex ++ [(p', l)]) c c').
  { intros c c'. apply leads_weaken; [apply (built_ext _ _ _ (adv_built _ _ _ _ _ A'))|apply incl_refl|apply incl_appl, incl_refl]. }
  split; [|split; [rewrite Q1'; reflexivity|apply incl_appl, incl_refl]]. constructor.
  - exact G.
  - apply A'.
  - congruence.
  - congruence.
  - rewrite (adv_made _ _ _ _ _ A'). now constructor.
  - apply Forall_app. split; [exact S4|]. constructor; [exact Hw|constructor].
  - eapply Forall_impl; [|exact S5]. intros [q q'] (nd & nd' & En & En' & HF).
    destruct (built_ext _ _ _ (adv_built _ _ _ _ _ A') _ _ En') as (md' & Em' & Ei').
    exists nd, md'. split; [exact En|]. split; [exact Em'|]. rewrite Ei'. eapply Forall2_weaken; [exact W|exact HF].
  - rewrite Q1'. destruct Hi' as (nd' & En' & Ei'). cbn [map] in Ei'.
    apply (leads_extra _ _ _ _ _ _ _ p' nd' (settled (heap (f_graph s')) (f_last st'))); auto.
    + rewrite map_app. apply in_or_app. right. now left.
    + eapply leads_flags; [apply W, S6|reflexivity..|apply settled_node|apply settled_node].
  - intros s0. rewrite (adv_stacks _ _ _ _ _ A'). eapply Forall2_weaken; [exact W|apply S7].
Qed.

Definition sim_upscale := LUpscale (D := D) (to_uint (factorx cfg')) (to_uint (factory_ cfg')).
Lemma upscale_extra : no_error sim_upscale /\ sim_upscale <> LConcatenation /\ whole_image cfg' sim_upscale.
Proof. split; [exact I|]. split; [discriminate|]. now right. Qed.

Lemma no_fcn : fcn cfg = false. Proof. unfold fcn. now rewrite Hpatch. Qed.
Lemma yes_fcn : fcn cfg' = true. Proof. unfold fcn. now rewrite Hfcn. Qed.

Lemma sim_perform a st st' tw ex : sim st st' tw ex -> act_fine a -> (f_out st = true -> exists l, a = AActivation l) ->
  exists s s' tw2 ex2, perform rand cfg data a st = Ok s /\ perform rand cfg' data' a st' = Ok s' /\ sim s s' tw2 ex2 /\ incl tw tw2 /\ incl ex ex2 /\
    (f_out s = true -> c_buffer (f_last s) = 0 /\ c_buffer (f_last s') = 0).
Proof.
  intros S Hf Hout. assert (Ho : f_out st = f_out st') by apply S. destruct a as [|l seeded bp|l| |l s|fx fy o]; cbn [perform act_fine] in *.
  - exists st, st', tw, ex. split; [reflexivity|]. split; [reflexivity|]. split; [exact S|]. split; [apply incl_refl|]. split; [apply incl_refl|]. intros H. destruct (Hout H) as (? & X). discriminate X.
  - destruct Hf as [Hf _]. destruct seeded.
    + rewrite <- (sim_draws _ _ _ _ S).
      destruct (sim_add_behind (draw st) (draw st') tw ex (with_seed (rand (f_draws st)) l) false false bp) as (s & s' & tw2 & E & E' & S2 & B1 & B2 & _ & I2).
      { apply (sim_vars st st'); auto. cbn. f_equal. apply S. } { now apply with_seed_fine. }
      exists s, s', tw2, ex. auto 10 using incl_refl.
    + destruct (sim_add_behind st st' tw ex l false false bp S Hf) as (s & s' & tw2 & E & E' & S2 & B1 & B2 & _ & I2). exists s, s', tw2, ex. auto 10 using incl_refl.
  - destruct Hf as [Hf _].
    destruct (sim_add_behind st st' tw ex l (f_out st && (g_patch cfg || f_up st)) (f_out st' && (g_patch cfg' || f_up st')) true S Hf) as (s & s' & tw2 & E & E' & S2 & B1 & B2 & _ & I2).
    exists s, s', tw2, ex. auto 10 using incl_refl.
  - rewrite no_fcn, andb_false_r. cbn [bind]. rewrite yes_fcn, andb_true_r.
    assert (P : exists st1 ex1, (if negb (f_up st') then s <- add_behind st' sim_upscale false true ;; Ok (set_up s) else Ok st') = Ok st1 /\ sim st st1 tw ex1 /\ incl ex ex1).
    { destruct (negb (f_up st')); [|eauto using incl_refl]. destruct upscale_extra as (U1 & U2 & U3).
      destruct (sim_add_extra st st' tw ex sim_upscale false true S U1 U2 U3) as (s1 & ex1 & E & S1 & _ & J1). rewrite E. cbn [bind].
      exists (set_up s1), ex1. split; [reflexivity|]. split; [|exact J1]. apply (sim_vars st s1); auto; try discriminate; apply S1. }
    destruct P as (st1 & ex1 & E1 & S1 & J1). unfold sim_upscale in E1. rewrite E1. cbn [bind].
    destruct (sim_add_last st st1 tw ex1 LConcatenation [f_last st; mkConn (c_node data) 2 false] [f_last st1; mkConn (c_node data') 2 false] false false true S1 I)
      as (s & s' & tw2 & E & E' & S2 & B1 & B2 & _ & I2).
    + constructor; [apply (good_last _ _ _ (sim_good _ _ _ _ S1))|]. constructor; [|constructor]. apply (data_two _ _ _ (sim_good _ _ _ _ S1)).
    + constructor; [apply (good_last _ _ _ (sim_good' _ _ _ _ S1))|]. constructor; [|constructor]. apply (data_two _ _ _ (sim_good' _ _ _ _ S1)).
    + constructor; [apply (sim_last _ _ _ _ S1)|]. constructor; [|constructor]. now apply leads_data.
    + exists s, s', tw2, ex1. auto 10.
  - destruct (sim_add_last st st' tw ex l (stack_of st s) (stack_of st' s) false false true S Hf) as (t & t' & tw2 & E & E' & S2 & B1 & B2 & _ & I2).
    + apply (good_stacks _ _ _ (sim_good _ _ _ _ S)).
    + apply (good_stacks _ _ _ (sim_good' _ _ _ _ S)).
    + apply (sim_stacks _ _ _ _ S).
    + exists t, t', tw2, ex. auto 10 using incl_refl.
  - destruct (sim_add_behind st st' tw ex (LUpscale fx fy) o o true S I) as (s & s' & tw2 & E & E' & S2 & B1 & B2 & _ & I2). rewrite E, E'. cbn [bind].
    exists (set_up (set_out s o)), (set_up (set_out s' o)), tw2, ex. split; [reflexivity|]. split; [reflexivity|]. split; [|auto using incl_refl].
    apply (sim_vars s s'); auto; try discriminate. apply S2.
Qed.

Lemma sim_final st st' tw ex : sim st st' tw ex -> (f_out st = true -> c_buffer (f_last st) = 0 /\ c_buffer (f_last st') = 0) ->
  exists s s' ex2, final_upscale cfg st = Ok s /\ final_upscale cfg' st' = Ok s' /\ sim s s' tw ex2 /\ incl ex ex2 /\
    (f_out s = true -> c_buffer (f_last s) = 0 /\ c_buffer (f_last s') = 0).
Proof.
  intros S Hb. unfold final_upscale. rewrite no_fcn, andb_false_r. cbn [andb].
  destruct (_ && _).
  - destruct upscale_extra as (U1 & U2 & U3). destruct (sim_add_extra st st' tw ex sim_upscale true true S U1 U2 U3) as (s1 & ex1 & E & S1 & B & J1).
    exists st, s1, ex1. split; [reflexivity|]. split; [exact E|]. split; [exact S1|]. split; [exact J1|]. intros Ho. split; [apply (Hb Ho)|exact B].
  - exists st, st', ex. auto using incl_refl.
Qed.

Lemma sim_loss w st st' tw ex : sim st st' tw ex -> (f_out st = true -> c_buffer (f_last st) = 0 /\ c_buffer (f_last st') = 0) ->
  exists s s' tw2, add_loss data add_loss_layer w st = Ok s /\ add_loss data' add_loss_layer w st' = Ok s' /\ sim s s' tw2 ex /\ incl tw tw2.
Proof.
  intros S Hb. unfold add_loss. rewrite <- (sim_out _ _ _ _ S). destruct (f_out st) eqn:Eo; cbn [andb]; [|exists st, st', tw; auto using incl_refl].
  destruct add_loss_layer; [|exists st, st', tw; auto using incl_refl]. destruct (Hb eq_refl) as [B1 B2].
  pose proof (sim_good _ _ _ _ S) as G. pose proof (sim_good' _ _ _ _ S) as G'.
  destruct (sim_both st st' tw ex (LError w) (loss_inputs data (f_last st)) (loss_inputs data' (f_last st')) false false S) as (s & s' & p & p' & E & E' & S2 & _).
  - destruct (good_data _ _ _ G) as [_ Hd]. constructor; [|constructor; [apply Hd; lia|constructor; [apply Hd; lia|constructor]]].
    destruct (good_last _ _ _ G) as (q & m & Eq & Hq & Em & Hx). exists q, m. cbn [c_node c_buffer]. repeat (split; [assumption|]). lia.
  - destruct (good_data _ _ _ G') as [_ Hd]. constructor; [|constructor; [apply Hd; lia|constructor; [apply Hd; lia|constructor]]].
    destruct (good_last _ _ _ G') as (q & m & Eq & Hq & Em & Hx). exists q, m. cbn [c_node c_buffer]. repeat (split; [assumption|]). lia.
  - constructor; [|constructor; [now apply leads_data|constructor; [now apply leads_data|constructor]]].
    eapply leads_flags; [apply (sim_last _ _ _ _ S)|cbn; congruence..].
  - unfold loss_inputs in E, E'. rewrite E, E'. cbn [bind snd]. exists s, s', (tw ++ [(p, p')]). auto using incl_appl, incl_refl.
Qed.
End Sim.

(** ** The word flatten *)
Definition holds (w s : str) : Prop := exists a b, s = a ++ w ++ b.
Lemma holds_sep w a c b : ~ In c w -> holds w (a ++ c :: b) -> holds w a \/ holds w b.
Proof.
  intros Hc (u & v & E). destruct (app_eq_app _ _ _ _ E) as (l & [[E1 E2]|[E1 E2]]).
  - destruct (app_eq_app _ _ _ _ E2) as (m & [[F1 F2]|[F1 F2]]).
    + destruct m as [|x m]; cbn [app] in F2.
      * left. exists u, []. rewrite app_nil_r in F1. subst. now rewrite app_nil_r.
      * injection F2 as <- _. exfalso. apply Hc. rewrite F1. apply in_or_app. right. now left.
    + left. exists u, m. rewrite E1, F1. reflexivity.
  - destruct l as [|x l]; cbn [app] in E2.
    + destruct w as [|x w]; [right; now exists [], b|]. cbn [app] in E2. injection E2 as -> _. exfalso. apply Hc. now left.
    + injection E2 as _ ->. right. now exists l, v.
Qed.
Lemma holds_first w k s : holds w (firstn k s) -> holds w s.
Proof. intros (a & b & E). exists a, (b ++ skipn k s). rewrite <- (firstn_skipn k s) at 1. rewrite E. now rewrite <- !app_assoc. Qed.
Lemma holds_rest w k s : holds w (skipn k s) -> holds w s.
Proof. intros (a & b & E). exists (firstn k s ++ a), b. rewrite <- (firstn_skipn k s) at 1. rewrite E. now rewrite <- !app_assoc. Qed.
Lemma holds_chars w a r b : r <> [] -> (forall c, In c r -> ~ In c w) -> holds w (a ++ r ++ b) -> holds w a \/ holds w b.
Proof.
  intros Hn Hc. destruct r as [|c r]; [congruence|]. clear Hn. revert c a Hc. induction r as [|c' r IH]; intros c a Hc H.
  - apply (holds_sep w a c b); [apply Hc; now left|exact H].
  - cbn [app] in H. destruct (holds_sep w a c (c' :: r ++ b)) as [H1|H1]; [apply Hc; now left|exact H|now left|].
    destruct (IH c' []) as [(u & v & E)|H2]; [intros x Hx; apply Hc; now right|exact H1| |now right].
    symmetry in E. apply app_eq_nil in E as [_ E]. apply app_eq_nil in E as [-> _]. left. now exists [], a.
Qed.
Lemma holds_between w a c m c' b : ~ In c w -> ~ In c' w -> ~ holds w m -> holds w (a ++ (c :: m ++ [c']) ++ b) -> holds w a \/ holds w b.
Proof.
  intros H1 H2 H3 H. cbn [app] in H. destruct (holds_sep w a c ((m ++ [c']) ++ b) H1 H) as [?|H4]; [now left|].
  rewrite <- app_assoc in H4. cbn [app] in H4. destruct (holds_sep w m c' b H2 H4); [contradiction|now right].
Qed.
Lemma holds_find w s : find w s 0 = None -> ~ holds w s.
Proof.
  intros F (a & b & E). pose proof (find_from_spec 0 w s) as H. unfold find in F. cbn [Nat.leb skipn] in F. rewrite F in H.
  assert (Hl : length a <= length s) by (rewrite E, app_length; lia).
  specialize (H (length a) Hl). rewrite E, skipn_app, skipn_all2, Nat.sub_diag in H by lia. cbn [skipn app] in H.
  rewrite starts_self in H. discriminate H.
Qed.

Notation flat := (s_ "flatten").
Lemma flat_chars c : In c (print_int 0) \/ is_digit c = true \/ c = "-"%char -> ~ In c flat.
Proof.
  intros H Hi. cbn in Hi. repeat (destruct Hi as [<-|Hi]; [destruct H as [H|[H|H]]; [cbn in H; destruct H as [H|[]]; discriminate H|discriminate H|discriminate H]|]). exact Hi.
Qed.
Lemma print_chars z : print_int z <> [] /\ forall c, In c (print_int z) -> is_digit c = true \/ c = "-"%char.
Proof.
  assert (P : forall y, (0 <= y)%Z -> decimal y <> [] /\ forall c, In c (decimal y) -> is_digit c = true).
  { intros y Hy. split; [apply decimal_nonempty|]. apply Forall_forall. now apply decimal_digits. }
  unfold print_int. destruct (z <? 0)%Z eqn:E.
  - apply Z.ltb_lt in E. split; [discriminate|]. intros c [<-|Hc]; [now right|left]. destruct (P (-z)%Z) as [_ H]; [lia|auto].
  - apply Z.ltb_ge in E. destruct (P z E) as [P1 P2]. split; [exact P1|]. intros c Hc. left. auto.
Qed.
Lemma fill_flat classes line l1 l2 : fill_outputs classes line = Ok l1 -> fill_connected l1 = Ok l2 -> holds flat l2 -> holds flat line.
Proof.
  intros E1 E2 H. assert (H1 : holds flat l1).
  { unfold fill_connected in E2. destruct (find (s_ "fullyconnected") l1 0) as [pos|] eqn:F; [|injection E2 as <-; exact H].
    destruct (replace l1 pos 14 _) as [l| |] eqn:R; cbn [bind] in E2; try discriminate E2.
    destruct (find (s_ "neurons=") l 0) as [q|] eqn:G; [|discriminate E2].
    assert (Hl : holds flat l).
    { unfold replace in E2. destruct (q <=? _); [|discriminate E2]. injection E2 as <-.
      destruct (holds_between flat (firstn q l) "k"%char (s_ "ernels") "="%char (skipn (q + 8) l)) as [X|X];
        [| | |exact H|now apply holds_first in X|now apply holds_rest in X].
      - cbn. intuition discriminate.
      - cbn. intuition discriminate.
      - apply holds_find. vm_compute. reflexivity. }
    unfold replace in R. destruct (pos <=? _); [|discriminate R]. injection R as <-.
    destruct (holds_between flat (firstn pos l1) "c"%char (s_ "onvolutional size=1x") "1"%char (skipn (pos + 14) l1)) as [X|X];
      [| | |exact Hl|now apply holds_first in X|now apply holds_rest in X].
    - cbn. intuition discriminate.
    - cbn. intuition discriminate.
    - apply holds_find. vm_compute. reflexivity. }
  unfold fill_outputs in E1. destruct (find (s_ "(o)") line 0) as [pos|] eqn:F; [|injection E1 as <-; exact H1].
  unfold replace in E1. destruct (pos <=? _); [|discriminate E1]. injection E1 as <-.
  destruct (print_chars (to_int classes)) as [P1 P2].
  apply holds_chars in H1; [destruct H1 as [H1|H1]; [now apply holds_first in H1|now apply holds_rest in H1]|exact P1|].
  intros c Hc. apply flat_chars. right. auto.
Qed.

Section Lines.
Context {D : Type} (read_datum : str -> D) (d0 d1 : D).
Variables (cfg cfg' : geo) (classes : Z).
Hypothesis Hpatch : g_patch cfg = true.
Hypothesis Hfcn : g_patch cfg' = false.
Notation action c := (line_action read_datum d0 d1 c classes).

Lemma neutral_action line : neutral line ->
  action cfg line = action cfg' line \/ exists w, action cfg line = Ok (KLayer w false ANone) /\ action cfg' line = Ok KNothing.
Proof.
  intros [H|((r & Hb) & Ho & Hc)].
  - left. unfold line_action. destruct (compare0 line (s_ "#")); [reflexivity|].
    destruct (fill_outputs classes line) as [l1| |] eqn:E1; cbn [bind]; try reflexivity.
    destruct (fill_connected l1) as [l2| |] eqn:E2; cbn [bind]; try reflexivity.
    assert (N : find flat l2 0 = None).
    { apply find_mentions. intros M. apply H. exact (fill_flat classes line l1 l2 E1 E2 M). }
    unfold drop_flatten. rewrite N. destruct (fcn cfg), (fcn cfg'); reflexivity.
  - right. exists d1. unfold line_action, fill_outputs. rewrite (find_mentions _ _ Ho). cbn [bind].
    unfold fill_connected. rewrite (find_mentions _ _ Hc). cbn [bind]. unfold drop_flatten, fcn. rewrite Hpatch, Hfcn. cbn [negb].
    rewrite Hb. split; reflexivity.
Qed.
End Lines.

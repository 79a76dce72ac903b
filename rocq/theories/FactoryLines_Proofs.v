(** Proofs about [Factory_Model]: whole configurations. *)
From Coq Require Import Ascii String List.
From Verif Require Import Base BaseFacts Str_Model Config_Model Graph_Model Graph_Spec Graph_Proofs GraphAdd_Proofs
  Config_Spec Config_Props Receptive_Model Factory_Model Factory_Spec Factory_Proofs FactoryRun_Proofs.
Local Open Scope string_scope.
Local Open Scope list_scope.
Local Open Scope nat_scope.

Section Config.
Context {D : Type} (read_datum : str -> D) (d0 d1 : D) (rand : nat -> Z).
Variables (cfg : geo) (data : connection) (classes : Z) (add_loss_layer : bool).
Notation layer := (@layer D).
Notation fstate := (@fstate D).
Notation read_line := (read_config_line read_datum d0 d1 rand cfg data classes add_loss_layer).
Notation action_of := (line_action read_datum d0 d1 cfg classes).
Notation good := (@FactoryRun_Proofs.good D cfg data).
Notation advances := (@FactoryRun_Proofs.advances D cfg data).

Notation readable := (Factory_Spec.readable read_datum d0 d1 rand cfg data classes add_loss_layer).

Lemma readable_action line : readable line -> exists k, action_of line = Ok k.
Proof.
  intros (st & st' & H). rewrite read_line_action in H. destruct (action_of line) as [k| |]; try discriminate. eauto.
Qed.

Lemma bind_bind {A B C} (r : res A) (f : A -> res B) (h : B -> res C) : bind (bind r f) h = bind r (fun x => bind (f x) h).
Proof. now destruct r. Qed.
Lemma action_act_fine l (a : @act D) : action read_datum d0 d1 l = Ok a -> act_fine a.
Proof.
  unfold action, make_convolution, make_normalization. intros H.
  repeat match type of H with
  | (if ?c then _ else _) = _ => destruct c
  | Ok _ = Ok _ => injection H as <-
  | bind (bind _ _) _ = _ => rewrite bind_bind in H
  | bind (if ?c then _ else _) _ = _ => destruct c; cbn [bind] in H
  | bind ?r _ = _ => destruct r; cbn [bind] in H; try discriminate H
  | Fatal = _ => discriminate H
  | UB = _ => discriminate H
  end; cbn; auto; split; auto; discriminate.
Qed.
Lemma line_fine line w out a : action_of line = Ok (KLayer w out a) -> act_fine a.
Proof.
  unfold line_action. destruct (compare0 line (s_ "#")); [discriminate|].
  destruct (fill_outputs classes line) as [line1| |]; cbn [bind]; try discriminate.
  destruct (fill_connected line1) as [line2| |]; cbn [bind]; try discriminate.
  destruct (read_output _ _ _ _) as [[[l wt] o]| |]; cbn [bind]; try discriminate.
  destruct (compare0 l (s_ "pusha")); [discriminate|]. destruct (compare0 l (s_ "pushb")); [discriminate|].
  destruct (compare0 l (s_ "popa")); [discriminate|]. destruct (compare0 l (s_ "popb")); [discriminate|].
  destruct (compare0 l (s_ "?")); [|discriminate]. destruct (substr l 1) as [x| |]; cbn [bind]; try discriminate.
  destruct (action _ _ _ x) as [a'| |] eqn:E; cbn [bind]; try discriminate. intros [= _ _ <-]. now apply (action_act_fine x).
Qed.

Lemma set_stack_same (st : fstate) s c l : stack_of (set_stack st s c l) s = l.
Proof. now destruct s. Qed.
Lemma set_stack_other (st : fstate) s s' c l : s' <> s -> stack_of (set_stack st s c l) s' = stack_of st s'.
Proof. destruct s, s'; intros H; try reflexivity; congruence. Qed.
Lemma set_stack_good st s c l o : good st -> inside (f_graph st) c -> Forall (inside (f_graph st)) l -> good (set_stack (set_out st o) s c l).
Proof.
  intros [G1 G2 G3 G4 G5] Hc Hl.
  assert (Eg : f_graph (set_stack (set_out st o) s c l) = f_graph st) by (now destruct s).
  constructor; rewrite ?Eg; auto.
  - now destruct s.
  - intros s'. destruct s, s'; cbn [stack_of set_stack f_a f_b set_out]; auto; [apply (G4 B)|apply (G4 A)].
  - destruct s; exact G5.
Qed.

Lemma push_step st line s : good st -> plain line -> pushes s line ->
  if length (stack_of st s) <? 64
  then exists st', read_line st line = Ok st' /\ good st' /\ f_graph st' = f_graph st /\ f_made st' = f_made st /\ f_last st' = f_last st /\
         stack_of st' s = f_last st :: stack_of st s /\ (forall s', s' <> s -> stack_of st' s' = stack_of st s')
  else read_line st line = UB.
Proof.
  intros G P H. rewrite read_line_action, (action_push read_datum d0 d1 cfg classes line s P H). cbn [bind perform_line].
  unfold push, capacity. destruct (length (stack_of st s) <? 64); cbn [bind]; [|reflexivity].
  eexists. split; [reflexivity|]. split.
  { apply set_stack_good; [exact G|apply (good_last _ _ _ G)|]. constructor; [apply (good_last _ _ _ G)|apply (good_stacks _ _ _ G)]. }
  split; [now destruct s|]. split; [now destruct s|]. split; [now destruct s|]. split; [now rewrite set_stack_same|].
  intros s' Hs. rewrite set_stack_other by exact Hs. now destruct s'.
Qed.
Lemma pop_step st line s : good st -> plain line -> pops s line ->
  match stack_of st s with
  | c :: l => exists st', read_line st line = Ok st' /\ good st' /\ f_graph st' = f_graph st /\ f_made st' = f_made st /\ f_last st' = c /\
         stack_of st' s = l /\ (forall s', s' <> s -> stack_of st' s' = stack_of st s')
  | [] => read_line st line = UB
  end.
Proof.
  intros G P H. rewrite read_line_action, (action_pop read_datum d0 d1 cfg classes line s P H). cbn [bind perform_line].
  pose proof (good_stacks _ _ _ G s) as F. destruct (stack_of st s) as [|c l]; cbn [pop bind]; [reflexivity|]. inversion F as [|? ? Fc Fl]; subst.
  eexists. split; [reflexivity|]. split; [now apply set_stack_good|].
  split; [now destruct s|]. split; [now destruct s|]. split; [now destruct s|]. split; [now rewrite set_stack_same|].
  intros s' Hs. cbn [fst snd]. rewrite set_stack_other by exact Hs. now destruct s'.
Qed.

(** A line that is not a stack command. *)
Notation line_effect := (@Factory_Spec.line_effect D data add_loss_layer).
Lemma action_stack l ly s : action read_datum d0 d1 l = Ok (AStack ly s) -> s = B <-> exists v, has_value l (s_ "stack") v /\ begins "b" v.
Proof.
  assert (Hs : Forall (fun c => c <> " "%char) (s_ "stack")). { repeat constructor; discriminate. }
  assert (K : forall ly', (name <- parse_string_param l (s_ "stack") [] ;; Ok (AStack ly' (if compare0 name (s_ "b") then B else A))) = Ok (@AStack D ly s) ->
     s = B <-> exists v, has_value l (s_ "stack") v /\ begins "b" v).
  { intros ly'. destruct (C47_cases l (s_ "stack") Hs) as [[Ha|[v Hv]] Hu].
    - destruct (C47_absent l (s_ "stack") Ha) as (E & _). rewrite E. cbn. intros [= _ <-]. split; [discriminate|].
      intros (v & Hv & _). now destruct (Hu v Hv).
    - rewrite (C47_string _ _ _ [] Hv). cbn [bind]. destruct (compare0 v (s_ "b")) eqn:Ec; intros [= _ <-]; split; try discriminate; auto.
      + intros _. exists v. split; [exact Hv|]. now apply begins_iff.
      + intros (v' & Hv' & Hb). destruct (Hu v Hv) as [_ Hq]. rewrite <- (Hq v' Hv') in Hb. apply begins_iff in Hb. unfold compare0 in Ec. congruence. }
  unfold action, make_convolution, make_normalization. intros H.
  repeat match type of H with
  | (if ?c then _ else _) = _ => destruct c; [try (now apply (K _ H))|]
  | Ok _ = Ok _ => discriminate H
  | bind (bind _ _) _ = _ => rewrite bind_bind in H
  | bind (if ?c then _ else _) _ = _ => destruct c; cbn [bind] in H
  | bind ?r _ = _ => destruct r; cbn [bind] in H; try discriminate H
  | Fatal = _ => discriminate H
  | UB = _ => discriminate H
  end.
Qed.
Lemma action_named line w out ly s : action_of line = Ok (KLayer w out (AStack ly s)) -> unmarked line -> s = B <-> names_b line.
Proof.
  intros H (U1 & U2 & U3). destruct (plain_fill cfg classes line U1 U2 U3) as (F1 & F2 & F3). revert H.
  unfold line_action. destruct (compare0 line (s_ "#")); [discriminate|]. rewrite F1. cbn [bind]. rewrite F2. cbn [bind]. rewrite F3.
  unfold read_output. destruct (compare0 line (s_ "?output")) eqn:Eo.
  - destruct (parse_datum_param _ _ _ _) as [wt| |]; cbn [bind]; try discriminate. destruct (classes =? 1)%Z; cbn; discriminate.
  - cbn [bind]. 
    destruct (compare0 line (s_ "pusha")); [discriminate|]. destruct (compare0 line (s_ "pushb")); [discriminate|].
    destruct (compare0 line (s_ "popa")); [discriminate|]. destruct (compare0 line (s_ "popb")); [discriminate|].
    destruct (compare0 line (s_ "?")) eqn:Eq; [|discriminate]. destruct (substr line 1) as [x| |] eqn:El; cbn [bind]; try discriminate.
    assert (Hl : line = s_ "?" ++ x).
    { pose proof (proj2 (begins_iff "?" line) Eq) as [y Ey]. unfold substr in El. rewrite Ey in El |- *. cbn in El. now injection El as <-. }
    destruct (action _ _ _ x) as [a'| |] eqn:E; cbn [bind]; try discriminate. intros [= _ _ ->]. rewrite (action_stack _ _ _ E). unfold names_b. split.
    + intros (v & Hv). exists x, v. auto.
    + intros (l & v & El' & Hv). assert (l = x) as -> by (rewrite Hl in El'; cbn in El'; congruence). eauto.
Qed.

Lemma other_step st line : good st -> readable line -> ~ stack_command line ->
  exists st' made, read_line st line = Ok st' /\ advances st st' made /\ line_effect line st st' made.
Proof.
  intros G R Ns. destruct (readable_action line R) as (k & Ek). pose proof (action_inv _ _ _ _ _ _ _ Ek) as Inv.
  rewrite read_line_action, Ek. cbn [bind].
  assert (NoOut : plain line -> output_line line -> exists w l, k = KLayer w true (AActivation l)).
  { intros P Ho. now apply (action_output read_datum d0 d1 cfg classes line). }
  assert (Idle : forall st', good st' -> f_graph st' = f_graph st -> f_made st' = f_made st -> f_last st' = f_last st -> (forall s, stack_of st' s = stack_of st s) ->
     (forall w l, k <> KLayer w true (AActivation l)) -> advances st st' [] /\ line_effect line st st' []).
  { intros st' G' E1 E2 E3 E4 Nk. split.
    - constructor; [exact G'|rewrite E1; apply built_nil|rewrite app_nil_r; exact E2|exact E4].
    - split; [left; exact E3|]. split; [intros p w []|]. intros P Ho. destruct (NoOut P Ho) as (w & l & ->). exfalso. now apply (Nk w l). }
  destruct k as [| |s|s|w out a]; cbn [perform_line].
  - exists st, []. split; [reflexivity|]. apply Idle; try reflexivity; [exact G|]. intros w l. discriminate.
  - exists (set_out st false), []. split; [reflexivity|]. apply Idle; try reflexivity.
    + now apply (good_vars cfg data st).
    + intros w l. discriminate.
  - exfalso. apply Ns. exists s. now left.
  - exfalso. apply Ns. exists s. now right.
  - destruct Inv as (_ & Io & Is).
    destruct (layer_line_ok rand cfg data add_loss_layer w out a st G (line_fine _ _ _ _ Ek)) as (st' & made & E & Adv & W & Ls & O & K).
    { intros Ho. now destruct (Io Ho). }
    exists st', made. split; [exact E|]. split; [exact Adv|]. split; [|split].
    + destruct a as [|l seeded bp|l| |l s|fx fy o]; cbn [wired] in W; try (now left).
      right. split; [now apply Is|]. exists s. destruct W as (p & ly & ps & bp & W). exists p, ly, ps, bp. split; [|exact W]. intros Hu. now apply (action_named line w out l).
    + intros p w' Hi. destruct (Ls p (LError w') Hi) as [[]|[_ H]]. exact H.
    + intros P Ho. destruct (NoOut P Ho) as (w' & l & [= -> -> ->]). rewrite (K eq_refl) in O.
      destruct O as (q & O1 & O2 & O3). exists q. split; [exact O1|]. split; [exact O2|]. intros Hl. destruct (O3 Hl) as (p & Hp & _). eauto.
Qed.

Lemma push_eq line s s' : pushes s line -> pushes s' line -> s = s'.
Proof. exact (proj1 (push_pop_excl line s s')). Qed.
Lemma pop_eq line s s' : pops s line -> pops s' line -> s = s'.
Proof. exact (proj1 (proj2 (push_pop_excl line s s'))). Qed.
Lemma push_pop line s s' : pushes s line -> pops s' line -> False.
Proof. exact (proj2 (proj2 (push_pop_excl line s s'))). Qed.
Lemma stack_dec line : {s | pushes s line} + {s | pops s line} + {~ stack_command line}.
Proof.
  assert (Dec : forall w, {begins w line} + {~ begins w line}).
  { intros w. destruct (starts (s_ w) line) eqn:E; [left|right]; rewrite begins_iff; congruence. }
  destruct (Dec "pusha") as [H|H]; [left; left; now exists A|]. destruct (Dec "pushb") as [H'|H']; [left; left; now exists B|].
  destruct (Dec "popa") as [K|K]; [left; right; now exists A|]. destruct (Dec "popb") as [K'|K']; [left; right; now exists B|].
  right. intros ([] & [X|X]); contradiction.
Qed.
Lemma stack_eq_dec (a b : stack) : {a = b} + {a <> b}.
Proof. decide equality. Qed.
Definition depth_of (st : fstate) (s : stack) : nat := length (stack_of st s).

(** The stacks during a configuration. *)
Lemma run_lines lines : forall st, good st -> Forall readable lines -> Forall plain lines ->
  (exists st' made, foldm read_line lines st = Ok st' /\ good st' /\ built (f_graph st) (f_graph st') made /\ f_made st' = f_made st ++ made /\
     forall s, depth s (depth_of st s) lines (depth_of st' s)) \/
  (foldm read_line lines st = UB /\ exists s, forall m, ~ depth s (depth_of st s) lines m).
Proof.
  induction lines as [|line lines IH]; intros st G R P.
  - left. exists st, []. split; [reflexivity|]. split; [exact G|]. split; [apply built_nil|]. split; [now rewrite app_nil_r|]. intros s. constructor.
  - inversion R as [|? ? R1 R2]; subst. inversion P as [|? ? P1 P2]; subst. cbn [foldm].
    destruct (stack_dec line) as [[[s Hs]|[s Hs]]|Ns].
    + pose proof (push_step st line s G P1 Hs) as St. destruct (length (stack_of st s) <? 64) eqn:El.
      * apply Nat.ltb_lt in El. destruct St as (st1 & -> & G1 & Eg & Em & _ & Es & Eo). cbn [bind].
        assert (Dp : forall s' m, depth s' (depth_of st1 s') lines m -> depth s' (depth_of st s') (line :: lines) m).
        { intros s' m H. destruct (stack_eq_dec s' s) as [->|Ne].
          - apply depth_push; [exact Hs|exact El|]. unfold depth_of in H. rewrite Es in H. exact H.
          - unfold depth_of in H |- *. rewrite (Eo s' Ne) in H. apply depth_other; [| |exact H].
            + intros Hp. apply Ne. symmetry. now apply (push_eq line).
            + intros Hp. now apply (push_pop line s s'). }
        destruct (IH st1 G1 R2 P2) as [(st' & made & E & G' & Bt & Em' & Hd)|(E & s' & Hd)].
        -- left. exists st', made. rewrite Eg in Bt. rewrite Em in Em'. split; [exact E|]. split; [exact G'|]. split; [exact Bt|]. split; [exact Em'|]. intros s'. now apply Dp.
        -- right. split; [exact E|]. exists s'. intros m Hm. apply (Hd m). destruct (stack_eq_dec s' s) as [->|Ne].
           ++ inversion Hm as [|? ? ? ? Hp Hl Hr|? ? ? ? Hp Hr|? ? ? ? Hn1 Hn2 Hr]; subst.
              ** unfold depth_of in Hr |- *. rewrite Es. exact Hr.
              ** exfalso. now apply (push_pop line s s).
              ** contradiction.
           ++ unfold depth_of in Hm |- *. rewrite (Eo s' Ne). inversion Hm as [|? ? ? ? Hp Hl Hr|? ? ? ? Hp Hr|? ? ? ? Hn1 Hn2 Hr]; subst.
              ** exfalso. apply Ne. symmetry. now apply (push_eq line).
              ** exfalso. now apply (push_pop line s s').
              ** exact Hr.
      * rewrite St. cbn [bind]. right. split; [reflexivity|]. exists s. intros m Hm. apply Nat.ltb_ge in El. unfold depth_of in Hm.
        inversion Hm as [|? ? ? ? Hp Hl Hr|? ? ? ? Hp Hr|? ? ? ? Hn1 Hn2 Hr]; subst; [lia|exfalso; now apply (push_pop line s s)|contradiction].
    + pose proof (pop_step st line s G P1 Hs) as St. destruct (stack_of st s) as [|c l] eqn:El.
      * rewrite St. cbn [bind]. right. split; [reflexivity|]. exists s. intros m Hm. unfold depth_of in Hm. rewrite El in Hm. cbn [length] in Hm.
        inversion Hm as [|? ? ? ? Hp Hl Hr|? ? ? ? Hp Hr|? ? ? ? Hn1 Hn2 Hr]; subst; [now apply (push_pop line s s)|contradiction].
      * destruct St as (st1 & -> & G1 & Eg & Em & _ & Es & Eo). cbn [bind].
        assert (Dp : forall s' m, depth s' (depth_of st1 s') lines m -> depth s' (depth_of st s') (line :: lines) m).
        { intros s' m H. destruct (stack_eq_dec s' s) as [->|Ne].
          - unfold depth_of in H |- *. rewrite Es in H. rewrite El. cbn [length]. now apply depth_pop.
          - unfold depth_of in H |- *. rewrite (Eo s' Ne) in H. apply depth_other; [| |exact H].
            + intros Hp. now apply (push_pop line s' s).
            + intros Hp. apply Ne. symmetry. now apply (pop_eq line). }
        destruct (IH st1 G1 R2 P2) as [(st' & made & E & G' & Bt & Em' & Hd)|(E & s' & Hd)].
        -- left. exists st', made. rewrite Eg in Bt. rewrite Em in Em'. split; [exact E|]. split; [exact G'|]. split; [exact Bt|]. split; [exact Em'|]. intros s'. now apply Dp.
        -- right. split; [exact E|]. exists s'. intros m Hm. apply (Hd m). destruct (stack_eq_dec s' s) as [->|Ne].
           ++ unfold depth_of in Hm |- *. rewrite El in Hm. rewrite Es. cbn [length] in Hm.
              inversion Hm as [|? ? ? ? Hp Hl Hr|? ? ? ? Hp Hr|? ? ? ? Hn1 Hn2 Hr]; subst.
              ** exfalso. now apply (push_pop line s s).
              ** exact Hr.
              ** contradiction.
           ++ unfold depth_of in Hm |- *. rewrite (Eo s' Ne). inversion Hm as [|? ? ? ? Hp Hl Hr|? ? ? ? Hp Hr|? ? ? ? Hn1 Hn2 Hr]; subst.
              ** exfalso. now apply (push_pop line s' s).
              ** exfalso. apply Ne. symmetry. now apply (pop_eq line).
              ** exact Hr.
    + destruct (other_step st line G R1 Ns) as (st1 & m1 & -> & Adv & _). cbn [bind].
      assert (Np : forall s, ~ pushes s line) by (intros s H; apply Ns; exists s; now left).
      assert (No : forall s, ~ pops s line) by (intros s H; apply Ns; exists s; now right).
      assert (Es : forall s, depth_of st1 s = depth_of st s) by (intros s; unfold depth_of; now rewrite (adv_stacks _ _ _ _ _ Adv)).
      destruct (IH st1 (adv_good _ _ _ _ _ Adv) R2 P2) as [(st' & made & E & G' & Bt & Em' & Hd)|(E & s' & Hd)].
      * left. exists st', (m1 ++ made). split; [exact E|]. split; [exact G'|]. split; [eapply built_trans; [apply (adv_built _ _ _ _ _ Adv)|exact Bt]|].
        split; [rewrite Em', (adv_made _ _ _ _ _ Adv); now rewrite app_assoc|].
        intros s. apply depth_other; auto. rewrite <- Es. apply Hd.
      * right. split; [exact E|]. exists s'. intros m Hm. apply (Hd m). rewrite Es.
        inversion Hm as [|? ? ? ? Hp Hl Hr|? ? ? ? Hp Hr|? ? ? ? Hn1 Hn2 Hr]; subst; [now apply Np in Hp|now apply No in Hp|exact Hr].
Qed.

(** Nothing below the starting point of a nested sequence is touched. *)
Lemma run_nested s lines : forall n, nested s n lines -> forall st st' top base, good st -> Forall readable lines -> Forall plain lines ->
  stack_of st s = top ++ base -> length top = n -> foldm read_line lines st = Ok st' -> stack_of st' s = base /\ good st'.
Proof.
  induction 1 as [|n line lines Hp _ IH|n line lines Hp _ IH|n line lines Hn1 Hn2 _ IH]; intros st st' top base G R P Es El E; cbn [foldm] in E.
  - injection E as <-. destruct top; [|discriminate]. auto.
  - inversion R as [|? ? R1 R2]; subst. inversion P as [|? ? P1 P2]; subst. pose proof (push_step st line s G P1 Hp) as St.
    destruct (length (stack_of st s) <? 64); [|rewrite St in E; discriminate]. destruct St as (st1 & E1 & G1 & _ & _ & _ & Es1 & _).
    rewrite E1 in E. cbn [bind] in E. apply (IH st1 st' (f_last st :: top) base G1 R2 P2); [now rewrite Es1, Es|reflexivity|exact E].
  - inversion R as [|? ? R1 R2]; subst. inversion P as [|? ? P1 P2]; subst. pose proof (pop_step st line s G P1 Hp) as St.
    destruct top as [|c top]; [discriminate|]. rewrite Es in St. cbn [app] in St. destruct St as (st1 & E1 & G1 & _ & _ & _ & Es1 & _).
    rewrite E1 in E. cbn [bind] in E. apply (IH st1 st' top base G1 R2 P2); [exact Es1|now injection El|exact E].
  - inversion R as [|? ? R1 R2]; subst. inversion P as [|? ? P1 P2]; subst.
    destruct (stack_dec line) as [[[s' Hs]|[s' Hs]]|Ns].
    + pose proof (push_step st line s' G P1 Hs) as St. destruct (length (stack_of st s') <? 64); [|rewrite St in E; discriminate].
      destruct St as (st1 & E1 & G1 & _ & _ & _ & _ & Eo). rewrite E1 in E. cbn [bind] in E.
      apply (IH st1 st' top base G1 R2 P2); [|reflexivity|exact E]. rewrite Eo; [exact Es|]. intros ->. contradiction.
    + pose proof (pop_step st line s' G P1 Hs) as St. destruct (stack_of st s') as [|c l]; [rewrite St in E; discriminate|].
      destruct St as (st1 & E1 & G1 & _ & _ & _ & _ & Eo). rewrite E1 in E. cbn [bind] in E.
      apply (IH st1 st' top base G1 R2 P2); [|reflexivity|exact E]. rewrite Eo; [exact Es|]. intros ->. contradiction.
    + destruct (other_step st line G R1 Ns) as (st1 & m1 & E1 & Adv & _). rewrite E1 in E. cbn [bind] in E.
      apply (IH st1 st' top base (adv_good _ _ _ _ _ Adv) R2 P2); [|reflexivity|exact E]. now rewrite (adv_stacks _ _ _ _ _ Adv).
Qed.

(** A configuration without stacks is one chain. *)
Lemma run_chain lines : forall st, good st -> Forall readable lines -> Forall (fun l => ~ stack_command l /\ ~ collects l) lines ->
  exists st' made, foldm read_line lines st = Ok st' /\ advances st st' made /\
    chain data (heap (f_graph st')) (f_last st) (produced made) (f_last st').
Proof.
  induction lines as [|line lines IH]; intros st G R P.
  - exists st, []. split; [reflexivity|]. split; [now apply advances_nil|]. reflexivity.
  - inversion R as [|? ? R1 R2]; subst. inversion P as [|? ? [P1 P1'] P2]; subst. cbn [foldm].
    destruct (other_step st line G R1 P1) as (st1 & m1 & -> & Adv & [[C|[C _]] _]); [|contradiction]. cbn [bind].
    destruct (IH st1 (adv_good _ _ _ _ _ Adv) R2 P2) as (st' & m2 & -> & Adv2 & C2). exists st', (m1 ++ m2). split; [reflexivity|].
    split; [eapply advances_trans; eassumption|]. rewrite produced_app. eapply chain_app; [|exact C2].
    now apply (chain_stable _ _ _ _ _ _ _ (adv_built _ _ _ _ _ Adv2)).
Qed.

Lemma start_ok g : healthy g -> four_outputs g data ->
  exists st, start cfg data g = Ok st /\ good st /\ built g (f_graph st) (f_made st) /\ chain data (heap (f_graph st)) data (produced (f_made st)) (f_last st) /\
    f_a st = [] /\ f_b st = [].
Proof.
  intros Hh Hd. unfold start. set (st0 := mkF g data [] [] _ 0 [] false).
  assert (G0 : good st0).
  { constructor; cbn [f_graph st0 f_last f_up].
    - exact Hh.
    - exact Hd.
    - exact (proj1 Hd).
    - intros []; constructor.
    - auto. }
  destruct (fcn cfg && _).
  - destruct (add_behind_ok cfg data st0 (LResize (a_rf (g_x cfg)) (a_rf (g_y cfg))) false false G0 I ltac:(discriminate)) as (s1 & E & Adv & E1 & E2 & E3 & E4 & C & Hi & O & P).
    cbn zeta in *. exists s1. split; [exact E|]. split; [apply (adv_good _ _ _ _ _ Adv)|].
    rewrite (adv_made _ _ _ _ _ Adv). cbn [st0 f_made app]. split; [apply (adv_built _ _ _ _ _ Adv)|]. rewrite P.
    split; [exact C|]. split; [apply (adv_stacks _ _ _ _ _ Adv A)|apply (adv_stacks _ _ _ _ _ Adv B)].
  - exists st0. split; [reflexivity|]. split; [exact G0|]. split; [apply built_nil|]. split; [reflexivity|]. split; reflexivity.
Qed.

Lemma healthy_inspectable g : healthy g -> inspectable g.
Proof.
  intros [S _ F] n Hn. destruct (sound_closed g S n Hn) as (nd & En & Hc). exists nd. split; [exact En|]. split; [now apply (sound_layer g S n)|].
  intros c q Hi Eq. destruct (Hc c Hi) as (q' & Eq' & Hq). destruct (sound_closed g S q' Hq) as (m & Em & _).
  apply nth_error_Some. congruence.
Qed.
Lemma healthy_complete g : healthy g -> exists b, is_complete g = Ok b /\
  (b = true <-> (exists n nd, In n (nodes g) /\ nth_error (heap g) n = Some nd /\ n_is_input nd = true) /\
                (exists n nd, In n (nodes g) /\ nth_error (heap g) n = Some nd /\ n_is_output nd = true)).
Proof.
  intros H. destruct (is_complete_decides g (healthy_inspectable g H)) as (b & E & Hb). exists b. split; [exact E|]. rewrite Hb. unfold usable.
  split; [tauto|]. intros [H1 H2]. split; [exact H1|]. split; [exact H2|]. intros n Hn. destruct H as [S _ F].
  destruct (sound_closed g S n Hn) as (nd & En & _). exists nd. split; [exact En|]. split; [now apply (sound_layer g S n)|].
  destruct (F n nd Hn En) as (F1 & F2 & F3). split; [exact F1|]. split; [exact F2|]. intros c Hc. rewrite Forall_forall in F3.
  destruct (F3 c Hc) as (q & m & Eq & _ & Em & Hl). exists q, m. auto.
Qed.
End Config.

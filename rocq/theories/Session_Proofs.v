(** Proofs about sessions of trainNetwork. *)
From Coq Require Import String List ZArith NArith Lia.
From Verif Require Import Base BaseFacts Str_Model Config_Model Stat_Model Stat_Spec Trainer_Model Session_Model Session_Spec.
Local Open Scope list_scope.
Local Open Scope nat_scope.

Lemma bind_ok {A B} (r : res A) (f : A -> res B) b : bind r f = Ok b -> exists a, r = Ok a /\ f a = Ok b.
Proof. destruct r; cbn; try discriminate. eauto. Qed.
Lemma ok_pair {A B} (a a' : A) (b b' : B) : Ok (a, b) = Ok (a', b') -> a = a' /\ b = b'.
Proof. intros E. split; congruence. Qed.

Lemma foldm_inv {A S} (P : S -> Prop) (f : S -> A -> res S) : forall l s s',
  (forall s a s', In a l -> P s -> f s a = Ok s' -> P s') -> P s -> foldm f l s = Ok s' -> P s'.
Proof.
  induction l as [|a l IH]; intros s s' H Hs E; cbn in E; [congruence|].
  apply bind_ok in E as (s1 & E1 & E2). eapply IH; [|eapply H; [left; reflexivity|exact Hs|exact E1]|exact E2].
  intros. eapply H; eauto. now right.
Qed.

(** ** What training and testing say, assuming only that they end *)
Section Events.
Context {D W : Type}.
Variable A : arith D.
Variable cfg : settings D.
Variable dl : data_layer D.
Variable pass : W -> list (list (list D)) -> W * list D * list (list D).
Variable forward : W -> list (list (list D)) -> W * list D.
Variable set_mode : bool -> W -> W.
Variable lr_at : nat -> D.
Variable scaling : nat -> D -> nat.

(** A summary of the statistics, as the events change it while recording: training or testing, epoch, iterations,
    weights, rows. *)
Definition state5 : Type := bool * nat * nat * nat * list item.
Definition ev_step (wc : nat) (st : state5) (e : event D) : state5 :=
  let '(tr, ep, it, w, out) := st in
  match e with
  | EGraphTesting b => (negb b, ep, it, w, out)
  | EEpoch k => (tr, k, it, w, out)
  | EIteration _ => (tr, ep, S it, w, out)
  | ESnapshot => (tr, ep, 0, wc, out ++ [Row tr ep it w])
  | _ => (tr, ep, it, w, out)
  end.
Definition ev_run (wc : nat) (es : list (event D)) (st : state5) : state5 := fold_left (ev_step wc) es st.

Lemma apply_params_layout lr llr acc : forall ps dp st ps' dp' st',
  apply_params D A cfg dl lr llr acc dp ps st = Ok (ps', dp', st') -> length ps' = length ps.
Proof.
  induction ps as [|p ps IH]; intros dp [[f a] b] ps' dp' st' E; cbn in E.
  - injection E as <- _ _. reflexivity.
  - apply bind_ok in E as (x1 & _ & E). apply bind_ok in E as (x2 & _ & E). apply bind_ok in E as (x3 & _ & E).
    apply bind_ok in E as ([[[f1 d1] l1] g1] & _ & E). apply bind_ok in E as ([[ps1 dp1] st1] & E1 & E).
    injection E as <- _ _. cbn. f_equal. eapply IH; eauto.
Qed.
Lemma apply_layers_layout lr acc : forall ls dp st ls' st',
  apply_layers D A cfg dl lr acc dp ls st = Ok (ls', st') -> layout ls' = layout ls.
Proof.
  induction ls as [|[r ps] ls IH]; intros dp st ls' st' E; cbn in E.
  - injection E as <- _. reflexivity.
  - apply bind_ok in E as ([[ps1 dp1] st1] & E1 & E). apply bind_ok in E as ([ls1 st2] & E2 & E). injection E as <- _.
    unfold layout in *. cbn. rewrite (apply_params_layout _ _ _ _ _ _ _ _ _ E1). f_equal. eapply IH; eauto.
Qed.

Lemma one_pass_says wc : forall n a t loss es t' loss' es' st,
  foldm (one_pass D A W pass) (seq a n) (t, loss, es) = Ok (t', loss', es') ->
  ev_run wc es' st = ev_run wc es st /\ epoch t' = epoch t /\ layers t' = layers t.
Proof.
  induction n as [|n IH]; intros a t loss es t' loss' es' st E; cbn [seq foldm] in E.
  - injection E as <- _ <-. auto.
  - apply bind_ok in E as ([[t1 l1] es1] & E1 & E). apply (IH _ _ _ _ _ _ _ st) in E as (H1 & H2 & H3).
    unfold one_pass in E1. destruct (pass _ _) as [[w ls] g]. apply bind_ok in E1 as (acc & _ & E1). injection E1 as <- _ <-.
    rewrite H1, H2, H3. unfold ev_run. rewrite fold_left_app. cbn. destruct (fold_left _ es st) as [[[[? ?] ?] ?] ?]. auto.
Qed.

Lemma iteration_says wc its i t es t' es' st :
  one_iteration D A cfg dl W pass lr_at its (t, es) i = Ok (t', es') ->
  ev_run wc es' st = (let '(tr, ep, it, w, out) := ev_run wc es st in (tr, ep, S it, w, out)) /\ epoch t' = epoch t /\ layout (layers t') = layout (layers t).
Proof.
  unfold one_iteration. intros E. apply bind_ok in E as ([[t1 l1] es1] & E1 & E). apply bind_ok in E as (t2 & E2 & E). injection E as <- <-.
  apply (one_pass_says wc _ _ _ _ _ _ _ _ st) in E1 as (H1 & H2 & H3).
  unfold apply_gradients in E2. apply bind_ok in E2 as ([ls [[f l] g]] & E3 & E2). injection E2 as <-. cbn [epoch layers].
  apply apply_layers_layout in E3. split; [|split; [exact H2|now rewrite E3, H3]].
  unfold ev_run in *. rewrite fold_left_app, H1. destruct (fold_left (ev_step wc) es st) as [[[[? ?] ?] ?] ?]. reflexivity.
Qed.

Lemma iterations_say wc its : forall n a t es t' es' st,
  foldm (one_iteration D A cfg dl W pass lr_at its) (seq a n) (t, es) = Ok (t', es') ->
  ev_run wc es' st = (let '(tr, ep, it, w, out) := ev_run wc es st in (tr, ep, it + n, w, out)) /\ epoch t' = epoch t /\ layout (layers t') = layout (layers t).
Proof.
  induction n as [|n IH]; intros a t es t' es' st E; cbn [seq foldm] in E.
  - injection E as <- <-. split; [|auto]. destruct (ev_run wc es st) as [[[[? ?] ?] ?] ?]. now rewrite Nat.add_0_r.
  - apply bind_ok in E as ([t1 es1] & E1 & E). apply (IH _ _ _ _ _ st) in E as (H1 & H2 & H3).
    apply (iteration_says wc _ _ _ _ _ _ st) in E1 as (G1 & G2 & G3). rewrite H1, G1, H2, H3.
    split; [|auto]. destruct (ev_run wc es st) as [[[[? ?] ?] ?] ?]. now rewrite Nat.add_succ_comm.
Qed.

Notation ITS := (epoch_iterations D cfg dl scaling).
Lemma train_epoch_says wc snap k t es t' es' st :
  train_epoch D A cfg dl W pass set_mode lr_at scaling snap (t, es) k = Ok (t', es') ->
  ev_run wc es' st =
    (let '(tr, _, it, w, out) := ev_run wc es st in
     if snap then (tr, epoch t, 0, wc, out ++ [Row tr (epoch t) (it + ITS) w]) else (tr, epoch t, it + ITS, w, out)) /\
  epoch t' = to_u32 (S (epoch t)) /\ layout (layers t') = layout (layers t).
Proof.
  unfold train_epoch, run_epoch. intros E. apply bind_ok in E as ([t1 es1] & E1 & E). injection E as <- <-.
  apply bind_ok in E1 as ([t2 es2] & E2 & E1). injection E1 as <- <-.
  apply (iterations_say wc _ _ _ _ _ _ _ st) in E2 as (H1 & H2 & H3). cbn [with_epoch epoch layers with_world] in *.
  rewrite H2, H3. split; [|auto]. unfold ev_run in *. rewrite fold_left_app in H1.
  destruct (fold_left (ev_step wc) es st) as [[[[tr ep] it] w] out]. cbn in H1.
  destruct snap; [rewrite fold_left_app|]; rewrite H1; reflexivity.
Qed.

Lemma to_u32_add e i : to_u32 (to_u32 e + i) = to_u32 (e + i).
Proof.
  unfold to_u32. f_equal. rewrite !Nat2N.inj_add, N2Nat.id. rewrite N.add_mod_idemp_l by (apply N.pow_nonzero; discriminate). reflexivity.
Qed.
Lemma to_u32_small e : (Z.of_nat e < 2 ^ 32)%Z -> to_u32 e = e.
Proof. intros H. unfold to_u32. rewrite N.mod_small by lia. apply Nat2N.id. Qed.
Lemma to_u32_bound e : (Z.of_nat (to_u32 e) < 2 ^ 32)%Z.
Proof. unfold to_u32. pose proof (N.mod_upper_bound (N.of_nat e) (2 ^ 32)). lia. Qed.

Lemma train_epochs_say wc : forall n a t es t' es' st, (Z.of_nat (epoch t) < 2 ^ 32)%Z ->
  foldm (train_epoch D A cfg dl W pass set_mode lr_at scaling true) (seq a n) (t, es) = Ok (t', es') ->
  ev_run wc es' st =
    (let '(tr, ep, it, w, out) := ev_run wc es st in
     match n with
     | 0 => (tr, ep, it, w, out)
     | S m => (tr, to_u32 (epoch t + m), 0, wc, out ++ Row tr (epoch t) (it + ITS) w :: map (fun i => Row tr (to_u32 (epoch t + i)) ITS wc) (seq 1 m))
     end) /\ epoch t' = to_u32 (epoch t + n) /\ layout (layers t') = layout (layers t).
Proof.
  induction n as [|n IH]; intros a t es t' es' st B E; cbn [seq foldm] in E.
  - injection E as <- <-. rewrite Nat.add_0_r, to_u32_small by exact B. split; [|auto]. now destruct (ev_run wc es st) as [[[[? ?] ?] ?] ?].
  - apply bind_ok in E as ([t1 es1] & E1 & E). apply (train_epoch_says wc _ _ _ _ _ _ st) in E1 as (G1 & G2 & G3).
    apply (IH _ _ _ _ _ st) in E as (H1 & H2 & H3); [|rewrite G2; apply to_u32_bound].
    rewrite H1, G1, H2, H3, G2, to_u32_add. replace (S (epoch t) + n) with (epoch t + S n) by lia. split; [|auto].
    destruct (ev_run wc es st) as [[[[tr ep] it] w] out]. destruct n as [|m].
    + cbn. rewrite Nat.add_0_r, to_u32_small by exact B. reflexivity.
    + f_equal; [f_equal; f_equal; f_equal; rewrite to_u32_add; f_equal; lia|]. rewrite <- app_assoc. f_equal. cbn [app seq map]. f_equal. f_equal.
      * rewrite Nat.add_1_r. reflexivity.
      * rewrite <- (seq_shift m 1), map_map. apply map_ext. intros i. rewrite to_u32_add. f_equal. f_equal. lia.
Qed.
Lemma train_epochs_no_snapshot wc : forall n a t es t' es' st, (Z.of_nat (epoch t) < 2 ^ 32)%Z ->
  foldm (train_epoch D A cfg dl W pass set_mode lr_at scaling false) (seq a n) (t, es) = Ok (t', es') ->
  ev_run wc es' st =
    (let '(tr, ep, it, w, out) := ev_run wc es st in
     (tr, (if n =? 0 then ep else to_u32 (epoch t + (n - 1))), it + n * ITS, w, out)) /\ epoch t' = to_u32 (epoch t + n) /\ layout (layers t') = layout (layers t).
Proof.
  induction n as [|n IH]; intros a t es t' es' st B E; cbn [seq foldm] in E.
  - injection E as <- <-. cbn [Nat.eqb Nat.mul]. rewrite (Nat.add_0_r (epoch t)), to_u32_small by exact B. split; [|auto]. destruct (ev_run wc es st) as [[[[? ?] ?] ?] ?]. now rewrite Nat.add_0_r.
  - apply bind_ok in E as ([t1 es1] & E1 & E). apply (train_epoch_says wc _ _ _ _ _ _ st) in E1 as (G1 & G2 & G3).
    apply (IH _ _ _ _ _ st) in E as (H1 & H2 & H3); [|rewrite G2; apply to_u32_bound].
    rewrite H1, G1, H2, H3, G2, !to_u32_add. replace (S (epoch t) + n) with (epoch t + S n) by lia. split; [|auto].
    destruct (ev_run wc es st) as [[[[tr ep] it] w] out]. destruct n as [|m].
    + cbn. rewrite !Nat.add_0_r, to_u32_small by exact B. reflexivity.
    + cbn [Nat.eqb]. rewrite ?to_u32_add. replace (S (epoch t) + (S m - 1)) with (epoch t + (S (S m) - 1)) by lia.
      replace (it + ITS + S m * ITS) with (it + S (S m) * ITS) by (cbn; lia). reflexivity.
Qed.

Lemma train_says wc n snap t t' es tr0 ep0 out : (Z.of_nat (epoch t) < 2 ^ 32)%Z ->
  train D A cfg dl W pass set_mode lr_at scaling n snap (t, []) = Ok (t', es) ->
  let last := if n =? 0 then ep0 else to_u32 (epoch t + (n - 1)) in
  ev_run wc es (tr0, ep0, 0, wc, out) =
   (if snap then (true, last, 0, wc, out ++ map (fun i => Row true (to_u32 (epoch t + i)) ITS wc) (seq 0 n))
    else (true, last, n * ITS, wc, out)) /\
  epoch t' = to_u32 (epoch t + n) /\ layout (layers t') = layout (layers t).
Proof.
  intros B E last. unfold train in E. apply bind_ok in E as ([t1 es1] & E1 & E). injection E as <- <-.
  destruct snap.
  - apply (train_epochs_say wc _ _ _ _ _ _ (tr0, ep0, 0, wc, out) B) in E1 as (H1 & H2 & H3). split; [|auto].
    unfold ev_run in *. rewrite fold_left_app, H1. cbn [fold_left app ev_step negb]. unfold last. destruct n as [|m].
    + cbn. now rewrite app_nil_r.
    + cbn [Nat.eqb]. replace (S m - 1) with m by lia. cbn [seq map]. rewrite Nat.add_0_r, (to_u32_small (epoch t) B). reflexivity.
  - apply (train_epochs_no_snapshot wc _ _ _ _ _ _ (tr0, ep0, 0, wc, out) B) in E1 as (H1 & H2 & H3). split; [|auto].
    unfold ev_run in *. rewrite fold_left_app, H1. reflexivity.
Qed.

Lemma test_pass_says wc : forall n a t es t' es' st,
  foldm (test_pass D A dl W forward) (seq a n) (t, es) = Ok (t', es') ->
  ev_run wc es' st = (let '(tr, ep, it, w, out) := ev_run wc es st in (tr, ep, it + n, w, out)) /\ exists w, t' = with_world D W t w.
Proof.
  induction n as [|n IH]; intros a t es t' es' st E; cbn [seq foldm] in E.
  - injection E as <- <-. split; [|exists (world t); now destruct t]. destruct (ev_run wc es st) as [[[[? ?] ?] ?] ?]. now rewrite Nat.add_0_r.
  - apply bind_ok in E as ([t1 es1] & E1 & E). apply (IH _ _ _ _ _ st) in E as (H1 & w2 & H2).
    unfold test_pass in E1. destruct (forward _ _) as [w ls]. injection E1 as <- <-. subst t'. split; [|exists w2; reflexivity].
    rewrite H1. unfold ev_run. rewrite fold_left_app. destruct (fold_left (ev_step wc) es st) as [[[[? ?] ?] ?] ?]. cbn. now rewrite <- plus_n_Sm.
Qed.
Lemma test_says wc t t' es tr0 ep0 w out :
  test D A cfg dl W forward set_mode scaling (t, []) = Ok (t', es) ->
  ev_run wc es (tr0, ep0, 0, w, out) = (false, ep0, scaling (testing_samples dl / batch_size dl + 1) (testing_ratio cfg), w, out) /\
  exists w', t' = with_world D W t w'.
Proof.
  unfold test, test_iterations. intros E. destruct (batch_size dl =? 0); [discriminate|]. cbn [bind] in E.
  apply bind_ok in E as ([t1 es1] & E1 & E). injection E as <- <-.
  apply (test_pass_says wc _ _ _ _ _ _ (tr0, ep0, 0, w, out)) in E1 as (H1 & w1 & H2). subst t1. split; [|eexists; reflexivity].
  unfold ev_run in *. rewrite fold_left_app, H1. reflexivity.
Qed.
End Events.

(** ** The statistics *)
Section Statistics.
Context {D V : Type}.
Variable fresh : stat V.
Variable loss_stat : nat.
Variable to_double : D -> V.
Variable updates : nat -> list (nat * V).
Variable clock : nat -> Z.
Variable sink : nat.

Definition log_from (l : logbook V) (cs : list (call V)) : logbook V := fold_left (log_step fresh) cs l.
Definition summary (l : logbook V) : state5 :=
  (is_training (l_hc l), Stat_Model.epoch (l_hc l), Stat_Model.iterations (l_hc l), weights (l_hc l), items sink (l_reports l)).

Lemma items_app (a b : list (nat * sink_event V)) : items sink (a ++ b) = items sink a ++ items sink b.
Proof. unfold items. apply flat_map_app. Qed.
Lemma items_to_all n (e : sink_event V) : sink < n ->
  items sink (to_all n e) = match e with
      | SinkProcess h _ => [Row (is_training h) (Stat_Model.epoch h) (Stat_Model.iterations h) (weights h)]
      | SinkExperiment n => [Experiment n]
      | SinkInitialize _ => []
      end.
Proof.
  intros H. unfold to_all, items. rewrite flat_map_concat_map, map_map.
  set (x := match e with SinkInitialize _ => _ | _ => _ end).
  assert (G : forall n a, concat (map (fun k => if k =? sink then x else []) (seq a n)) = if (a <=? sink) && (sink <? a + n) then x else []).
  { clear. induction n as [|n IH]; intros a; cbn [seq map concat].
    - destruct (Nat.leb_spec a sink), (Nat.ltb_spec sink (a + 0)); cbn; auto; lia.
    - rewrite IH. destruct (Nat.eqb_spec a sink).
      + subst. rewrite Nat.leb_refl. destruct (Nat.leb_spec (S sink) sink); [lia|]. destruct (Nat.ltb_spec sink (sink + S n)); [|lia]. cbn. apply app_nil_r.
      + destruct (Nat.leb_spec a sink), (Nat.leb_spec (S a) sink), (Nat.ltb_spec sink (S a + n)), (Nat.ltb_spec sink (a + S n)); cbn; auto; lia. }
  rewrite (G n 0). change (0 <=? sink) with true. cbn [andb Nat.add]. destruct (Nat.ltb_spec sink n); [reflexivity|lia].
Qed.

Lemma log_updates : forall us l, l_mode l = RECORDING ->
  let l' := log_from l (map (fun '(id, v) => Update id v) us) in
  l_mode l' = RECORDING /\ l_sinks l' = l_sinks l /\ summary l' = summary l.
Proof.
  induction us as [|[id v] us IH]; intros l H; cbn; [auto|].
  destruct l as [m ds n since h u rs]. cbn in H. subst m. cbn [log_step].
  destruct (id <? length ds); apply IH; reflexivity.
Qed.

Lemma log_event wc (cs : list (call V)) e l : l_mode l = RECORDING -> sink < l_sinks l ->
  let l' := log_from l (map (fun '(id, v) => Update id v) (updates (length cs)) ++ event_calls loss_stat to_double clock wc (length cs) e) in
  l_mode l' = RECORDING /\ l_sinks l' = l_sinks l /\ summary l' = ev_step (D := D) wc (summary l) e.
Proof.
  intros H Hs. unfold log_from. rewrite fold_left_app.
  destruct (log_updates (updates (length cs)) l H) as (G1 & G2 & G3).
  unfold log_from in G1, G2, G3. cbv zeta in G1, G2, G3. rewrite <- G3. rewrite <- G2 in Hs |- *.
  set (l0 := fold_left (log_step fresh) (map _ (updates (length cs))) l) in *. clearbody l0. clear l H G2 G3.
  destruct l0 as [m ds n since h u rs]. cbn in G1. subst m. cbn in Hs.
  destruct e; cbn [event_calls fold_left log_step]; try (split; [reflexivity|]; split; reflexivity).
  - cbn [l_mode l_descs]. destruct (loss_stat <? length ds); (split; [reflexivity|]; split; reflexivity).
  - split; [reflexivity|]. split; [reflexivity|]. unfold summary. cbn [l_hc l_reports cleared elapsed l_since]. rewrite items_app, (items_to_all _ _ Hs). reflexivity.
Qed.

Lemma log_events wc : forall es cs l, l_mode l = RECORDING -> sink < l_sinks l -> l = log_of fresh cs ->
  let l' := log_of fresh (note_events loss_stat to_double updates clock wc cs es) in
  l_mode l' = RECORDING /\ l_sinks l' = l_sinks l /\ summary l' = ev_run (D := D) wc es (summary l).
Proof.
  unfold note_events, ev_run. induction es as [|e es IH]; intros cs l H Hs El; cbn [fold_left].
  - subst l. cbn. auto.
  - destruct (log_event wc cs e l H Hs) as (G1 & G2 & G3).
    assert (El' : log_from l (map (fun '(id, v) => Update id v) (updates (length cs)) ++ event_calls loss_stat to_double clock wc (length cs) e)
      = log_of fresh (note_event loss_stat to_double updates clock wc cs e)).
    { unfold note_event, log_of, log_from. rewrite (fold_left_app _ cs). subst l. reflexivity. }
    destruct (IH (note_event loss_stat to_double updates clock wc cs e) _ G1) as (K1 & K2 & K3); [now rewrite G2|exact El'|].
    split; [exact K1|]. split; [now rewrite K2|]. now rewrite K3, G3.
Qed.
Lemma log_snoc cs c : log_of fresh (cs ++ [c]) = log_step fresh (log_of fresh cs) c.
Proof. unfold log_of. now rewrite fold_left_app. Qed.
End Statistics.

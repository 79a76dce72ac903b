(** C92: a whole training run does not depend on how the samples of each iteration are divided into batches. *)
From Coq Require Import Reals Relations Permutation Lra Psatz.
From Verif Require Import Base BaseFacts Num RealNum Graph_Model Graph_Spec Graph_Props
  Backprop_Model Backprop_Spec Backprop_Proofs BackpropLayers_Model BackpropLayers_Spec BackpropLayers_Proofs BackpropNet_Spec BackpropNet_Proofs BackpropReady_Proofs
  Trainer_Model TrainNet_Model TrainNet_Spec TrainNet_Proofs TrainNet_Props Batch_Spec BatchGrad_Spec BatchGrad_Proofs BatchGrad_Props TrainRun_Spec.
From Verif Require Trainer_Spec.
From Verif Require Import Trainer_Props.
Local Open Scope nat_scope.
Local Open Scope list_scope.

Lemma reported_app {D} (a b : list (event D)) : reported (a ++ b) = reported a ++ reported b.
Proof. apply flat_map_app. Qed.
Lemma reported_passes {D} (es : list (event D)) : Forall (fun e => exists ls gs, e = EPass ls gs) es -> reported es = [].
Proof. induction 1 as [|e es (ls & gs & ->) _ IH]; [reflexivity|exact IH]. Qed.

(** The parameters of a network that has kept its layers and shapes. *)
Lemma params_of_nth {D} ns (ps : list (list (list D))) k n : NoDup ns -> length ps = length ns -> nth_error ns k = Some n -> params_of ns ps n = nth k ps [].
Proof.
  intros Nd. revert ps k. unfold params_of. induction Nd as [|m ns Hm Nd IH]; intros [|p ps] k L E; cbn in L; try lia; [destruct k; discriminate E|].
  cbn [combine find fst]. destruct k as [|k]; cbn [nth_error nth] in *.
  - injection E as ->. rewrite Nat.eqb_refl. reflexivity.
  - destruct (Nat.eqb_spec m n) as [->|_]; [exfalso; apply Hm; eapply nth_error_In; exact E|]. apply IH; [lia|exact E].
Qed.
Lemma params_of_none {D} ns (ps : list (list (list D))) n : ~ In n ns -> params_of ns ps n = [].
Proof.
  unfold params_of. revert ps. induction ns as [|m ns IH]; intros [|p ps] H; try reflexivity. cbn [combine find fst].
  destruct (Nat.eqb_spec m n) as [->|_]; [exfalso; apply H; now left|]. apply IH. intros H'. apply H. now right.
Qed.
Lemma kept_params {W} (u : trainer R W) ns (rate : nat -> R) (theta : nat -> list (list R)) : NoDup ns ->
  Trainer_Spec.structure u = map (fun n => (rate n, Trainer_Spec.shape (theta n))) ns ->
  let eta := params_of ns (map snd (layers u)) in
  layers u = map (fun n => (rate n, eta n)) ns /\ (forall n, In n ns -> Trainer_Spec.shape (eta n) = Trainer_Spec.shape (theta n)).
Proof.
  intros Nd St eta. unfold Trainer_Spec.structure in St.
  assert (L : length (map snd (layers u)) = length ns) by (apply (f_equal (@length _)) in St; rewrite !map_length in St; rewrite map_length; exact St).
  assert (Nth : forall k n, nth_error ns k = Some n -> exists ps, nth_error (layers u) k = Some (rate n, ps) /\ eta n = ps /\ Trainer_Spec.shape ps = Trainer_Spec.shape (theta n)).
  { intros k n E. assert (E1 : nth_error (map (fun n => (rate n, Trainer_Spec.shape (theta n))) ns) k = Some (rate n, Trainer_Spec.shape (theta n))) by (rewrite nth_error_map, E; reflexivity).
    rewrite <- St, nth_error_map in E1. destruct (nth_error (layers u) k) as [[r ps]|] eqn:E2; [|discriminate]. injection E1 as -> Sp. exists ps. split; [reflexivity|]. split; [|exact Sp].
    unfold eta. rewrite (params_of_nth ns _ k n Nd L E). apply nth_error_nth. now rewrite nth_error_map, E2. }
  split.
  - apply (nth_ext _ _ (0%R, []) (0%R, [])); [rewrite map_length in L; rewrite map_length; exact L|]. intros k Hk. rewrite map_length in L. rewrite L in Hk.
    destruct (nth_error ns k) as [n|] eqn:E; [|apply nth_error_None in E; lia]. destruct (Nth k n E) as (ps & E1 & E2 & _).
    rewrite (nth_error_nth _ _ _ E1). symmetry. apply nth_error_nth. rewrite nth_error_map, E. cbn. now rewrite E2.
  - intros n Hn. apply In_nth_error in Hn as (k & E). destruct (Nth k n E) as (ps & _ & -> & Sp). exact Sp.
Qed.
Lemma shaped_by_shape ds (a b : list (list R)) : Trainer_Spec.shape a = Trainer_Spec.shape b -> Forall2 shaped ds b -> Forall2 shaped ds a.
Proof.
  intros S F. revert a S. induction F as [|d y ds b Hy F IH]; intros [|x a] S; try discriminate; constructor.
  - cbn in S. injection S as E _. unfold shaped in *. now rewrite E.
  - apply IH. cbn in S. injection S as _ E. exact E.
Qed.
Lemma trainable_shape h0 history parts theta eta : trainable h0 history parts theta ->
  (forall n, In n history -> Trainer_Spec.shape (eta n) = Trainer_Spec.shape (theta n)) -> (forall n, ~ In n history -> eta n = []) -> trainable h0 history parts eta.
Proof.
  intros [? ? ? ? ? ? ? Sp ?] Se No. constructor; auto. intros n Hn. eapply shaped_by_shape; [now apply Se|]. now apply Sp.
Qed.

(** Two trainings of the same network from the same parameters, with the same settings except for the division into batches: the first runs
    [sbatchsize cfg] batches of [b] samples per iteration, the second [sbatchsize cfg'] batches of [b'], and in each iteration the second shows the
    samples the first shows, in some order.  The states the first one comes through meet no kink.  Then both run through, end with the same
    parameters, momentum and epoch, and report the same loss in every iteration. *)
Theorem C92_run h0 history parts parts' ones theta :
  trainable h0 history parts theta -> trainable h0 history parts' theta -> trainable h0 history ones theta ->
  exists g0 g, add_nodes (new_graph h0) (map Some history) = Ok g0 /\ insert_sweeps 2 g0 = Ok g /\
    forall olds olds' olds1 fuel rate cfg cfg' dl dl' set_mode set_mode' calculate_lr scale (t t' : trainer R (network_state R)) es es' pixels b b' which which' epochs snapshots snapshots',
      let layer j k := acts (stack history (parts j) (olds j) (heap g) k) in
      let layer' j k := acts (stack history (parts' j) (olds' j) (heap g) k) in
      let single i k := acts (stack history (ones i) (olds1 i) (heap g) k) in
      let its := epoch_iterations R cfg dl scale in
      let passes k := seq (s_batches (world t) + k * sbatchsize cfg) (sbatchsize cfg) in
      let passes' k := seq (s_batches (world t') + k * sbatchsize cfg') (sbatchsize cfg') in
      length (nodes g) < fuel ->
      (forall j x, In x (nodes g) -> fits (stack history (parts j) (olds j) (heap g) x)) ->
      (forall j x, In x (nodes g) -> fits (stack history (parts' j) (olds' j) (heap g) x)) ->
      (forall i x, In x (nodes g) -> fits (stack history (ones i) (olds1 i) (heap g) x)) ->
      (forall m w, s_batches (set_mode m w) = s_batches w) -> (forall m w, s_batches (set_mode' m w) = s_batches w) ->
      optimization cfg = GradientDescent -> optimization cfg' = GradientDescent ->
      l1_weight cfg' = l1_weight cfg -> l2_weight cfg' = l2_weight cfg -> momentum cfg' = momentum cfg -> loss_probability dl' = loss_probability dl ->
      epoch_iterations R cfg' dl' scale = its ->
      sample_count dl = pixels * b -> sample_count dl' = pixels * b' -> (Z.of_nat (sample_count dl * sbatchsize cfg) < 2 ^ 32)%Z ->
      Trainer_Spec.fits t -> Trainer_Spec.fits t' -> layers t = map (fun n => (rate n, theta n)) (nodes g) ->
      layers t' = layers t -> last_deltas t' = last_deltas t -> epoch t' = epoch t -> 0 < b -> 0 < b' ->
      (forall k, k < epochs * its -> shows history b parts ones which (passes k) /\ shows history b' parts' ones which' (passes' k) /\
        Permutation (shown b which (passes k)) (shown b' which' (passes' k))) ->
      (forall i u x, reaches (one_iteration R real_arith cfg dl (network_state R) (network_pass layer fuel g) calculate_lr its) (set_mode false) its t i u -> i < its ->
        In x (shown b which (seq (s_batches (world u)) (sbatchsize cfg))) ->
        meets_no_kink (single x) fuel g (params_of (nodes g) (map snd (layers u))) history (ones x)) ->
      exists (u u' : trainer R (network_state R)) evs evs',
        train R real_arith cfg dl (network_state R) (network_pass layer fuel g) set_mode calculate_lr scale epochs snapshots (t, es) = Ok (u, es ++ evs) /\
        train R real_arith cfg' dl' (network_state R) (network_pass layer' fuel g) set_mode' calculate_lr scale epochs snapshots' (t', es') = Ok (u', es' ++ evs') /\
        layers u' = layers u /\ last_deltas u' = last_deltas u /\ epoch u' = epoch u /\
        length (reported evs) = epochs * its /\ reported evs' = reported evs.
Proof.
  intros Tr Tr' Tr1. destruct (C83_training h0 history parts parts' ones theta Tr Tr' Tr1) as (g0 & g & E0 & E & _). exists g0, g. split; [exact E0|]. split; [exact E|].
  destruct (trainable_ready h0 history parts theta Tr) as (g0' & g' & E0' & E' & Rd). assert (g0' = g0) by congruence. subst g0'. assert (g' = g) by congruence. subst g'. clear E0' E'.
  intros olds olds' olds1 fuel rate cfg cfg' dl dl' set_mode set_mode' calculate_lr scale t t' es es' pixels b b' which which' epochs snapshots snapshots'
    layer layer' single its passes passes' Hf Fi Fi' Fi1 Md Md' Go Go' C1 C2 C3 C4 C5 S1 S2 Bd F F' Ly Ly' Ld Ep Hb Hb' Sh Km.
  set (run := one_iteration R real_arith cfg dl (network_state R) (network_pass layer fuel g) calculate_lr its) in *.
  set (run' := one_iteration R real_arith cfg' dl' (network_state R) (network_pass layer' fuel g) calculate_lr its).
  pose proof (sound_once _ (nr_sound _ _ _ _ _ (Rd 0 (olds 0)))) as Nd. destruct (nr_nodes _ _ _ _ _ (Rd 0 (olds 0))) as (extra & En).
  (* the two trainers after [k] iterations *)
  set (Inv := fun k (u u' : trainer R (network_state R)) => Trainer_Spec.structure u = Trainer_Spec.structure t /\ Trainer_Spec.fits u /\ Trainer_Spec.fits u' /\
    layers u' = layers u /\ last_deltas u' = last_deltas u /\ epoch u' = epoch u /\
    s_batches (world u) = s_batches (world t) + k * sbatchsize cfg /\ s_batches (world u') = s_batches (world t') + k * sbatchsize cfg').
  assert (One : forall k i u u' ev ev', k < epochs * its -> i < its -> Inv k u u' -> reaches run (set_mode false) its t i u ->
    exists v v' r r' loss, run (u, ev) i = Ok (v, ev ++ r) /\ run' (u', ev') i = Ok (v', ev' ++ r') /\ Inv (S k) v v' /\ reaches run (set_mode false) its t (S i) v /\
      reported r = [loss] /\ reported r' = [loss]).
  { intros k i u u' ev ev' Hk Hi (St & Fu & Fu' & Lu & Du & Eu & Bu & Bu') Re.
    assert (Sr : Trainer_Spec.structure u = map (fun n => (rate n, Trainer_Spec.shape (theta n))) (nodes g)).
    { rewrite St. unfold Trainer_Spec.structure. rewrite Ly, map_map. reflexivity. }
    destruct (kept_params u (nodes g) rate theta Nd Sr) as [Le Se]. set (eta := params_of (nodes g) (map snd (layers u))) in *.
    assert (Inc : forall n, In n history -> In n (nodes g)) by (intros n Hn; rewrite En; apply in_or_app; now left).
    assert (No : forall n, ~ In n history -> eta n = []).
    { intros n Hn. destruct (in_dec Nat.eq_dec n (nodes g)) as [H|H]; [|now apply params_of_none]. specialize (Se n H). rewrite (tr_none _ _ _ _ Tr n Hn) in Se.
      destruct (eta n); [reflexivity|discriminate]. }
    assert (Te : trainable h0 history parts eta) by (apply (trainable_shape h0 history parts theta); auto).
    assert (Te' : trainable h0 history parts' eta) by (apply (trainable_shape h0 history parts' theta); auto).
    assert (Te1 : trainable h0 history ones eta) by (apply (trainable_shape h0 history ones theta); auto).
    destruct (C83_training h0 history parts parts' ones eta Te Te' Te1) as (g0' & g' & E0' & E' & T). assert (g0' = g0) by congruence. subst g0'. assert (g' = g) by congruence. subst g'.
    destruct (Sh k Hk) as (Sw & Sw' & Pm).
    destruct (T olds olds' olds1 fuel rate cfg cfg' dl dl' calculate_lr u u' its i ev ev' pixels b b' which which')
      as (v & v' & acc & acc' & evs & evs' & loss & R1 & R2 & Lv & Dv & Ev & Ev0 & Sv & Fv & Fv' & Bv & Bv' & P & P'); auto; try (rewrite ?Bu, ?Bu'; assumption).
    { intros x Hx. exact (Km i u x Re Hi Hx). }
    exists v, v', (evs ++ [EUpdate (calculate_lr (to_u32 (epoch u * its + i))) acc; EIteration loss]), (evs' ++ [EUpdate (calculate_lr (to_u32 (epoch u * its + i))) acc'; EIteration loss]), loss.
    split; [exact R1|]. split; [exact R2|]. split; [|split; [|split]].
    - unfold Inv. rewrite Bv, Bv', Bu, Bu'. repeat (split; [first [assumption|congruence|lia]|]). lia.
    - eapply re_iteration; [exact Re|exact Hi|exact R1].
    - rewrite reported_app, (reported_passes _ P). reflexivity.
    - rewrite reported_app, (reported_passes _ P'). reflexivity. }
  (* the iterations of an epoch *)
  assert (Many : forall n i k u u' ev ev', i + n = its -> k + n <= epochs * its -> Inv k u u' -> reaches run (set_mode false) its t i u ->
    exists v v' r r', foldm run (seq i n) (u, ev) = Ok (v, ev ++ r) /\ foldm run' (seq i n) (u', ev') = Ok (v', ev' ++ r') /\ Inv (k + n) v v' /\ reaches run (set_mode false) its t its v /\
      length (reported r) = n /\ reported r' = reported r).
  { induction n as [|n IH]; intros i k u u' ev ev' Hi Hk I0 Re.
    - exists u, u', [], []. rewrite !app_nil_r, Nat.add_0_r. assert (i = its) by lia. subst i. repeat split; auto; apply I0.
    - destruct (One k i u u' ev ev') as (v & v' & r & r' & loss & R1 & R2 & I1 & Re1 & Q1 & Q2); auto; try lia.
      destruct (IH (S i) (S k) v v' (ev ++ r) (ev' ++ r')) as (w & w' & q & q' & R3 & R4 & I2 & Re2 & Q3 & Q4); auto; try lia.
      exists w, w', (r ++ q), (r' ++ q'). cbn [seq foldm]. rewrite R1, R2. cbn [bind]. rewrite R3, R4, !app_assoc. replace (k + S n) with (S k + n) by lia.
      split; [reflexivity|]. split; [reflexivity|]. split; [exact I2|]. split; [exact Re2|]. rewrite !reported_app, Q1, Q2, Q4. split; [cbn; now rewrite Q3|reflexivity]. }
  (* one epoch *)
  assert (Epoch : forall k u u' ev ev' e, k + its <= epochs * its -> Inv k u u' -> reaches run (set_mode false) its t 0 (begins (set_mode false) u) ->
    exists v v' r r', train_epoch R real_arith cfg dl (network_state R) (network_pass layer fuel g) set_mode calculate_lr scale snapshots (u, ev) e = Ok (v, ev ++ r) /\
      train_epoch R real_arith cfg' dl' (network_state R) (network_pass layer' fuel g) set_mode' calculate_lr scale snapshots' (u', ev') e = Ok (v', ev' ++ r') /\
      Inv (k + its) v v' /\ reaches run (set_mode false) its t 0 (begins (set_mode false) v) /\ length (reported r) = its /\ reported r' = reported r).
  { intros k u u' ev ev' e Hk (St & Fu & Fu' & Lu & Du & Eu & Bu & Bu') Re.
    destruct (Many its 0 k (begins (set_mode false) u) (begins (set_mode' false) u') (ev ++ [EEpoch (epoch u); ETestingMode false]) (ev' ++ [EEpoch (epoch u'); ETestingMode false]))
      as (v & v' & r & r' & R1 & R2 & (Sv & Fv & Fv' & Lv & Dv & Ev & Bv & Bv') & Re1 & Q1 & Q2); auto; try lia.
    { unfold Inv, begins. cbn [with_world layers last_deltas epoch world]. rewrite Md, Md'. repeat (split; [assumption|]). assumption. }
    exists (with_epoch R (network_state R) v (to_u32 (S (epoch v)))), (with_epoch R (network_state R) v' (to_u32 (S (epoch v')))),
      ([EEpoch (epoch u); ETestingMode false] ++ r ++ (if snapshots then [ESnapshot] else [])), ([EEpoch (epoch u'); ETestingMode false] ++ r' ++ (if snapshots' then [ESnapshot] else [])).
    unfold train_epoch, run_epoch. fold its. rewrite C5. fold run. fold run'. fold (begins (set_mode false) u). fold (begins (set_mode' false) u'). rewrite R1, R2. cbn [bind].
    split; [destruct snapshots; rewrite ?app_nil_r, !app_assoc; reflexivity|]. split; [destruct snapshots'; rewrite ?app_nil_r, !app_assoc; reflexivity|].
    split; [unfold Inv; cbn [with_epoch layers last_deltas epoch world]; rewrite Ev; repeat (split; [first [assumption|reflexivity]|]); assumption|].
    split; [now apply re_epoch|]. rewrite !reported_app, Q2. assert (Z : forall s : bool, reported (if s then [ESnapshot] else []) = @nil R) by (intros []; reflexivity).
    rewrite !Z, !app_nil_r. split; [exact Q1|reflexivity]. }
  assert (All : forall n e k u u' ev ev', k + n * its = epochs * its -> Inv k u u' -> reaches run (set_mode false) its t 0 (begins (set_mode false) u) ->
    exists v v' r r', foldm (train_epoch R real_arith cfg dl (network_state R) (network_pass layer fuel g) set_mode calculate_lr scale snapshots) (seq e n) (u, ev) = Ok (v, ev ++ r) /\
      foldm (train_epoch R real_arith cfg' dl' (network_state R) (network_pass layer' fuel g) set_mode' calculate_lr scale snapshots') (seq e n) (u', ev') = Ok (v', ev' ++ r') /\
      layers v' = layers v /\ last_deltas v' = last_deltas v /\ epoch v' = epoch v /\ length (reported r) = n * its /\ reported r' = reported r).
  { induction n as [|n IH]; intros e k u u' ev ev' Hk I0 Re.
    - exists u, u', [], []. rewrite !app_nil_r. repeat split; apply I0.
    - destruct (Epoch k u u' ev ev' e) as (v & v' & r & r' & R1 & R2 & I1 & Re1 & Q1 & Q2); auto; try (cbn in Hk; lia).
      destruct (IH (S e) (k + its) v v' (ev ++ r) (ev' ++ r')) as (w & w' & q & q' & R3 & R4 & I2 & I3 & I4 & Q3 & Q4); auto; try (cbn in Hk; lia).
      exists w, w', (r ++ q), (r' ++ q'). cbn [seq foldm]. rewrite R1, R2. cbn [bind]. rewrite R3, R4, !app_assoc.
      repeat (split; [first [reflexivity|assumption]|]). rewrite !reported_app, app_length, Q1, Q2, Q3, Q4. split; [reflexivity|reflexivity]. }
  destruct (All epochs 0 0 t t' (es ++ [EGraphTesting false; EStatLayers (stats_during_training cfg)]) (es' ++ [EGraphTesting false; EStatLayers (stats_during_training cfg')]))
    as (u & u' & r & r' & R1 & R2 & I1 & I2 & I3 & Q1 & Q2); auto.
  { unfold Inv. cbn. repeat (split; [first [assumption|reflexivity|lia]|]). lia. }
  { apply re_start. }
  exists u, u', ([EGraphTesting false; EStatLayers (stats_during_training cfg)] ++ r ++ [EStatLayers true]), ([EGraphTesting false; EStatLayers (stats_during_training cfg')] ++ r' ++ [EStatLayers true]).
  unfold train. rewrite R1, R2. cbn [bind]. split; [now rewrite !app_assoc|]. split; [now rewrite !app_assoc|]. repeat (split; [assumption|]).
  rewrite !reported_app, Q2. cbn [reported flat_map app]. rewrite !app_nil_r. split; [exact Q1|reflexivity].
Qed.
Print Assumptions C92_run.

(** Batches that take the samples one after the other in a given order (C92_order) show the same samples in each iteration. *)
Theorem C92_samples (order : nat -> nat) b b' sb sb' k : b * sb = b' * sb' ->
  shown b (fun j s => order (b * j + s)) (seq (k * sb) sb) = map order (seq (k * (b * sb)) (b * sb)) /\
  shown b' (fun j s => order (b' * j + s)) (seq (k * sb') sb') = shown b (fun j s => order (b * j + s)) (seq (k * sb) sb).
Proof.
  assert (Sh : forall n a z, map (fun s => a + s) (seq z n) = seq (a + z) n).
  { induction n as [|n IH]; intros a z; [reflexivity|]. cbn [seq map]. rewrite IH. do 2 f_equal. lia. }
  assert (S : forall c a n, shown c (fun j s => order (c * j + s)) (seq a n) = map order (seq (c * a) (c * n))).
  { intros c a n. revert a. unfold shown. induction n as [|n IH]; intros a; [now rewrite Nat.mul_0_r|]. cbn [seq flat_map]. rewrite IH.
    replace (c * S n) with (c + c * n) by lia. rewrite seq_app, map_app. f_equal; [|f_equal; f_equal; lia].
    rewrite <- (map_map (fun s => c * a + s) order). f_equal. rewrite Sh. now rewrite Nat.add_0_r. }
  intros H. rewrite !S. split; [f_equal; f_equal; lia|]. f_equal. f_equal; [|lia]. nia.
Qed.
Print Assumptions C92_samples.

(** The linear model of C76 and C83: one batch of two points in each iteration, or two batches of one.  They train alike for any number of epochs. *)
Definition line_settings (sbatch : nat) : settings R := mkSettings 0%R 0%R (9 / 10)%R 0%R 1%R 1%R GradientDescent false sbatch 5.
Definition line_data (k : nat) : data_layer R := mkData k k 1%R 2 2.
Example C92_hypotheses epochs calculate_lr : exists st1 st2 u u' evs evs',
  let layer k st j n := acts (stack [0; 1; 2] (line_parts k st j) (fun _ => []) (heap fit_g) n) in
  train R real_arith (line_settings 1) (line_data 2) (network_state R) (network_pass (layer 2 st2) 4 fit_g) (fun _ w => w) calculate_lr (fun n _ => n) epochs false (fit_trainer, []) = Ok (u, evs) /\
  train R real_arith (line_settings 2) (line_data 1) (network_state R) (network_pass (layer 1 st1) 4 fit_g) (fun _ w => w) calculate_lr (fun n _ => n) epochs true (fit_trainer, []) = Ok (u', evs') /\
  layers u' = layers u /\ last_deltas u' = last_deltas u /\ epoch u' = epoch u /\ length (reported evs) = epochs * 5 /\ reported evs' = reported evs.
Proof.
  destruct (Conv_Props.C35_connected R_num (fun _ => 0%R) fit_conv 1 1 1 1) as (st1 & _ & Rd1 & _); [reflexivity|cbn; lia..|reflexivity|].
  destruct (Conv_Props.C35_connected R_num (fun _ => 0%R) fit_conv 1 1 1 2) as (st2 & _ & Rd2 & _); [reflexivity|cbn; lia..|reflexivity|].
  exists st1, st2. destruct (line_trainable 1 st1 _ _ ltac:(lia) Rd1) as [F1 T1]. destruct (line_trainable 2 st2 _ _ ltac:(lia) Rd2) as [F2 T2].
  assert (En : nodes fit_g = [0; 1; 2]) by (vm_compute; reflexivity).
  destruct (C92_run fit_heap [0; 1; 2] (line_parts 2 st2) (line_parts 1 st1) (line_parts 1 st1) fit_theta T2 T1 T1) as (g0 & g & E0 & E & Run).
  assert (Eg : fit_g = g) by (unfold fit_g; rewrite E0; cbn [graph_of]; rewrite E; reflexivity). subst g.
  assert (Fits : forall k st, (forall j n, In n [0; 1; 2] -> fits (line_parts k st j n)) -> forall j x, In x (nodes fit_g) -> fits (stack [0; 1; 2] (line_parts k st j) (fun _ => []) (heap fit_g) x)).
  { intros k st F j x Hx. rewrite En in Hx. unfold stack. replace (existsb (Nat.eqb x) [0; 1; 2]) with true by (cbn in Hx; decompose [or] Hx; subst; try contradiction; reflexivity). auto. }
  destruct (Run (fun _ _ => []) (fun _ _ => []) (fun _ _ => []) 4 (fun _ => 1%R) (line_settings 1) (line_settings 2) (line_data 2) (line_data 1) (fun _ w => w) (fun _ w => w)
    calculate_lr (fun n _ => n) fit_trainer fit_trainer [] [] 1 2 1 (fun j s => 2 * j + s) (fun j s => j) epochs false true)
    as (u & u' & evs & evs' & R1 & R2 & L); auto; try reflexivity; try (now repeat split); try (rewrite En; cbn; lia).
  - intros k _. cbn [s_batches world fit_trainer sbatchsize line_settings]. split; [|split].
    + intros j s n _ Hs Hn. cbn in Hn. decompose [or] Hn; subst; try contradiction; cbn [line_parts].
      * apply os_input. cbn [map seq]. destruct s as [|[|s]]; [| |lia].
        -- replace (1 * (2 * j + 0) + 0) with (2 * j + 0) by lia. repeat constructor.
        -- replace (1 * (2 * j + 1) + 0) with (2 * j + 1) by lia. repeat constructor.
      * apply os_convolution.
      * apply os_loss.
    + intros j s n _ Hs Hn. assert (s = 0) by lia. subst s. cbn in Hn. decompose [or] Hn; subst; try contradiction; cbn [line_parts].
      * apply os_input. cbn [map]. repeat constructor.
      * apply os_convolution.
      * apply os_loss.
    + unfold shown. cbn [seq flat_map map app]. replace (2 * (0 + k * 1) + 0) with (0 + k * 2) by lia. replace (2 * (0 + k * 1) + 1) with (S (0 + k * 2)) by lia. apply Permutation_refl.
  - intros i w x _ _ _ ff m ff1 m1 _ k Hk. cbn in Hk. decompose [or] Hk; subst; try contradiction; exact I.
  - exists u, u', evs, evs'. cbn zeta. split; [exact R1|]. split; [exact R2|]. exact L.
Qed.

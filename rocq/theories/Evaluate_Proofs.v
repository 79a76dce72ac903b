From Coq Require Import Reals Lra.
From Verif Require Import Base BaseFacts LoopFacts Float32 Tensor_Model Tensor_Spec Tensor_Proofs Num RealNum Math_Spec Trainer_Model DatasetInput_Model DatasetInput_Spec
  DatasetInput_Proofs StatLayers_Model StatLayers_Spec StatLayers_Proofs StatLayers2_Proofs Evaluate_Model Evaluate_Spec.
Local Open Scope nat_scope.

Lemma map_seq_shift {X} (h : nat -> X) a k : map h (seq a k) = map (fun s => h (a + s)) (seq 0 k).
Proof.
  revert a. induction k as [|k IH]; intros a; cbn [seq map]; [reflexivity|]. rewrite Nat.add_0_r. f_equal. rewrite IH, <- seq_shift, map_map. apply map_ext. intros s. f_equal. lia.
Qed.

Section Run.
Context {D W G : Type} (A : arith D) (K : num W) (wide : f32 -> W).
Variable zero : f32.
Variable gtb : f32 -> f32 -> bool.
Variable shuffle : G -> list nat -> list nat * G.
Variable uniform : G -> f32 * G.
Variable training_sample testing_sample : outputs f32 -> nat -> nat -> res (outputs f32 * bool).
Variable net : list (list (list D)) -> outputs f32 -> res (tensor f32 * list D).
Variable o0 : outputs f32.
Variable b n c : nat.
Variable set : nat -> example.
Hypothesis Hset : delivers testing_sample o0 b n set.
Hypothesis Hn : 0 < n.
Hypothesis Ho0 : evaluable o0 b c.

Notation feed_slot := (feed_slot zero gtb shuffle uniform training_sample testing_sample).
Notation feed_forward := (feed_forward zero gtb shuffle uniform training_sample testing_sample).

(** What the j-th place of the test run holds. *)
Definition held (j : nat) : example := if j <? n then set j else unweighted zero (set 0).

Lemma slot_is_shape (t t' : tensor f32) s p : same_shape t' t -> (forall x y m, valid_pos t x y m s -> at_pos t' x y m s = at_pos t x y m s) -> slot_is t s p -> slot_is t' s p.
Proof. intros Hs E H x y m V. assert (V' : valid_pos t x y m s) by (eapply valid_pos_like; [apply same_shape_sym; exact Hs|exact V]). rewrite E by exact V'. now apply H. Qed.

Lemma feed_one l o ds slot j : shaped_like o0 o -> testing l = true -> elements_testing l = n -> current_element_testing l = Nat.min j n -> slot < b ->
  exists l' o' ds', feed_slot (l, o, ds) slot = Ok (l', o', ds') /\ shaped_like o0 o' /\ testing l' = true /\ elements_testing l' = n /\
    DatasetInput_Model.batch_size l' = DatasetInput_Model.batch_size l /\
    current_element_testing l' = Nat.min (S j) n /\ slot_holds o' slot (held j) /\ forall s e, s <> slot -> slot_holds o s e -> slot_holds o' s e.
Proof.
  intros Hs Ht Hel Hc Hb. unfold DatasetInput_Model.feed_slot, select. rewrite Ht, Hel, Hc. unfold held.
  destruct (Nat.leb_spec n (Nat.min j n)) as [L|L].
  - destruct (Nat.ltb_spec j n); [lia|]. cbn [bind]. rewrite Ht. destruct (Hset o slot 0 Hs Hb Hn) as (o1 & -> & Hs1 & Hh & Ho). cbn [bind negb andb].
    pose proof Hs1 as (A1 & A2 & A3 & Ww & Sw). pose proof Ho0 as (_ & _ & _ & _ & _ & _ & Eb & _).
    destruct (clear_sample_spec (o_weight o1) zero slot Ww) as (w & -> & Wf & Sh & Hat); [destruct Sw as (-> & _); lia|]. cbn [bind].
    eexists _, _, _. split; [reflexivity|]. split; [apply shaped_weight; auto|]. split; [exact Ht|]. split; [exact Hel|]. split; [reflexivity|]. split; [lia|]. split.
    + destruct Hh as (H1 & H2 & H3 & H4). split; [exact H1|]. split; [exact H2|]. split; [exact H3|]. intros x y m V. cbn [with_weight o_weight unweighted e_weight] in *.
      rewrite Hat by (eapply valid_pos_like; [apply same_shape_sym; exact Sh|exact V]). now rewrite Nat.eqb_refl.
    + intros s e Ne He. destruct (Ho s e Ne He) as (H1 & H2 & H3 & H4). split; [exact H1|]. split; [exact H2|]. split; [exact H3|]. cbn [with_weight o_weight] in *.
      eapply slot_is_shape; [exact Sh| |exact H4]. intros x y m V. rewrite Hat by exact V. destruct (Nat.eqb_spec s slot); [contradiction|reflexivity].
  - destruct (Nat.ltb_spec j n); [|lia]. cbn [bind testing]. replace (Nat.min j n) with j by lia.
    destruct (Hset o slot j Hs Hb) as (o1 & -> & Hs1 & Hh & Ho); [lia|]. cbn [bind negb andb testing fcn].
    eexists _, _, _. split; [reflexivity|]. cbn [testing elements_testing current_element_testing DatasetInput_Model.batch_size]. repeat (split; [auto; lia|]). auto.
Qed.

Lemma feed_slots k : forall a l o ds j, a + k <= b -> shaped_like o0 o -> testing l = true -> elements_testing l = n -> current_element_testing l = Nat.min (j + a) n ->
  exists l' o' ds', foldm feed_slot (seq a k) (l, o, ds) = Ok (l', o', ds') /\ shaped_like o0 o' /\ testing l' = true /\ elements_testing l' = n /\
    DatasetInput_Model.batch_size l' = DatasetInput_Model.batch_size l /\ current_element_testing l' = Nat.min (j + a + k) n /\
    (forall s, a <= s < a + k -> slot_holds o' s (held (j + s))) /\ forall s e, s < a -> slot_holds o s e -> slot_holds o' s e.
Proof.
  induction k as [|k IH]; intros a l o ds j Hk Hs Ht Hel Hc; cbn [seq foldm].
  - exists l, o, ds. split; [reflexivity|]. split; [exact Hs|]. split; [exact Ht|]. split; [exact Hel|]. split; [reflexivity|]. split; [rewrite Hc; f_equal; lia|]. split; [lia|auto].
  - destruct (feed_one l o ds a (j + a) Hs Ht Hel Hc) as (l1 & o1 & ds1 & -> & Hs1 & T1 & E1 & B1 & C1 & H1 & K1); [lia|]. cbn [bind].
    destruct (IH (S a) l1 o1 ds1 j) as (l2 & o2 & ds2 & -> & Hs2 & T2 & E2 & B2 & C2 & H2 & K2); auto; [lia|rewrite C1; f_equal; lia|].
    exists l2, o2, ds2. split; [reflexivity|]. split; [exact Hs2|]. split; [exact T2|]. split; [exact E2|]. split; [congruence|]. split; [rewrite C2; f_equal; lia|]. split.
    + intros s R. destruct (Nat.eq_dec s a) as [->|Ne]; [apply K2; [lia|exact H1]|apply H2; lia].
    + intros s e R He. apply K2; [lia|]. apply K1; [lia|exact He].
Qed.

(** The pixels of a batch are those of its samples. *)
Lemma batch_samples f first second third (q : nat -> example) new : same_shape second first -> samples third = samples first -> width third = width first -> height third = height first ->
  0 < maps third -> batch_pixels wide first second third new ->
  (forall s, s < samples first -> slot_is first s (f (e_image (q s)) (e_helper (q s))) /\ slot_is second s (e_label (q s)) /\ slot_is third s (e_weight (q s))) ->
  exists pss, new = concat pss /\ Forall2 (sample_pixels wide (width first) (height first) (maps first) f) (map q (seq 0 (samples first))) pss.
Proof.
  intros (S1 & S2 & S3 & S4) T1 T2 T3 M3 (out & lab & wgt & cls & act & Co & Cl & Cw & Hf & ->) Hq.
  exists (map (fun s => for_ (height first) (fun y => for_ (width first) (fun x => [(cls x y s, act x y s, wide (wgt x y 0 s))]))) (seq 0 (samples first))). split.
  - unfold for_ at 1. now rewrite flat_map_concat_map.
  - assert (L : forall s, In s (seq 0 (samples first)) -> s < samples first) by (intros s I; apply in_seq in I; lia).
    induction (seq 0 (samples first)) as [|s ss IH]; cbn [map]; constructor; [|apply IH; intros s' I; apply L; now right].
    assert (Hs : s < samples first) by (apply L; now left). destruct (Hq s Hs) as (Q1 & Q2 & Q3).
    exists (fun x y => cls x y s), (fun x y => act x y s). split.
    + intros x y Hx Hy. destruct (Hf x y s Hx Hy Hs) as [F1 F2].
      assert (E1 : forall m, m < maps first -> out x y m s = f (e_image (q s)) (e_helper (q s)) x y m).
      { intros m Hm. assert (V : valid_pos first x y m s) by now repeat split. specialize (Q1 x y m V). rewrite (Co x y m s V) in Q1. now injection Q1. }
      assert (E2 : forall m, m < maps first -> lab x y m s = e_label (q s) x y m).
      { intros m Hm. assert (V : valid_pos second x y m s) by (repeat split; congruence). specialize (Q2 x y m V). rewrite (Cl x y m s V) in Q2. now injection Q2. }
      rewrite S4 in F2. unfold first_largest in *. split.
      * destruct F1 as [(H0 & H1)|(H0 & H1 & H2 & H3)]; [left|right].
        -- split; [exact H0|]. intros i Hi. rewrite <- E1 by exact Hi. now apply H1.
        -- split; [exact H0|]. rewrite <- E1 by exact H0. split; [exact H1|]. split; intros i Hi; rewrite <- E1 by lia; auto.
      * destruct F2 as [(H0 & H1)|(H0 & H1 & H2 & H3)]; [left|right].
        -- split; [exact H0|]. intros i Hi. rewrite <- E2 by exact Hi. now apply H1.
        -- split; [exact H0|]. rewrite <- E2 by exact H0. split; [exact H1|]. split; intros i Hi; rewrite <- E2 by lia; auto.
    + apply for_ext. intros y Hy. apply for_ext. intros x Hx. assert (V : valid_pos third x y 0 s) by (repeat split; congruence).
      specialize (Q3 x y 0 V). rewrite (Cw x y 0 s V) in Q3. injection Q3 as ->. reflexivity.
Qed.

Variable ps : list (list (list D)).
Variable f : picture -> picture -> picture.
Hypothesis Hnet : computes net ps o0 f.
Notation pixels := (sample_pixels wide (width (o_label o0)) (height (o_label o0)) (maps (o_label o0)) f).
Notation bench_forward := (bench_forward K wide zero gtb shuffle uniform training_sample testing_sample net).

(** The state after [k] batches. *)
Definition midway (k : nat) (w : res (bench W G)) : Prop :=
  exists l o ds m pss, w = Ok (mkBench (l, o, ds) m) /\ shaped_like o0 o /\ DatasetInput_Model.batch_size l = b /\ elements_testing l = n /\ testing l = true /\
    current_element_testing l = Nat.min (k * b) n /\ cm_classes m = c /\ cm_disabled m = false /\
    Forall2 pixels (map held (seq 0 (k * b))) pss /\ counts K m (concat pss) /\ in_range c (concat pss).

Lemma one_batch k w : midway k w -> midway (S k) (fst (world_forward K wide zero gtb shuffle uniform training_sample testing_sample net w ps)).
Proof.
  intros (l & o & ds & m & pss & -> & Hs & Hb & Hel & Ht & Hc & Cc & Cd & HF & HC & HR).
  unfold world_forward. cbn [bind]. unfold Evaluate_Model.bench_forward, DatasetInput_Model.feed_forward. cbn [b_input b_matrix]. rewrite Hb.
  destruct (feed_slots b 0 l o ds (k * b)) as (l1 & o1 & ds1 & -> & Hs1 & T1 & E1 & B1 & C1 & H1 & _); auto; [rewrite Hc; f_equal; lia|]. cbn [bind].
  destruct (Hnet o1 Hs1) as (out & losses & -> & Wo & So & Hout). cbn [bind].
  pose proof Ho0 as (W1 & W2 & M1 & M2 & M3 & Sb1 & Sb2 & Ww & Wh). pose proof Hs1 as (_ & (Wl & Sl1 & Sl2 & Sl3 & Sl4) & _ & (Wt & Sw1 & Sw2 & Sw3 & Sw4)).
  pose proof So as (So1 & So2 & So3 & So4).
  assert (Bok : batch_ok (cm_classes m) out (o_label o1) (o_weight o1)).
  { unfold batch_ok. rewrite Cc. split; [exact Wo|]. split; [exact Wl|]. split; [exact Wt|]. split; [lia|]. split; [lia|]. split; [lia|]. split; [now repeat split; congruence|]. repeat split; congruence. }
  destruct (cm_forward_counts K wide out (o_label o1) (o_weight o1) m (concat pss) Bok Cd HC) as (new & m' & P & R & -> & HC' & Cc' & Cd'). cbn [bind fst].
  destruct (batch_samples f out (o_label o1) (o_weight o1) (fun s => held (k * b + s)) new) as (pss' & -> & HF'); auto.
  { now repeat split; congruence. } { congruence. } { congruence. } { congruence. } { lia. }
  { intros s Hsm. rewrite So1, Sb1 in Hsm. specialize (H1 s). destruct H1 as (H1 & H2 & H3 & H4); [lia|]. split; [apply Hout; now repeat split|]. split; assumption. }
  exists l1, o1, ds1, m', (pss ++ pss'). split; [reflexivity|]. split; [exact Hs1|]. split; [congruence|]. split; [exact E1|]. split; [exact T1|].
  split; [rewrite C1; f_equal; lia|]. split; [congruence|]. split; [exact Cd'|]. rewrite concat_app. split; [|split; [exact HC'|apply Forall_app; split; [exact HR|rewrite <- Cc; exact R]]].
  replace (S k * b) with (k * b + b) by lia. rewrite seq_app, map_app. cbn [Nat.add]. apply Forall2_app; [exact HF|].
  rewrite So1, So2, So3, So4, Sb1 in HF'. replace (map held (seq (k * b) b)) with (map (fun s => held (k * b + s)) (seq 0 b)); [exact HF'|].
  symmetry. apply map_seq_shift.
Qed.

Notation wforward := (world_forward K wide zero gtb shuffle uniform training_sample testing_sample net).
Lemma batches (dl : data_layer D) its : forall a k (t : trainer D (res (bench W G))) es, map snd (layers t) = ps -> midway k (world t) ->
  exists t' es', foldm (test_pass D A dl (res (bench W G)) wforward) (seq a its) (t, es) = Ok (t', es') /\ midway (k + its) (world t') /\
    layers t' = layers t /\ last_deltas t' = last_deltas t /\ last_gradients t' = last_gradients t /\ accumulated t' = accumulated t /\ epoch t' = epoch t /\ first_iteration t' = first_iteration t.
Proof.
  induction its as [|its IH]; intros a k t es Hp Hm; cbn [seq foldm].
  - exists t, es. rewrite Nat.add_0_r. repeat (split; [auto|]). reflexivity.
  - unfold test_pass at 1. pose proof (one_batch k (world t) Hm) as H1. rewrite Hp. destruct (wforward (world t) ps) as [w losses]. cbn [fst] in H1. cbn [bind].
    destruct (IH (S a) (S k) (with_world D (res (bench W G)) t w) (es ++ [EForward losses; EIteration (div A (sum_losses D A (Trainer_Model.zero A) losses) (of_Z A (Z.of_nat (sample_count dl))))]))
      as (t' & es' & -> & M & R); [exact Hp|exact H1|].
    exists t', es'. split; [reflexivity|]. replace (k + S its) with (S k + its) by lia. split; [exact M|]. exact R.
Qed.

(** Fillers carry no weight. *)
Lemma fillers_unweighted : forall js pss, Forall (fun j => n <= j) js -> Forall2 pixels (map held js) pss -> Forall (fun q => weight_of q = wide zero) (concat pss).
Proof.
  induction js as [|j js IH]; intros pss Hj H; inversion H as [|? px ? pss' H1 H2]; subst; cbn [concat]; [constructor|]. inversion Hj as [|? ? Hj1 Hj2]; subst.
  apply Forall_app. split; [|now apply IH]. destruct H1 as (cls & act & _ & ->). unfold held. destruct (Nat.ltb_spec j n); [lia|]. cbn [e_weight unweighted].
  apply Forall_forall. intros q I. apply in_for in I as (y & _ & I). apply in_for in I as (x & _ & [<-|[]]). reflexivity.
Qed.

Lemma whole_run its pss : n <= its * b -> Forall2 pixels (map held (seq 0 (its * b))) pss ->
  exists tested fill, concat pss = concat tested ++ fill /\ Forall2 pixels (map set (seq 0 n)) tested /\ Forall (fun q => weight_of q = wide zero) fill.
Proof.
  intros L H. replace (its * b) with (n + (its * b - n)) in H by lia. rewrite seq_app, map_app in H. apply Forall2_app_inv_l in H as (p1 & p2 & H1 & H2 & ->).
  exists p1, (concat p2). split; [apply concat_app|]. split.
  - replace (map set (seq 0 n)) with (map held (seq 0 n)); [exact H1|]. apply map_ext_in. intros j I. apply in_seq in I. unfold held. destruct (Nat.ltb_spec j n); [reflexivity|lia].
  - apply (fillers_unweighted (seq (0 + n) (its * b - n))); [|exact H2]. apply Forall_forall. intros j I. apply in_seq in I. lia.
Qed.

Notation wmode := (@world_mode W G).
Lemma test_spec scale cfg (dl : data_layer D) (t : trainer D (res (bench W G))) es :
  Trainer_Model.batch_size dl = b -> b <> 0 -> testing_samples dl = n -> ready K o0 b n c t -> map snd (layers t) = ps ->
  n <= scale (n / b + 1) (testing_ratio cfg) * b ->
  exists t' es' l o ds m tested fill, test D A cfg dl (res (bench W G)) wforward wmode scale (t, es) = Ok (t', es') /\
    world t' = Ok (mkBench (l, o, ds) m) /\ shaped_like o0 o /\ DatasetInput_Model.batch_size l = b /\ elements_testing l = n /\ testing l = false /\
    cm_classes m = c /\ cm_disabled m = false /\
    Forall2 pixels (map set (seq 0 n)) tested /\ Forall (fun q => weight_of q = wide zero) fill /\ counts K m (concat tested ++ fill) /\ in_range c (concat tested ++ fill) /\
    layers t' = layers t /\ last_deltas t' = last_deltas t /\ last_gradients t' = last_gradients t /\ accumulated t' = accumulated t /\ epoch t' = epoch t /\ first_iteration t' = first_iteration t.
Proof.
  intros Eb Nb En (l & o & ds & m & Ew & Hs & Hb & Hel & Ht & Cc & Cd & HC) Hp L. unfold test, test_iterations. rewrite Eb, En. destruct (Nat.eqb_spec b 0); [contradiction|]. cbn [bind].
  set (its := scale (n / b + 1) (testing_ratio cfg)) in *.
  destruct (batches dl its 0 0 (with_world D (res (bench W G)) t (wmode true (world t))) (es ++ [ETestingMode true; EGraphTesting true])) as (t1 & es1 & E1 & M & R); [exact Hp| |].
  { cbn [world with_world]. rewrite Ew. unfold world_mode. cbn [bind b_input b_matrix]. exists (set_testing_mode l true), o, ds, m, []. unfold set_testing_mode. rewrite Ht. cbn. rewrite Cc, Cd.
    repeat (split; [auto|]). constructor. }
  rewrite E1. cbn [bind]. destruct M as (l1 & o1 & ds1 & m1 & pss & Ew1 & Hs1 & Hb1 & Hel1 & Ht1 & _ & Cc1 & Cd1 & HF & HC1 & HR1).
  destruct (whole_run its pss L HF) as (tested & fill & Eq & HT & HZ). rewrite Eq in HC1, HR1.
  eexists _, _, (set_testing_mode l1 false), o1, ds1, m1, tested, fill. split; [reflexivity|]. cbn [world with_world]. rewrite Ew1. unfold world_mode. cbn [bind b_input b_matrix].
  split; [reflexivity|]. split; [exact Hs1|]. split; [exact Hb1|]. split; [exact Hel1|]. split; [reflexivity|]. split; [exact Cc1|]. split; [exact Cd1|]. split; [exact HT|].
  split; [exact HZ|]. split; [exact HC1|]. split; [exact HR1|]. exact R.
Qed.
End Run.

(** Pixels without weight do not count. *)
Lemma total_unweighted {W} (K : num W) sel px fill : (forall x, nadd K x (n0 K) = x) -> Forall (fun q => weight_of q = n0 K) fill -> total K sel (px ++ fill) = total K sel px.
Proof.
  intros H F. unfold total. rewrite filter_app, map_app, fold_left_app. generalize (fold_left (nadd K) (map weight_of (filter sel px)) (n0 K)). intros w.
  induction fill as [|q fill IH]; cbn [filter map fold_left]; [reflexivity|]. inversion F as [|? ? F1 F2]; subst. destruct (sel q); cbn [map fold_left]; [rewrite F1, H|]; now apply IH.
Qed.
Lemma counts_unweighted {W} (K : num W) m px fill : (forall x, nadd K x (n0 K) = x) -> Forall (fun q => weight_of q = n0 K) fill -> counts K m (px ++ fill) -> counts K m px.
Proof.
  intros H F (mt & pc & E & L1 & L2 & C1 & C2 & C3 & C4). exists mt, pc. split; [exact E|]. split; [exact L1|]. split; [exact L2|].
  split; [intros p a Hp Ha; rewrite C1 by assumption; now rewrite total_unweighted|]. split; [intros a Ha; rewrite C2 by assumption; now rewrite total_unweighted|].
  rewrite C3, C4, !total_unweighted by assumption. auto.
Qed.

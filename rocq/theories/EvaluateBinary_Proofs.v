(** Lemmas for C94. *)
From Coq Require Import Reals.
From Verif Require Import Base BaseFacts LoopFacts Float32 FloatOps FloatOps_Flocq Tensor_Model Tensor_Spec Tensor_Proofs Num Trainer_Model DatasetInput_Model DatasetInput_Spec
  StatLayers_Model StatLayers_Spec StatLayers2_Proofs StatLayers3_Proofs Evaluate_Spec Evaluate_Proofs EvaluateBinary_Model EvaluateBinary_Spec.
Local Open Scope nat_scope.

Lemma for_add {B} n k (F : nat -> list B) : for_ (n + k) F = for_ n F ++ for_ k (fun j => F (n + j)).
Proof.
  unfold for_. rewrite seq_app, flat_map_app. f_equal. cbn [Nat.add]. rewrite !flat_map_concat_map. f_equal. apply map_seq_shift.
Qed.
Lemma for_mul {B} k (F : nat -> list B) n : for_ (n * k) F = for_ n (fun i => for_ k (fun j => F (i * k + j))).
Proof.
  induction n as [|n IH]; [reflexivity|]. replace (S n * k) with (n * k + k) by lia. rewrite for_add, IH. replace (S n) with (n + 1) by lia. rewrite for_add. f_equal.
  unfold for_ at 2. cbn [seq flat_map]. now rewrite app_nil_r, Nat.add_0_r.
Qed.

(** Adding nothing to a non-negative float. *)
Lemma fadd_zero a : f32_nonneg a -> fadd a f32_zero = a.
Proof.
  unfold f32_nonneg, f32_inf. intros Ha. unfold fadd. change (sf_of_bits f32_zero) with (SpecFloat.S754_zero false). unfold sf_of_bits.
  assert (E : (a mod 2 ^ 31 = a)%Z) by (apply Z.mod_small; lia). rewrite E.
  assert (S : (2 ^ 31 <=? a)%Z = false) by (apply Z.leb_gt; lia). rewrite S.
  destruct (Z.eqb_spec a 0); [now subst|]. destruct (Z.ltb_spec a (2 ^ 23)) as [L1|L1]; [|destruct (Z.ltb_spec a 2139095040) as [L2|L2]; [|destruct (Z.eqb_spec a 2139095040)]].
  - cbn [SpecFloat.SFadd bits_of_sf sign_bit]. rewrite Z2Pos.id by lia. lia.
  - cbn [SpecFloat.SFadd bits_of_sf sign_bit]. pose proof (Z.mod_pos_bound a (2 ^ 23) ltac:(lia)). pose proof (Z.div_mod a (2 ^ 23) ltac:(lia)).
    rewrite Z2Pos.id by lia. lia.
  - now subst.
  - lia.
Qed.
Lemma etotal_nonneg sel (es : list (element f32)) : Forall (fun e => f32_nonneg (snd e)) es -> f32_nonneg (etotal f32_num sel es).
Proof.
  unfold etotal. assert (Z : f32_nonneg (n0 f32_num)) by (unfold f32_nonneg, f32_inf; cbn; unfold f32_zero; lia). revert Z. generalize (n0 f32_num).
  induction es as [|e es IH]; intros z Z F; cbn [filter map fold_left]; [exact Z|]. inversion F as [|? ? F1 F2]; subst. destruct (sel e); cbn [map fold_left]; [|auto].
  apply IH; [|exact F2]. cbn. now apply fadd_closed.
Qed.
Lemma etotal_fill sel (es fill : list (element f32)) : Forall (fun e => f32_nonneg (snd e)) es -> Forall (fun e => snd e = f32_zero) fill ->
  etotal f32_num sel (es ++ fill) = etotal f32_num sel es.
Proof.
  intros F Z. pose proof (etotal_nonneg sel es F) as N. unfold etotal in *. rewrite filter_app, map_app, fold_left_app.
  assert (X : forall v, f32_nonneg v -> fold_left (nadd f32_num) (map snd (filter sel fill)) v = v); [|apply X, N].
  intros v Nv. clear N. induction fill as [|e fill IH]; cbn [filter map fold_left]; [reflexivity|]. inversion Z as [|? ? Z1 Z2]; subst. destruct (sel e); cbn [map fold_left]; [|auto].
  rewrite Z1. cbn [f32_num nadd]. rewrite fadd_zero by exact Nv. auto.
Qed.

Section Run.
Context {D G : Type} (A : arith D).
Notation zero := f32_zero.
Variable gtb : f32 -> f32 -> bool.
Variable shuffle : G -> list nat -> list nat * G.
Variable uniform : G -> f32 * G.
Variable training_sample testing_sample : outputs f32 -> nat -> nat -> res (outputs f32 * bool).
Variable net : list (list (list D)) -> outputs f32 -> res (tensor f32 * list D).
Variable o0 : outputs f32.
Variable b n : nat.
Variable ths : list f32.
Variable set : nat -> example.
Hypothesis Hset : delivers testing_sample o0 b n set.
Hypothesis Hn : 0 < n.
Hypothesis Ho0 : detectable o0 b.
Variable ps : list (list (list D)).
Variable f : picture -> picture -> picture.
Hypothesis Hnet : computes net ps o0 f.
Notation w0 := (width (o_label o0)).
Notation h0 := (height (o_label o0)).
Notation held := (held zero n set).
Notation rows := (fun j => sample_elements w0 h0 f (held j)).

Lemma evaluable_one : evaluable o0 b 1.
Proof. destruct Ho0 as (W1 & W2 & M1 & M2 & _ & _ & S1 & S2 & E1 & E2). unfold evaluable. rewrite M1, M2. auto 12. Qed.

(** The elements of a batch are those of its samples. *)
Lemma batch_rows (first second third : tensor f32) (q : nat -> example) new k w h : wf first -> wf second -> wf third ->
  samples first = k -> width first = w -> height first = h -> maps first = 1 -> same_shape second first -> same_shape third first ->
  batch_elements (fun x => x) first second third new ->
  (forall s, s < k -> slot_is first s (f (e_image (q s)) (e_helper (q s))) /\ slot_is second s (e_label (q s)) /\ slot_is third s (e_weight (q s))) ->
  new = for_ k (fun s => sample_elements w h f (q s)).
Proof.
  intros [N1 V1] [N2 V2] [N3 V3] <- <- <- M (S1 & S2 & S3 & S4) (T1 & T2 & T3 & T4) (a & c & d & Da & Dc & Dd & ->) Hq.
  rewrite Da in V1. rewrite Dc in V2. rewrite Dd in V3. destruct V1 as [V1 P1], V2 as [V2 P2], V3 as [V3 P3].
  rewrite <- for_map. replace (length a) with (samples first * (height first * width first)) by (rewrite V1, N1, M; lia).
  rewrite for_mul. apply for_ext. intros s Hs. unfold sample_elements. rewrite for_mul. apply for_ext. intros y Hy. apply for_ext. intros x Hx.
  destruct (Hq s Hs) as (Q1 & Q2 & Q3). set (i := s * (height first * width first) + (y * width first + x)).
  assert (At : forall (t : tensor f32) l p, data t = Some l -> samples t = samples first -> width t = width first -> height t = height first -> maps t = 1 -> slot_is t s p -> nth i l 0%Z = p x y 0).
  { intros t l p Dt E1 E2 E3 E4 Q. assert (V : valid_pos t x y 0 s) by (unfold valid_pos; lia). specialize (Q x y 0 V). unfold at_pos in Q. destruct V as (V0 & V4 & V5 & V6).
    rewrite (proj2 (Nat.ltb_lt _ _) V0), (proj2 (Nat.ltb_lt _ _) V4), (proj2 (Nat.ltb_lt _ _) V5), (proj2 (Nat.ltb_lt _ _) V6), Dt in Q. cbn [andb] in Q.
    apply nth_error_nth with (d := 0%Z) in Q. rewrite <- Q. f_equal. unfold offset, i. rewrite E2, E3, E4. lia. }
  rewrite (At first a _ Da eq_refl eq_refl eq_refl M Q1), (At second c _ Dc S1 S2 S3 (eq_trans S4 M) Q2), (At third d _ Dd T1 T2 T3 (eq_trans T4 M) Q3). reflexivity.
Qed.

(** The state after [k] batches. *)
Definition midway (k : nat) (w : res (detector G)) : Prop :=
  exists l o ds m, w = Ok (mkDetector (l, o, ds) m) /\ shaped_like o0 o /\ DatasetInput_Model.batch_size l = b /\ elements_testing l = n /\ testing l = true /\
    current_element_testing l = Nat.min (k * b) n /\ bs_thresholds m = ths /\ bs_disabled m = false /\ bin_sized m /\
    binary_counts f32_num m (for_ (k * b) rows).
Notation wforward := (detector_world zero gtb shuffle uniform training_sample testing_sample net).

Lemma one_batch k w : b <> 0 -> midway k w -> midway (S k) (fst (wforward w ps)).
Proof.
  intros Nb (l & o & ds & m & -> & Hs & Hb & Hel & Ht & Hc & Et & Ed & Sz & HC).
  unfold detector_world. cbn [bind]. unfold detector_forward, DatasetInput_Model.feed_forward. cbn [d_input d_stat]. rewrite Hb.
  destruct (feed_slots zero gtb shuffle uniform training_sample testing_sample o0 b n 1 set Hset Hn evaluable_one b 0 l o ds (k * b)) as (l1 & o1 & ds1 & -> & Hs1 & T1 & E1 & B1 & C1 & H1 & _); auto; [rewrite Hc; f_equal; lia|]. cbn [bind].
  destruct (Hnet o1 Hs1) as (out & losses & -> & Wo & So & Hout). cbn [bind].
  pose proof Ho0 as (W1 & W2 & M1 & M2 & P1 & P2 & Sb1 & Sb2 & Ww & Wh). pose proof Hs1 as (_ & (Wl & Sl1 & Sl2 & Sl3 & Sl4) & _ & (Wt & Sw1 & Sw2 & Sw3 & Sw4)).
  pose proof So as (So1 & So2 & So3 & So4).
  assert (Eok : elements_ok out (o_label o1) (o_weight o1)).
  { pose proof Wo as [Na _]. pose proof Wl as [Nl _]. pose proof Wt as [Nw _]. unfold elements_ok. split; [exact Wo|]. split; [exact Wl|]. split; [exact Wt|].
    rewrite Na, Nl, Nw, Sl1, Sl2, Sl3, Sl4, Sw1, Sw2, Sw3, Sw4, So1, So2, So3, So4, Sb1, Sb2, M1, M2, Ww, Wh. split; [|lia]. destruct b, w0, h0; cbn; lia. }
  destruct (bs_forward_counts f32_num (fun x => x) m _ out (o_label o1) (o_weight o1) Eok Ed HC) as (new & m' & Be & Ef & HC' & Et' & Ed').
  pose proof (bs_forward_sized f32_num (fun x => x) _ _ _ _ _ Sz Ef) as Sz'. rewrite Ef. cbn [bind fst].
  exists l1, o1, ds1, m'. split; [reflexivity|]. split; [exact Hs1|]. split; [congruence|]. split; [exact E1|]. split; [exact T1|]. split; [rewrite C1; f_equal; lia|].
  split; [congruence|]. split; [exact Ed'|]. split; [exact Sz'|]. replace (S k * b) with (k * b + b) by lia. rewrite for_add.
  rewrite (batch_rows out (o_label o1) (o_weight o1) (fun s => held (k * b + s)) new b w0 h0) in HC'; auto; try congruence.
  - now repeat split; congruence.
  - now repeat split; congruence.
  - intros s Hsm. destruct (H1 s) as (H2 & H3 & H4 & H5); [lia|]. split; [apply Hout; now repeat split|]. split; assumption.
Qed.

Lemma batches (dl : data_layer D) its : b <> 0 -> forall a k (t : trainer D (res (detector G))) es, map snd (layers t) = ps -> midway k (world t) ->
  exists t' es', foldm (test_pass D A dl (res (detector G)) wforward) (seq a its) (t, es) = Ok (t', es') /\ midway (k + its) (world t') /\
    layers t' = layers t /\ last_deltas t' = last_deltas t /\ last_gradients t' = last_gradients t /\ accumulated t' = accumulated t /\ epoch t' = epoch t /\ first_iteration t' = first_iteration t.
Proof.
  intros Nb. induction its as [|its IH]; intros a k t es Hp Hm; cbn [seq foldm].
  - exists t, es. rewrite Nat.add_0_r. repeat (split; [auto|]). reflexivity.
  - unfold test_pass at 1. pose proof (one_batch k (world t) Nb Hm) as H1. rewrite Hp. destruct (wforward (world t) ps) as [w losses]. cbn [fst] in H1. cbn [bind].
    destruct (IH (S a) (S k) (with_world D (res (detector G)) t w) (es ++ [EForward losses; EIteration (div A (sum_losses D A (Trainer_Model.zero A) losses) (of_Z A (Z.of_nat (sample_count dl))))]))
      as (t' & es' & -> & M & R); [exact Hp|exact H1|].
    exists t', es'. split; [reflexivity|]. replace (k + S its) with (S k + its) by lia. split; [exact M|]. exact R.
Qed.

Hypothesis Hw : weighted w0 h0 n set.
Lemma held_total its sel : n <= its * b -> etotal f32_num sel (for_ (its * b) rows) = etotal f32_num sel (all_elements w0 h0 n set f).
Proof.
  intros L. replace (its * b) with (n + (its * b - n)) by lia. rewrite for_add.
  replace (for_ n rows) with (all_elements w0 h0 n set f).
  - apply etotal_fill.
    + apply Forall_forall. intros e I. apply in_for in I as (i & Hi & I). apply in_for in I as (y & Hy & I). apply in_for in I as (x & Hx & [<-|[]]). cbn [snd]. now apply Hw.
    + apply Forall_forall. intros e I. apply in_for in I as (i & Hi & I). apply in_for in I as (y & Hy & I). apply in_for in I as (x & Hx & [<-|[]]). cbn [snd]. unfold Evaluate_Proofs.held.
      destruct (Nat.ltb_spec (n + i) n); [lia|]. reflexivity.
  - unfold all_elements. apply for_ext. intros i Hi. unfold Evaluate_Proofs.held. now rewrite (proj2 (Nat.ltb_lt _ _) Hi).
Qed.

Notation wmode := (@detector_mode G).
Lemma test_spec scale cfg (dl : data_layer D) (t : trainer D (res (detector G))) es :
  Trainer_Model.batch_size dl = b -> b <> 0 -> testing_samples dl = n -> ready o0 b n ths t -> map snd (layers t) = ps ->
  n <= scale (n / b + 1) (testing_ratio cfg) * b ->
  exists t' es' l o ds m, test D A cfg dl (res (detector G)) wforward wmode scale (t, es) = Ok (t', es') /\
    world t' = Ok (mkDetector (l, o, ds) m) /\ shaped_like o0 o /\ DatasetInput_Model.batch_size l = b /\ elements_testing l = n /\ testing l = false /\
    bs_thresholds m = ths /\ bs_disabled m = false /\ bin_sized m /\ binary_counts f32_num m (all_elements w0 h0 n set f) /\
    layers t' = layers t /\ last_deltas t' = last_deltas t /\ last_gradients t' = last_gradients t /\ accumulated t' = accumulated t /\ epoch t' = epoch t /\ first_iteration t' = first_iteration t.
Proof.
  intros Eb Nb En (l & o & ds & m & Ew & Hs & Hb & Hel & Ht & Et & Ed & L1 & L2 & L3 & L4 & Z) Hp L. unfold test, test_iterations. rewrite Eb, En. destruct (Nat.eqb_spec b 0); [contradiction|]. cbn [bind].
  set (its := scale (n / b + 1) (testing_ratio cfg)) in *.
  assert (C0 : binary_counts f32_num m []).
  { intros j th Hj. rewrite Et in Hj. assert (Lj : j < length ths) by (apply nth_error_Some; congruence).
    assert (X : forall y, In y [bs_tp m; bs_fp m; bs_fn m; bs_tn m] -> length y = length ths -> nth_error y j = Some f32_zero).
    { intros y Iy Ly. destruct (nth_error_lt y (a := j)) as (v & Ev); [lia|]. rewrite Ev. pose proof (Z y Iy) as F. rewrite Forall_forall in F. now rewrite <- (F v (nth_error_In _ _ Ev)). }
    unfold etotal. cbn [filter map fold_left]. change (Num.n0 f32_num) with f32_zero. repeat split; apply X; auto; cbn; auto 6. }
  destruct (batches dl its Nb 0 0 (with_world D (res (detector G)) t (wmode true (world t))) (es ++ [ETestingMode true; EGraphTesting true])) as (t1 & es1 & E1 & M & R); [exact Hp| |].
  { cbn [world with_world]. rewrite Ew. unfold detector_mode. cbn [bind d_input d_stat]. exists (set_testing_mode l true), o, ds, m. unfold set_testing_mode. rewrite Ht. cbn [Nat.mul].
    split; [reflexivity|]. split; [exact Hs|]. split; [exact Hb|]. split; [exact Hel|]. split; [reflexivity|]. split; [reflexivity|]. split; [exact Et|]. split; [exact Ed|].
    split; [unfold bin_sized; rewrite Et; auto|exact C0]. }
  rewrite E1. cbn [bind]. destruct M as (l1 & o1 & ds1 & m1 & Ew1 & Hs1 & Hb1 & Hel1 & Ht1 & _ & Et1 & Ed1 & Sz1 & HC1). cbn [Nat.add] in HC1.
  eexists _, _, (set_testing_mode l1 false), o1, ds1, m1. split; [reflexivity|]. cbn [world with_world]. rewrite Ew1. unfold detector_mode. cbn [bind d_input d_stat].
  split; [reflexivity|]. split; [exact Hs1|]. split; [exact Hb1|]. split; [exact Hel1|]. split; [reflexivity|]. split; [exact Et1|]. split; [exact Ed1|]. split; [exact Sz1|]. split; [|exact R].
  intros j th Hj. destruct (HC1 j th Hj) as (X1 & X2 & X3 & X4). rewrite !held_total in X1 by exact L. rewrite !held_total in X2 by exact L. rewrite !held_total in X3 by exact L. rewrite !held_total in X4 by exact L. auto.
Qed.
End Run.

(** What is reported. *)
Lemma minus_one_is : f_of_Z (-1) = minus_one. Proof. vm_compute. reflexivity. Qed.
Lemma minus_two_is : f_of_Z (-2) = minus_two. Proof. vm_compute. reflexivity. Qed.
Lemma f1_is th es : f1_at th es = bs_f1 (bs_ratio (found th es) (claimed th es)) (bs_ratio (found th es) (missed th es)).
Proof. unfold f1_at, precision_at, recall_at, share, bs_f1, bs_ratio. rewrite minus_one_is. reflexivity. Qed.
Lemma report_spec (m : binary f32) es : bin_sized m -> binary_counts f32_num m es ->
  (exists t th, best (bs_thresholds m) es t th /\ bs_update_all m = Ok (report_at th es)) \/
  ((forall th, In th (bs_thresholds m) -> ~ usable es th) /\ bs_update_all m = UB).
Proof.
  intros (L1 & L2 & L3 & L4) HC. set (ths := bs_thresholds m) in *.
  destruct (choose_spec m (fun t => f1_at (nth t ths f32_zero) es) L1 L2 L3) as (fm & o & E & Ho).
  { intros t tp fp fn E1 E2 E3. assert (Lt : t < length ths) by (rewrite <- L1; apply nth_error_Some; congruence). destruct (nth_error_lt ths Lt) as (th & Et).
    rewrite (nth_error_nth _ _ f32_zero Et), f1_is. destruct (HC t th Et) as (X1 & X2 & X3 & _). unfold found, claimed, missed. congruence. }
  fold ths in Ho. unfold bs_update_all. rewrite E. cbn [bind snd]. destruct o as [t|].
  - left. destruct Ho as (Lt & U & B1 & B2). destruct (nth_error_lt ths Lt) as (th & Et). exists t, th. rewrite (nth_error_nth _ _ f32_zero Et) in U, B1, B2. split.
    + split; [exact Et|]. split; [unfold usable; rewrite minus_two_is; exact U|]. split.
      * intros t' th' Et'. rewrite <- (B1 t'); [|apply nth_error_Some; congruence]. now rewrite (nth_error_nth _ _ f32_zero Et').
      * intros t' th' Lt' Et'. rewrite <- (B2 t' Lt'). now rewrite (nth_error_nth _ _ f32_zero Et').
    + destruct (HC t th Et) as (X1 & X2 & X3 & X4). unfold load. rewrite X1, X2, X3, X4. cbn [bind]. unfold report_at, precision_at, recall_at. rewrite f1_is.
      unfold share, given, reported, bs_ratio, found, claimed, missed, left_out. rewrite minus_one_is. reflexivity.
  - right. split; [|reflexivity]. intros th I U. apply In_nth_error in I as (t & Et). unfold usable in U. rewrite minus_two_is in U.
    assert (Lt : t < length ths) by (apply nth_error_Some; congruence). specialize (Ho t Lt). rewrite (nth_error_nth _ _ f32_zero Et) in Ho. congruence.
Qed.

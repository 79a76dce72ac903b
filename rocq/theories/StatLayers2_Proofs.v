From Coq Require Import Permutation Reals Lra.
From Verif Require Import Base BaseFacts LoopFacts Float32 FloatOps Tensor_Model Tensor_Spec Tensor_Proofs Num RealNum Math_Spec Math_Proofs Conv_Proofs
  Act_Model Act_Proofs StatLayers_Model StatLayers_Spec StatLayers_Proofs.

(** * Rates of the confusion matrix in exact arithmetic *)
Definition Rltb (x y : R) : bool := if Rlt_dec x y then true else false.
Lemma Rltb_true x y : Rltb x y = true <-> (x < y)%R.
Proof. unfold Rltb. destruct (Rlt_dec x y); split; auto; discriminate. Qed.

Section Rates.
Local Open Scope R_scope.
Notation total := (total R_num).
Definition nonneg (px : list (pixel R)) : Prop := Forall (fun q => 0 <= weight_of q) px.

Lemma total_nonneg sel px : nonneg px -> 0 <= total sel px.
Proof.
  intros H. induction H as [|q px Hq H IH]; [cbn; lra|]. rewrite (total_cons R_num R_ring_laws). cbn [nadd R_num n0].
  destruct (sel q); lra.
Qed.
Lemma total_le (s1 s2 : pixel R -> bool) px : nonneg px -> (forall q, s1 q = true -> s2 q = true) -> total s1 px <= total s2 px.
Proof.
  intros H Hs. induction H as [|q px Hq H IH]; [cbn; lra|]. rewrite !(total_cons R_num R_ring_laws). cbn [nadd R_num n0].
  destruct (s1 q) eqn:E1; [rewrite (Hs q E1); lra|]. destruct (s2 q); lra.
Qed.
Lemma total_or (s1 s2 : pixel R -> bool) px : total s1 px + total s2 px = total (fun q => s1 q || s2 q) px + total (fun q => s1 q && s2 q) px.
Proof.
  induction px as [|q px IH]; [cbn; lra|]. rewrite !(total_cons R_num R_ring_laws). cbn [nadd R_num n0]. destruct (s1 q), (s2 q); cbn; lra.
Qed.
Lemma total_ext {W} (K : num W) (s1 s2 : pixel W -> bool) px : (forall q, s1 q = s2 q) -> StatLayers_Spec.total K s1 px = StatLayers_Spec.total K s2 px.
Proof. intros H. unfold StatLayers_Spec.total. rewrite (filter_ext _ _ H). reflexivity. Qed.
Lemma nsum_le n f g : (forall i, (i < n)%nat -> f i <= g i) -> nsum R_num n f <= nsum R_num n g.
Proof.
  induction n as [|n IH]; intros H; cbn [nsum nadd R_num n0]; [lra|]. apply Rplus_le_compat; [apply IH; intros; apply H; lia|apply H; lia].
Qed.
Lemma nsum_one n : nsum R_num n (fun _ => 1) = INR n.
Proof. induction n as [|n IH]; [reflexivity|]. rewrite S_INR. cbn [nsum nadd R_num]. now rewrite IH. Qed.

Lemma Rnsum_add n f g : nsum R_num n (fun i => f i + g i) = nsum R_num n f + nsum R_num n g.
Proof. exact (nsum_add R_num R_ring_laws n f g). Qed.

Lemma row_sum c px p : in_range c px -> nsum R_num c (fun a => total (is_entry p a) px) = total (is_given p) px.
Proof.
  intros H. rewrite <- (total_split R_num R_ring_laws actual c (is_given p)).
  - apply nsum_ext. reflexivity.
  - eapply Forall_impl; [|exact H]. cbn. intros q [_ Hq] _. exact Hq.
Qed.
Lemma col_sum c px a : in_range c px -> nsum R_num c (fun p => total (is_entry p a) px) = total (is_actual a) px.
Proof.
  intros H. rewrite <- (total_split R_num R_ring_laws given c (is_actual a)).
  - apply nsum_ext. intros p _. apply total_ext. intros q. unfold is_entry, is_actual. apply andb_comm.
  - eapply Forall_impl; [|exact H]. cbn. intros q [Hq _] _. exact Hq.
Qed.

(** The rates of a set of pixels. *)
Definition touches (c : nat) (q : pixel R) : bool := is_given c q || is_actual c q.
Definition ratio (a b : R) : R := if Rltb 0 b then a / b else 0.
Definition overall_rate (px : list (pixel R)) : R := 100 * total is_right px / total any px.
Definition average_rate (classes : nat) (px : list (pixel R)) : R :=
  100 * nsum R_num classes (fun c => ratio (total (is_entry c c) px) (total (is_actual c) px)) /
  nsum R_num classes (fun c => if Rltb 0 (total (is_actual c) px) then 1 else 0).
Definition average_iou (classes : nat) (px : list (pixel R)) : R :=
  100 * nsum R_num classes (fun c => ratio (total (is_entry c c) px) (total (touches c) px)) / INR classes.

Lemma union_spec c M px t : (t < c)%nat -> in_range c px ->
  (forall p a, (p < c)%nat -> (a < c)%nat -> nth_error M (p * c + a) = Some (total (is_entry p a) px)) ->
  cm_union R_num c M t = Ok (total (touches t) px).
Proof.
  intros Ht Hr HM. unfold cm_union.
  rewrite (foldm_nsum R_num c _ (fun i => if (i =? t)%nat then 0 else total (is_entry t i) px + total (is_entry i t) px)).
  2:{ intros s i Hi. destruct (i =? t)%nat; [cbn; f_equal; lra|]. unfold load. rewrite (HM t i), (HM i t) by auto. cbn. f_equal. lra. }
  cbn [bind]. unfold load. rewrite (HM t t) by auto. cbn [bind nadd R_num]. f_equal.
  pose proof (row_sum c px t Hr) as E1. pose proof (col_sum c px t Hr) as E2. pose proof (total_or (is_given t) (is_actual t) px) as E3.
  change (total (fun q => is_given t q && is_actual t q) px) with (total (is_entry t t) px) in E3.
  change (total (fun q => is_given t q || is_actual t q) px) with (total (touches t) px) in E3.
  assert (E4 : nsum R_num c (fun i => if (i =? t)%nat then 0 else total (is_entry t i) px + total (is_entry i t) px) + 2 * total (is_entry t t) px =
    nsum R_num c (fun i => total (is_entry t i) px) + nsum R_num c (fun i => total (is_entry i t) px)).
  { rewrite <- (Rnsum_add c (fun i => total (is_entry t i) px)).
    replace (2 * total (is_entry t t) px) with (nsum R_num c (fun i => if (i =? t)%nat then 2 * total (is_entry t t) px else 0)).
    2:{ rewrite (nsum_single R_num R_ring_laws c t); [now rewrite Nat.eqb_refl|exact Ht|]. intros i _ Hne. destruct (Nat.eqb_spec i t); [congruence|reflexivity]. }
    rewrite <- Rnsum_add.
    apply nsum_ext. intros i _. destruct (Nat.eqb_spec i t) as [->|]; lra. }
  lra.
Qed.

Lemma update_all_spec st px : counts R_num st px -> in_range (cm_classes st) px -> 1 <= total any px ->
  cm_update_all R_num Rltb Rdiv INR st = Ok (Some (overall_rate px, average_rate (cm_classes st) px, average_iou (cm_classes st) px)).
Proof.
  intros (M & P & Em & Lm & Lp & HM & HP & Ht & Hr) Hin Hone. unfold cm_update_all. rewrite Ht.
  replace (Rltb (total any px) (n1 R_num)) with false.
  2:{ symmetry. destruct (Rltb (total any px) (n1 R_num)) eqn:E; [|reflexivity]. apply Rltb_true in E. cbn in E. lra. }
  rewrite Em. set (c := cm_classes st) in *.
  assert (E1 : cm_arr_loop R_num Rltb Rdiv c M P = Ok (nsum R_num c (fun i => ratio (total (is_entry i i) px) (total (is_actual i) px)),
    nsum R_num c (fun i => if Rltb 0 (total (is_actual i) px) then 1 else 0))).
  { unfold cm_arr_loop. assert (G : forall k, (k <= c)%nat -> foldm (fun acc i => let '(sum, ccount) := acc in
      pc <- load P i ;; if Rltb (n0 R_num) pc then v <- load M (i * c + i) ;; Ok (nadd R_num sum (v / pc), nadd R_num ccount (n1 R_num)) else Ok (sum, ccount))
      (seq 0 k) (n0 R_num, n0 R_num) = Ok (nsum R_num k (fun i => ratio (total (is_entry i i) px) (total (is_actual i) px)),
    nsum R_num k (fun i => if Rltb 0 (total (is_actual i) px) then 1 else 0))); [|now apply G].
    induction k as [|k IH]; intros Hk; [reflexivity|]. rewrite seq_S, foldm_app, IH by lia. cbn [bind Nat.add foldm].
    unfold load at 1. rewrite HP by lia. cbn [bind n0 R_num nsum]. unfold ratio. destruct (Rltb 0 (total (is_actual k) px)).
    - unfold load. rewrite HM by lia. reflexivity.
    - cbn. now rewrite !Rplus_0_r. }
  assert (E2 : cm_iou_loop R_num Rltb Rdiv c M = Ok (nsum R_num c (fun i => ratio (total (is_entry i i) px) (total (touches i) px)))).
  { apply foldm_nsum. intros s i Hi. rewrite (union_spec c M px i Hi Hin HM). cbn [bind]. unfold load. rewrite HM by auto. reflexivity. }
  cbv zeta. rewrite E1. cbn [bind]. rewrite E2. cbn [bind fst snd]. rewrite Hr. unfold overall_rate, average_rate, average_iou.
  change (nmul R_num) with Rmult. replace (INR 100) with 100; [reflexivity|]. cbn. lra.
Qed.

Lemma ratio_range a b : 0 <= a <= b -> 0 <= ratio a b <= 1.
Proof.
  intros H. unfold ratio. destruct (Rltb 0 b) eqn:E; [|lra]. apply Rltb_true in E. split.
  - apply Rmult_le_pos; [lra|]. left. now apply Rinv_0_lt_compat.
  - apply Rmult_le_reg_r with b; [exact E|]. unfold Rdiv. rewrite Rmult_assoc, Rinv_l; lra.
Qed.
Lemma percent_range a b : 0 < b -> 0 <= a <= b -> 0 <= 100 * a / b <= 100.
Proof.
  intros Hb H. pose proof (ratio_range a b H) as Q. unfold ratio in Q. rewrite (proj2 (Rltb_true 0 b) Hb) in Q. unfold Rdiv in *.
  rewrite Rmult_assoc. lra.
Qed.

Lemma rates_range c px : nonneg px -> in_range c px -> 1 <= total any px ->
  0 <= overall_rate px <= 100 /\ 0 <= average_rate c px <= 100 /\ 0 <= average_iou c px <= 100.
Proof.
  intros Hn Hin Hone. split; [|split].
  - apply percent_range; [lra|]. split; [now apply total_nonneg|]. now apply total_le.
  - set (ind := fun i => if Rltb 0 (total (is_actual i) px) then 1 else 0).
    assert (Hle : nsum R_num c (fun i => ratio (total (is_entry i i) px) (total (is_actual i) px)) <= nsum R_num c ind).
    { apply nsum_le. intros i _. unfold ind, ratio. destruct (Rltb 0 (total (is_actual i) px)) eqn:E; [|lra].
      pose proof (ratio_range (total (is_entry i i) px) (total (is_actual i) px)) as Q. unfold ratio in Q. rewrite E in Q. apply Q.
      split; [now apply total_nonneg|]. apply total_le; [exact Hn|]. unfold is_entry, is_actual. intros q Hq. now apply andb_true_iff in Hq. }
    assert (Hpos : 0 <= nsum R_num c (fun i => ratio (total (is_entry i i) px) (total (is_actual i) px))).
    { replace 0 with (nsum R_num c (fun _ => 0)) by now apply (nsum_zero R_num R_ring_laws). apply nsum_le. intros i _. apply ratio_range.
      split; [now apply total_nonneg|]. apply total_le; [exact Hn|]. unfold is_entry, is_actual. intros q Hq. now apply andb_true_iff in Hq. }
    assert (Hcnt : 0 < nsum R_num c ind).
    { destruct (Rle_lt_dec (nsum R_num c ind) 0) as [Hz|]; [|assumption]. exfalso.
      assert (Hall : forall i, (i < c)%nat -> total (is_actual i) px <= 0).
      { assert (Hn0 : forall i, 0 <= ind i) by (intros i; unfold ind; destruct (Rltb _ _); lra).
        assert (P : forall k, 0 <= nsum R_num k ind).
        { intros k. replace 0 with (nsum R_num k (fun _ => 0)) by now apply (nsum_zero R_num R_ring_laws). apply nsum_le. intros; apply Hn0. }
        clear Hle. revert Hz. clear -Hn0 P. generalize c. intros n. induction n as [|n IH]; intros Hz i Hi; [lia|].
        cbn [nsum nadd R_num] in Hz. pose proof (Hn0 n). pose proof (P n). destruct (Nat.eq_dec i n) as [->|]; [|apply IH; [lra|lia]].
        destruct (Rltb 0 (total (is_actual n) px)) eqn:E; [unfold ind in *; rewrite E in *; lra|].
        destruct (Rle_lt_dec (total (is_actual n) px) 0) as [|Hlt]; [assumption|]. apply Rltb_true in Hlt. congruence. }
      assert (Et : nsum R_num c (fun i => total (is_actual i) px) = total any px).
      { rewrite <- (total_split R_num R_ring_laws actual c any); [reflexivity|]. eapply Forall_impl; [|exact Hin]. cbn. now intros q [_ Hq] _. }
      assert (nsum R_num c (fun i => total (is_actual i) px) <= nsum R_num c (fun _ => 0)) by (apply nsum_le; auto).
      rewrite (nsum_zero R_num R_ring_laws) in H. cbn in H. lra. }
    apply percent_range; [exact Hcnt|split; [exact Hpos|exact Hle]].
  - assert (Hc : (0 < c)%nat).
    { destruct c; [|lia]. exfalso. destruct px as [|q px]; [cbn in Hone; lra|]. inversion Hin as [|? ? [Hq _]]; subst. lia. }
    apply percent_range; [now apply lt_0_INR|]. rewrite <- nsum_one. split.
    + replace 0 with (nsum R_num c (fun _ => 0)) by now apply (nsum_zero R_num R_ring_laws). apply nsum_le. intros i _. apply ratio_range.
      split; [now apply total_nonneg|]. apply total_le; [exact Hn|]. unfold is_entry, touches, is_actual, is_given. intros q Hq.
      apply andb_true_iff in Hq as [-> _]. reflexivity.
    + apply nsum_le. intros i _. apply ratio_range.
      split; [now apply total_nonneg|]. apply total_le; [exact Hn|]. unfold is_entry, touches, is_actual, is_given. intros q Hq.
      apply andb_true_iff in Hq as [-> _]. reflexivity.
Qed.
End Rates.

(** * Binary statistics *)
Local Open Scope nat_scope.
Section Binary.
Context {W : Type} (K : num W) (wide : f32 -> W).

Definition sel (th : f32) (sign expected : bool) (e : element W) : bool := Bool.eqb (above th e) sign && Bool.eqb (positive e) expected.

Lemma for_filter {A B} n (g : nat -> A) (s : A -> bool) (h : A -> B) :
  for_ n (fun i => if s (g i) then [h (g i)] else []) = map h (filter s (map g (seq 0 n))).
Proof.
  unfold for_. induction (seq 0 n) as [|i l IH]; [reflexivity|]. cbn [flat_map map filter]. rewrite IH. destruct (s (g i)); reflexivity.
Qed.

Lemma nth_error_nth_Z (l : list f32) i : i < length l -> load l i = Ok (nth i l 0%Z).
Proof. intros H. unfold load. now rewrite (nth_error_nth' l 0%Z H). Qed.

Lemma bs_adds_spec thresholds first second third es sign expected t th : elements_ok first second third -> batch_elements wide first second third es ->
  nth_error thresholds t = Some th ->
  bs_adds wide thresholds first second third sign expected t = map (fun e => (t, Ok (snd e))) (filter (sel th sign expected) es).
Proof.
  intros (W1 & W2 & W3 & Hp & E2 & E3) (a & b & c & Da & Db & Dc & ->) Hth. unfold bs_adds.
  destruct W1 as [_ V1], W2 as [_ V2], W3 as [_ V3]. rewrite Da in V1. rewrite Db in V2. rewrite Dc in V3. destruct V1 as [V1 _], V2 as [V2 _], V3 as [V3 _].
  rewrite <- V1. etransitivity; [|exact (for_filter (length a) (fun s => (nth s a 0%Z, nth s b 0%Z, wide (nth s c 0%Z))) (sel th sign expected) (fun e => (t, Ok (snd e))))].
  apply for_ext. intros s Hs. unfold elt, buffer. rewrite Da, Db, Dc. cbn [bind]. rewrite (nth_error_nth_Z a), (nth_error_nth_Z b), (nth_error_nth_Z c) by lia. cbn [bind].
  unfold load. rewrite Hth. cbn [bind]. unfold sel, above, positive. cbn [fst snd]. reflexivity.
Qed.

Lemma vals_at_same t (l : list (element W)) : vals_at t (map (fun e => (t, Ok (snd e))) l) = map snd l.
Proof. induction l as [|e l IH]; [reflexivity|]. unfold vals_at in *. cbn. rewrite Nat.eqb_refl. cbn. now rewrite IH. Qed.

Lemma bs_array thresholds first second third es new sign expected l : elements_ok first second third -> batch_elements wide first second third new ->
  (forall t th, nth_error thresholds t = Some th -> nth_error l t = Some (etotal K (sel th sign expected) es)) ->
  exists l', exec_with (nadd K) (for_ (length thresholds) (bs_adds wide thresholds first second third sign expected)) l = Ok l' /\
    forall t th, nth_error thresholds t = Some th -> nth_error l' t = Some (etotal K (sel th sign expected) (es ++ new)).
Proof.
  intros He Hb Hl.
  assert (Hlt : forall t, t < length thresholds -> exists th, nth_error thresholds t = Some th) by (intros t Ht; now apply nth_error_lt).
  destruct (exec_with_total (nadd K) (ops := for_ (length thresholds) (bs_adds wide thresholds first second third sign expected)) (l := l)) as (l' & E & _).
  - intros a rv Hin. apply in_for in Hin as (t & Ht & Hin). destruct (Hlt t Ht) as [th Hth].
    rewrite (bs_adds_spec _ _ _ _ new _ _ t th He Hb Hth) in Hin. apply in_map_iff in Hin as (e & X & _). injection X as <- <-.
    split; [|eauto]. apply nth_error_Some. rewrite (Hl t th Hth). discriminate.
  - exists l'. split; [exact E|]. intros t th Hth. assert (Ht : t < length thresholds) by (apply nth_error_Some; congruence).
    rewrite (exec_with_nth E t), (Hl t th Hth). cbn [option_map]. rewrite vals_at_for, (for_single _ _ t Ht).
    + rewrite (bs_adds_spec _ _ _ _ new _ _ t th He Hb Hth), vals_at_same. f_equal. unfold etotal.
      now rewrite filter_app, map_app, fold_left_app.
    + intros j Hj Hne. destruct (Hlt j Hj) as [th' Hth']. rewrite (bs_adds_spec _ _ _ _ new _ _ j th' He Hb Hth').
      apply vals_at_none. intros rv Hin. apply in_map_iff in Hin as (e & X & _). congruence.
Qed.

Lemma etotal_ext (s1 s2 : element W -> bool) es : (forall e, s1 e = s2 e) -> etotal K s1 es = etotal K s2 es.
Proof. intros H. unfold etotal. now rewrite (filter_ext _ _ H). Qed.
Lemma sel_tt th e : sel th true true e = above th e && positive e.
Proof. unfold sel. now destruct (above th e), (positive e). Qed.
Lemma sel_tf th e : sel th true false e = above th e && negb (positive e).
Proof. unfold sel. now destruct (above th e), (positive e). Qed.
Lemma sel_ft th e : sel th false true e = negb (above th e) && positive e.
Proof. unfold sel. now destruct (above th e), (positive e). Qed.
Lemma sel_ff th e : sel th false false e = negb (above th e) && negb (positive e).
Proof. unfold sel. now destruct (above th e), (positive e). Qed.

Lemma bs_forward_counts st es first second third : elements_ok first second third -> bs_disabled st = false -> binary_counts K st es ->
  exists new st', batch_elements wide first second third new /\ bs_forward K wide first second third st = Ok st' /\
    binary_counts K st' (es ++ new) /\ bs_thresholds st' = bs_thresholds st /\ bs_disabled st' = false.
Proof.
  intros He Hd Hc. pose proof He as (W1 & W2 & W3 & Hp & E2 & E3).
  assert (Dd : forall t : tensor f32, wf t -> 0 < elements t -> exists l, data t = Some l).
  { intros t [Ee V] H. destruct (data t); [eauto|]. destruct V as (V1 & _). rewrite V1 in Ee. cbn in Ee. lia. }
  destruct (Dd first W1) as [a Da]; [lia|]. destruct (Dd second W2) as [b Db]; [lia|]. destruct (Dd third W3) as [c Dc]; [lia|].
  set (new := map (fun s => (nth s a 0%Z, nth s b 0%Z, wide (nth s c 0%Z))) (seq 0 (length a))).
  assert (Hb : batch_elements wide first second third new) by (exists a, b, c; auto).
  unfold bs_forward. rewrite Hd.
  destruct (bs_array (bs_thresholds st) first second third es new true true (bs_tp st) He Hb) as (tp & Etp & Vtp).
  { intros t th Hth. rewrite (etotal_ext _ _ es (sel_tt th)). now apply Hc. }
  destruct (bs_array (bs_thresholds st) first second third es new true false (bs_fp st) He Hb) as (fp & Efp & Vfp).
  { intros t th Hth. rewrite (etotal_ext _ _ es (sel_tf th)). now apply Hc. }
  destruct (bs_array (bs_thresholds st) first second third es new false true (bs_fn st) He Hb) as (fn & Efn & Vfn).
  { intros t th Hth. rewrite (etotal_ext _ _ es (sel_ft th)). now apply Hc. }
  destruct (bs_array (bs_thresholds st) first second third es new false false (bs_tn st) He Hb) as (tn & Etn & Vtn).
  { intros t th Hth. rewrite (etotal_ext _ _ es (sel_ff th)). now apply Hc. }
  rewrite Etp. cbn [bind]. rewrite Efp. cbn [bind]. rewrite Efn. cbn [bind]. rewrite Etn. cbn [bind].
  exists new. eexists. split; [exact Hb|]. split; [reflexivity|]. split; [|split; [reflexivity|reflexivity]].
  intros t th Hth. cbn [bs_thresholds bs_tp bs_fp bs_fn bs_tn] in *.
  rewrite (Vtp t th Hth), (Vfp t th Hth), (Vfn t th Hth), (Vtn t th Hth).
  rewrite (etotal_ext _ _ _ (sel_tt th)), (etotal_ext _ _ _ (sel_tf th)), (etotal_ext _ _ _ (sel_ft th)), (etotal_ext _ _ _ (sel_ff th)). auto.
Qed.

Definition bin_sized (st : binary W) : Prop :=
  length (bs_tp st) = length (bs_thresholds st) /\ length (bs_fp st) = length (bs_thresholds st) /\
  length (bs_fn st) = length (bs_thresholds st) /\ length (bs_tn st) = length (bs_thresholds st).
Lemma bs_reset_counts st : bin_sized st ->
  exists st', bs_reset K st = Ok st' /\ binary_counts K st' [] /\ bin_sized st' /\ bs_thresholds st' = bs_thresholds st /\ bs_disabled st' = bs_disabled st.
Proof.
  intros (L1 & L2 & L3 & L4). unfold bs_reset. set (n := length (bs_thresholds st)) in *.
  assert (Z : forall (l : list W), length l = n -> exists l', exec (for_ n (fun c => [(c, Ok (n0 K))])) l = Ok l' /\ length l' = n /\
    forall i, i < n -> nth_error l' i = Some (n0 K)).
  { intros l Hl. destruct (exec_with_total overwrite (ops := for_ n (fun c => [(c, Ok (n0 K))])) (l := l)) as (l' & E' & L').
    - intros a rv Hin. apply in_for in Hin as (i & Hi & [X|[]]). injection X as <- <-. split; [lia|eauto].
    - exists l'. split; [exact E'|]. split; [lia|]. intros i Hi. rewrite (exec_with_nth E' i), vals_at_for.
      destruct (nth_error_lt l (a := i)) as [old ->]; [lia|]. cbn [option_map]. rewrite (for_single _ n i Hi).
      + rewrite vals_at_one, Nat.eqb_refl. reflexivity.
      + intros j Hj Hne. rewrite vals_at_one. destruct (Nat.eqb_spec j i); [congruence|reflexivity]. }
  destruct (Z _ L4) as (tn & E4 & M4 & V4), (Z _ L1) as (tp & E1 & M1 & V1), (Z _ L3) as (fn & E3 & M3 & V3), (Z _ L2) as (fp & E2 & M2 & V2).
  cbv zeta. rewrite E4. cbn [bind]. rewrite E1. cbn [bind]. rewrite E3. cbn [bind]. rewrite E2. cbn [bind].
  eexists. split; [reflexivity|]. split; [|split; [|split; reflexivity]].
  - intros t th Hth. cbn [bs_thresholds bs_tp bs_fp bs_fn bs_tn] in *. assert (t < n) by (apply nth_error_Some; congruence).
    rewrite V1, V2, V3, V4 by assumption. auto.
  - repeat split; assumption.
Qed.

Definition binary_ok (calls : list stat_call) : Prop := forall f s t, In (CallForward f s t) calls -> elements_ok f s t.
Lemma bs_forward_sized st f s t st' : bin_sized st -> bs_forward K wide f s t st = Ok st' -> bin_sized st'.
Proof.
  unfold bs_forward. destruct (bs_disabled st); [intros H [= <-]; exact H|]. intros (L1 & L2 & L3 & L4) E.
  destruct (exec_with _ _ (bs_tp st)) as [tp| |] eqn:E1; [|discriminate|discriminate]. cbn [bind] in E.
  destruct (exec_with _ _ (bs_fp st)) as [fp| |] eqn:E2; [|discriminate|discriminate]. cbn [bind] in E.
  destruct (exec_with _ _ (bs_fn st)) as [fn| |] eqn:E3; [|discriminate|discriminate]. cbn [bind] in E.
  destruct (exec_with _ _ (bs_tn st)) as [tn| |] eqn:E4; [|discriminate|discriminate]. cbn [bind] in E. injection E as <-.
  apply exec_with_length in E1, E2, E3, E4. unfold bin_sized. cbn [bs_thresholds bs_tp bs_fp bs_fn bs_tn]. repeat split; congruence.
Qed.
Lemma bs_run_counts calls st es : binary_ok calls -> bin_sized st -> binary_counts K st es ->
  exists st' d es', bs_run K wide calls st = Ok st' /\ seen_elements wide (bs_disabled st) es calls d es' /\ binary_counts K st' es' /\
    bs_thresholds st' = bs_thresholds st.
Proof.
  revert st es. induction calls as [|c calls IH]; intros st es Hok Hs Hc.
  - exists st, (bs_disabled st), es. repeat split; auto; try constructor; now apply Hc.
  - assert (Hok' : binary_ok calls) by (intros f s t Hin; apply Hok; now right).
    unfold bs_run in *. cbn [foldm]. destruct c as [f s t| |b]; cbn [bs_call].
    + destruct (bs_disabled st) eqn:Ed.
      * unfold bs_forward at 1. rewrite Ed. cbn [bind]. destruct (IH st es Hok' Hs Hc) as (st' & d & es' & A & B & C). rewrite Ed in B.
        exists st', d, es'. split; [exact A|]. split; [now constructor|exact C].
      * destruct (bs_forward_counts st es f s t) as (new & st1 & Hb & E1 & C1 & Ct & Cd); auto. { apply Hok. now left. }
        pose proof (bs_forward_sized _ _ _ _ _ Hs E1) as Hs1.
        rewrite E1. cbn [bind]. destruct (IH st1 (es ++ new) Hok' Hs1 C1) as (st' & d & es' & A & B & C & D).
        rewrite Cd in B. exists st', d, es'. split; [exact A|]. split; [now apply se_batch with new|]. split; [exact C|congruence].
    + destruct (bs_reset_counts st Hs) as (st1 & E1 & C1 & Hs1 & Ct & Cd).
      rewrite E1. cbn [bind]. destruct (IH st1 [] Hok' Hs1 C1) as (st' & d & es' & A & B & C & D).
      rewrite Cd in B. exists st', d, es'. split; [exact A|]. split; [now constructor|]. split; [exact C|congruence].
    + cbn [bind]. destruct (IH (bs_set_disabled b st) es) as (st' & d & es' & A & B & C); auto.
      exists st', d, es'. split; [exact A|]. split; [now constructor|exact C].
Qed.
Lemma bs_new_counts junk n min_t max_t : 0 < n ->
  exists st, bs_new K junk n min_t max_t = Ok st /\ binary_counts K st [] /\ bin_sized st /\ bs_disabled st = false /\
    bs_thresholds st = bs_threshold_values n min_t max_t /\ length (bs_thresholds st) = n.
Proof.
  intros Hn. unfold bs_new. destruct (Nat.ltb_spec n 1); [lia|].
  assert (L : length (bs_threshold_values n min_t max_t) = n).
  { unfold bs_threshold_values. destruct (Nat.eqb_spec n 1) as [->|]; [reflexivity|]. now rewrite map_length, seq_length. }
  edestruct bs_reset_counts as (st & A & B & C & D & E); [|exists st; split; [exact A|]].
  - unfold bin_sized. cbn. rewrite L, map_length, seq_length. auto.
  - cbn in D, E. rewrite D. auto.
Qed.

(** Exact arithmetic: the counters partition the weight. *)
Context (HK : ring_laws K).
Lemma etotal_cons s e es : etotal K s (e :: es) = nadd K (if s e then snd e else n0 K) (etotal K s es).
Proof.
  destruct (rl_ring K HK) as [A0 AC AA M0 MC MA MD S0 O0]. unfold etotal. cbn [filter map]. destruct (s e); cbn [map fold_left].
  - rewrite (fold_nadd K HK). now rewrite A0.
  - now rewrite A0.
Qed.
Lemma etotal_partition (s p : element W -> bool) es :
  nadd K (etotal K (fun e => s e && p e) es) (etotal K (fun e => negb (s e) && p e) es) = etotal K p es.
Proof.
  destruct (rl_ring K HK) as [A0 AC AA M0 MC MA MD S0 O0]. induction es as [|e es IH]; [cbn; apply A0|]. rewrite !etotal_cons, <- IH.
  destruct (s e), (p e); cbn [andb negb]; rewrite ?A0; auto.
  rewrite !AA. f_equal. apply AC.
Qed.
End Binary.

(** Raising the threshold. *)
Record ordered_addition {W} (K : num W) (good : W -> Prop) (le : W -> W -> Prop) : Prop := {
  oa_zero : good (n0 K);
  oa_add : forall a w, good a -> good w -> good (nadd K a w);
  oa_refl : forall a, good a -> le a a;
  oa_trans : forall a b c, le a b -> le b c -> le a c;
  oa_mono : forall a b w, good a -> good b -> good w -> le a b -> le (nadd K a w) (nadd K b w);
  oa_grow : forall a w, good a -> good w -> le a (nadd K a w)
}.
Lemma etotal_mono {W} (K : num W) good le (s1 s2 : element W -> bool) es : ordered_addition K good le -> Forall (fun e => good (snd e)) es ->
  (forall e, s1 e = true -> s2 e = true) -> le (etotal K s1 es) (etotal K s2 es).
Proof.
  intros [Z A R T M G] He Hs. unfold etotal.
  assert (Q : forall a b, good a -> good b -> le a b ->
    le (fold_left (nadd K) (map snd (filter s1 es)) a) (fold_left (nadd K) (map snd (filter s2 es)) b)).
  { induction He as [|e es Hg He IH]; intros a b Ga Gb Hab; [exact Hab|]. cbn [filter]. destruct (s1 e) eqn:E1.
    - rewrite (Hs e E1). cbn [map fold_left]. apply IH; auto.
    - destruct (s2 e); [|now apply IH]. cbn [map fold_left]. apply IH; auto. apply T with b; auto. }
  apply Q; auto.
Qed.
Lemma above_mono {W} th1 th2 (e : element W) : fge th2 th1 = true -> above th2 e = true -> above th1 e = true.
Proof.
  unfold fge, feq, above, fgt. intros H1 H2. apply andb_true_iff in H2 as [H2 H4]. apply andb_true_iff in H2 as [H2 H3].
  apply orb_true_iff in H1. rewrite H2. apply Z.ltb_lt in H4.
  destruct H1 as [H1|H1]; apply andb_true_iff in H1 as [H1 H5]; apply andb_true_iff in H1 as [H1 H6]; rewrite H6; cbn [andb]; apply Z.ltb_lt.
  - apply Z.ltb_lt in H5. lia.
  - apply Z.eqb_eq in H5. lia.
Qed.
Lemma R_ordered : ordered_addition R_num (fun w => (0 <= w)%R) Rle.
Proof. constructor; cbn; intros; lra. Qed.

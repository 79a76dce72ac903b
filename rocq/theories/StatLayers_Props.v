(** C49 and C50: the statistics layers. *)
From Coq Require Import Permutation Reals Lra.
From Verif Require Import Base BaseFacts LoopFacts Float32 FloatOps FloatOps_Flocq Tensor_Model Tensor_Spec Tensor_Proofs Num RealNum Math_Spec Math_Proofs Conv_Proofs
  Par_Model StatLayers_Model StatLayers_Spec StatLayers_Proofs StatLayers2_Proofs StatLayers3_Proofs.
Local Open Scope nat_scope.

(** ** C49: the confusion matrix *)

(** After any history of batches, resets and switches no access is out of bounds, and entry (p,a) is
    the weight of the pixels classified p and labelled a that were seen since the last reset while enabled, the
    per-class total of a is the weight of the pixels labelled a, and so on.  The weights are added in
    the order of the pixels, so the statement holds with rounding. *)
Theorem C49_counts : forall {W} (K : num W) (wide : f32 -> W) junk classes calls, calls_ok classes calls ->
  exists st0 st d px, cm_connect K junk (cm_new K classes) = Ok st0 /\ cm_run K wide calls st0 = Ok st /\
    seen wide false [] calls d px /\ counts K st px /\ in_range classes px /\ cm_classes st = classes.
Proof.
  intros W K wide junk classes calls Hok. destruct (cm_connect_counts K junk (cm_new K classes)) as (st0 & E0 & C0 & Ec & Ed).
  cbn in Ec, Ed. destruct (cm_run_counts K wide calls st0 []) as (st & d & px & A & B & C & D & E).
  - now rewrite Ec.
  - exact C0.
  - constructor.
  - exists st0, st, d, px. rewrite Ed in B. rewrite Ec in D, E. auto 10.
Qed.
Print Assumptions C49_counts.

(** In exact arithmetic the rows, the columns and the diagonal sum to the totals. *)
Theorem C49_row_sums : forall {W} (K : num W), ring_laws K -> forall classes px p, in_range classes px ->
  nsum K classes (fun a => total K (is_entry p a) px) = total K (is_given p) px.
Proof.
  intros W K HK classes px p Hr. rewrite <- (total_split K HK actual classes (is_given p)); [reflexivity|].
  eapply Forall_impl; [|exact Hr]. cbn. now intros q [_ Hq] _.
Qed.
Theorem C49_column_sums : forall {W} (K : num W), ring_laws K -> forall classes px a, in_range classes px ->
  nsum K classes (fun p => total K (is_entry p a) px) = total K (is_actual a) px.
Proof.
  intros W K HK classes px a Hr. rewrite <- (total_split K HK given classes (is_actual a)).
  - apply nsum_ext. intros i _. apply total_ext. intros q. unfold is_entry, is_actual. apply andb_comm.
  - eapply Forall_impl; [|exact Hr]. cbn. now intros q [Hq _] _.
Qed.
Theorem C49_trace : forall {W} (K : num W), ring_laws K -> forall classes px, in_range classes px ->
  nsum K classes (fun c => total K (is_entry c c) px) = total K is_right px.
Proof.
  intros W K HK classes px Hr. rewrite <- (total_split K HK given classes is_right).
  - apply nsum_ext. intros i _. apply total_ext. intros q. unfold is_entry, is_right.
    destruct (Nat.eqb_spec (given q) i) as [->|H]; [now rewrite andb_true_r, Nat.eqb_sym|now rewrite andb_false_r].
  - eapply Forall_impl; [|exact Hr]. cbn. now intros q [Hq _] _.
Qed.
Theorem C49_grand_total : forall {W} (K : num W), ring_laws K -> forall classes px, in_range classes px ->
  nsum K classes (fun a => total K (is_actual a) px) = total K any px.
Proof.
  intros W K HK classes px Hr. rewrite <- (total_split K HK actual classes any); [reflexivity|].
  eapply Forall_impl; [|exact Hr]. cbn. now intros q [_ Hq] _.
Qed.
Print Assumptions C49_row_sums.
Print Assumptions C49_column_sums.
Print Assumptions C49_trace.
Print Assumptions C49_grand_total.

(** ... and so do the memory cells of the layer after any history. *)
Theorem C49_consistent : forall {W} (K : num W) (wide : f32 -> W), ring_laws K -> forall junk classes calls, calls_ok classes calls ->
  exists st0 st matrix per_class, cm_connect K junk (cm_new K classes) = Ok st0 /\ cm_run K wide calls st0 = Ok st /\
    cm_memory st = Some (matrix, per_class) /\
    (forall a, a < classes -> nth_error per_class a = Some (nsum K classes (fun p => nth (p * classes + a) matrix (n0 K)))) /\
    cm_right st = nsum K classes (fun c => nth (c * classes + c) matrix (n0 K)) /\
    cm_total st = nsum K classes (fun a => nth a per_class (n0 K)).
Proof.
  intros W K wide HK junk classes calls Hok. destruct (C49_counts K wide junk classes calls Hok) as (st0 & st & d & px & E0 & E & _ & C & Hr & Hc).
  destruct C as (M & P & Em & Lm & Lp & HM & HP & Ht & Hg). rewrite Hc in *. exists st0, st, M, P. split; [exact E0|]. split; [exact E|]. split; [exact Em|].
  assert (N : forall p a, p < classes -> a < classes -> nth (p * classes + a) M (n0 K) = total K (is_entry p a) px).
  { intros p a Hp Ha. apply nth_error_nth. now apply HM. }
  split; [|split].
  - intros a Ha. rewrite (HP a Ha). f_equal. rewrite <- (C49_column_sums K HK classes px a Hr). apply nsum_ext. intros p Hp. symmetry. now apply N.
  - rewrite Hg, <- (C49_trace K HK classes px Hr). apply nsum_ext. intros c Hcc. symmetry. now apply N.
  - rewrite Ht, <- (C49_grand_total K HK classes px Hr). apply nsum_ext. intros a Ha. symmetry. apply nth_error_nth. now apply HP.
Qed.
Print Assumptions C49_consistent.

(** The order of the pixels does not matter in exact arithmetic. *)
Theorem C49_order_independent : forall {W} (K : num W), ring_laws K -> forall st px px', Permutation px px' -> counts K st px -> counts K st px'.
Proof.
  intros W K HK st px px' Hp (M & P & Em & Lm & Lp & HM & HP & Ht & Hg). exists M, P.
  split; [exact Em|]. split; [exact Lm|]. split; [exact Lp|]. split; [|split; [|split]].
  - intros p a H1 H2. now rewrite <- (total_perm K HK _ px px' Hp), HM.
  - intros a H. now rewrite <- (total_perm K HK _ px px' Hp), HP.
  - now rewrite <- (total_perm K HK _ px px' Hp).
  - now rewrite <- (total_perm K HK _ px px' Hp).
Qed.
Print Assumptions C49_order_independent.
(** With rounding it does: 2^24 + 1 + 1 in another order. *)
Theorem C49_order_with_rounding_refuted : exists px px' : list (pixel f32), Permutation px px' /\ total f32_num any px <> total f32_num any px'.
Proof.
  exists [(0, 0, f_of_Z 16777216); (0, 0, f_of_Z 1); (0, 0, f_of_Z 1)], [(0, 0, f_of_Z 1); (0, 0, f_of_Z 1); (0, 0, f_of_Z 16777216)].
  split; [|vm_compute; discriminate]. eapply perm_trans; [apply perm_swap|]. apply perm_skip, perm_swap.
Qed.
Print Assumptions C49_order_with_rounding_refuted.

(** The published rates, in real arithmetic: the accuracy is the weight of the right pixels over all
    the weight; all three lie between 0 and 100 if no weight is negative.  Nothing is published below
    a total weight of 1. *)
Theorem C49_rates : forall st px, counts R_num st px -> in_range (cm_classes st) px -> (1 <= total R_num any px)%R ->
  cm_update_all R_num Rltb Rdiv INR st = Ok (Some (overall_rate px, average_rate (cm_classes st) px, average_iou (cm_classes st) px)).
Proof. exact update_all_spec. Qed.
Theorem C49_rates_in_range : forall classes px, nonneg px -> in_range classes px -> (1 <= total R_num any px)%R ->
  (0 <= overall_rate px <= 100 /\ 0 <= average_rate classes px <= 100 /\ 0 <= average_iou classes px <= 100)%R.
Proof. exact rates_range. Qed.
Theorem C49_nothing_to_report : forall st px, counts R_num st px -> (total R_num any px < 1)%R -> cm_update_all R_num Rltb Rdiv INR st = Ok None.
Proof.
  intros st px (M & P & _ & _ & _ & _ & _ & Ht & _) H. unfold cm_update_all. rewrite Ht. apply Rltb_true in H. cbn [n1 R_num]. now rewrite H.
Qed.
Print Assumptions C49_rates.
Print Assumptions C49_rates_in_range.

(** Reset: as after Connect. *)
Theorem C49_reset : forall {W} (K : num W) st px, counts K st px ->
  exists st', cm_reset K st = Ok st' /\ counts K st' [] /\ cm_classes st' = cm_classes st /\ cm_disabled st' = cm_disabled st.
Proof.
  intros W K st px (M & P & Em & Lm & Lp & _). apply cm_reset_counts. eauto.
Qed.
Print Assumptions C49_reset.
(** Finding: the stat's init function calls Reset, and before Connect this writes through null pointers. *)
Theorem C49_reset_before_connect_refuted : exists classes, cm_reset f32_num (cm_new f32_num classes) = UB.
Proof. exists 2. reflexivity. Qed.

(** A batch of two pixels and three classes. *)
Definition cm_first : tensor f32 := mkTensor 1 2 1 3 6 (Some [f_of_Z 1; f_of_Z 0; f_of_Z 5; f_of_Z 2; f_of_Z 3; f_of_Z 2]).
Definition cm_second : tensor f32 := mkTensor 1 2 1 3 6 (Some [f_of_Z 0; f_of_Z 0; f_of_Z 1; f_of_Z 0; f_of_Z 0; f_of_Z 1]).
Definition cm_third : tensor f32 := mkTensor 1 2 1 1 2 (Some [f_of_Z 1; f_of_Z 3]).
Example cm_batch_ok : calls_ok 3 [CallForward cm_first cm_second cm_third; CallSetDisabled true; CallForward cm_first cm_second cm_third].
Proof. intros f s t [H|[H|[H|[]]]]; try discriminate; injection H as <- <- <-; unfold batch_ok, wf, same_shape; cbn; repeat split; lia. Qed.
Example cm_batch_result : (st <- cm_connect f32_num (fun _ => f32_one) (cm_new f32_num 3) ;; cm_run f32_num (fun x => x) [CallForward cm_first cm_second cm_third] st) =
  Ok (mkCM 3 (Some ([f_of_Z 0; f_of_Z 0; f_of_Z 0; f_of_Z 0; f_of_Z 1; f_of_Z 3; f_of_Z 0; f_of_Z 0; f_of_Z 0], [f_of_Z 0; f_of_Z 1; f_of_Z 3])) (f_of_Z 4) (f_of_Z 1) false).
Proof. vm_compute. reflexivity. Qed.
Example cm_rates : overall_rate [(1, 1, 1%R); (1, 2, 3%R)] = 25%R.
Proof. unfold overall_rate, total. cbn. lra. Qed.

(** ** C50: binary statistics *)
Theorem C50_counts : forall {W} (K : num W) (wide : f32 -> W) junk n min_t max_t calls, 0 < n -> binary_ok calls ->
  exists st0 st d es, bs_new K junk n min_t max_t = Ok st0 /\ bs_run K wide calls st0 = Ok st /\
    seen_elements wide false [] calls d es /\ binary_counts K st es /\ bs_thresholds st = bs_threshold_values n min_t max_t.
Proof.
  intros W K wide junk n min_t max_t calls Hn Hok. destruct (bs_new_counts K junk n min_t max_t Hn) as (st0 & E0 & C0 & S0 & D0 & T0 & _).
  destruct (bs_run_counts K wide calls st0 [] Hok S0 C0) as (st & d & es & A & B & C & D). rewrite D0 in B.
  exists st0, st, d, es. repeat split; auto; try congruence; apply (C t th H).
Qed.
Print Assumptions C50_counts.
Theorem C50_no_threshold_rejected : forall {W} (K : num W) junk min_t max_t, bs_new K junk 0 min_t max_t = Fatal.
Proof. reflexivity. Qed.

(** In exact arithmetic the counters partition the weight of the positive and of the negative elements. *)
Theorem C50_partition : forall {W} (K : num W), ring_laws K -> forall st es t th, binary_counts K st es -> nth_error (bs_thresholds st) t = Some th ->
  exists tp fp fn tn, nth_error (bs_tp st) t = Some tp /\ nth_error (bs_fp st) t = Some fp /\ nth_error (bs_fn st) t = Some fn /\ nth_error (bs_tn st) t = Some tn /\
    nadd K tp fn = etotal K positive es /\ nadd K fp tn = etotal K (fun e => negb (positive e)) es.
Proof.
  intros W K HK st es t th Hc Ht. destruct (Hc t th Ht) as (A & B & C & D). do 4 eexists. repeat (split; [eassumption|]). split.
  - apply (etotal_partition K HK (above th) positive es).
  - apply (etotal_partition K HK (above th) (fun e => negb (positive e)) es).
Qed.
Print Assumptions C50_partition.

(** Raising the threshold never increases the true or the false positives, whatever ordered addition
    is used: in the reals, and for float addition with rounding (the order of the bit patterns of non-negative
    floats is the order of their values). *)
Theorem C50_monotone : forall {W} (K : num W) good le, ordered_addition K good le -> forall st es t1 t2 th1 th2, binary_counts K st es ->
  Forall (fun e => good (snd e)) es -> nth_error (bs_thresholds st) t1 = Some th1 -> nth_error (bs_thresholds st) t2 = Some th2 -> fge th2 th1 = true ->
  exists tp1 tp2 fp1 fp2, nth_error (bs_tp st) t1 = Some tp1 /\ nth_error (bs_tp st) t2 = Some tp2 /\
    nth_error (bs_fp st) t1 = Some fp1 /\ nth_error (bs_fp st) t2 = Some fp2 /\ le tp2 tp1 /\ le fp2 fp1.
Proof.
  intros W K good le HO st es t1 t2 th1 th2 Hc Hg H1 H2 Hth. destruct (Hc t1 th1 H1) as (A1 & B1 & _). destruct (Hc t2 th2 H2) as (A2 & B2 & _).
  do 4 eexists. repeat (split; [eassumption|]). split; apply (etotal_mono K good le); auto; intros e He; apply andb_true_iff in He as [He ->];
    now rewrite (above_mono th1 th2 e Hth He).
Qed.
Print Assumptions C50_monotone.
Theorem C50_monotone_real : ordered_addition R_num (fun w => (0 <= w)%R) Rle.
Proof. exact R_ordered. Qed.
Theorem C50_monotone_float : ordered_addition f32_num f32_nonneg Z.le.
Proof. exact f32_ordered. Qed.
Print Assumptions C50_monotone_float.

(** The constructor's default thresholds (24 from -0.458333 to 0.5, BinaryStatLayer.h:35-36) increase. *)
Theorem C50_default_thresholds : forall t th1 th2, let l := bs_threshold_values 24 3203050143%Z 1056964608%Z in
  nth_error l t = Some th1 -> nth_error l (S t) = Some th2 -> fgt th2 th1 = true.
Proof.
  assert (H : forallb (fun t => match nth_error (bs_threshold_values 24 3203050143%Z 1056964608%Z) t, nth_error (bs_threshold_values 24 3203050143%Z 1056964608%Z) (S t) with
    | Some a, Some b => fgt b a | _, _ => true end) (seq 0 24) = true) by (vm_compute; reflexivity).
  intros t th1 th2 l H1 H2. assert (Ht : t < 24).
  { replace 24 with (length l) by (vm_compute; reflexivity). apply nth_error_Some. congruence. }
  rewrite forallb_forall in H. specialize (H t). fold l in H. rewrite H1, H2 in H. apply H, in_seq. lia.
Qed.
Print Assumptions C50_default_thresholds.

(** UpdateAll reports the first threshold with the largest F1 ([val t] is the F1 score of threshold t). *)
Theorem C50_best_threshold : forall st val, length (bs_tp st) = length (bs_thresholds st) -> length (bs_fp st) = length (bs_thresholds st) -> length (bs_fn st) = length (bs_thresholds st) ->
  (forall t tp fp fn, nth_error (bs_tp st) t = Some tp -> nth_error (bs_fp st) t = Some fp -> nth_error (bs_fn st) t = Some fn ->
     val t = bs_f1 (bs_ratio tp fp) (bs_ratio tp fn)) ->
  exists fmax o, bs_choose st = Ok (fmax, o) /\
    match o with
    | None => forall t, t < length (bs_thresholds st) -> fgt (val t) minus_two = false
    | Some t => t < length (bs_thresholds st) /\ fgt (val t) minus_two = true /\ (forall t', t' < length (bs_thresholds st) -> fgt (val t') (val t) = false) /\
        (forall t', t' < t -> fge (val t') (val t) = false)
    end.
Proof. exact choose_spec. Qed.
Print Assumptions C50_best_threshold.

(** Finding: if every positive element is missed and some negative one is not, precision and recall are 0,
    F1 is 0/0 and no threshold is chosen; UpdateAll then reads outside the arrays. *)
Definition bin_missed : list (stat_call) :=
  [CallForward (mkTensor 2 1 1 1 2 (Some [f_of_Z 1; f_of_Z (-1)])) (mkTensor 2 1 1 1 2 (Some [f_of_Z (-1); f_of_Z 1])) (mkTensor 2 1 1 1 2 (Some [f_of_Z 1; f_of_Z 1]))].
Theorem C50_update_total_refuted : exists calls, binary_ok calls /\
  (st0 <- bs_new f32_num (fun _ => f32_zero) 1 f32_zero f32_zero ;; st <- bs_run f32_num (fun x => x) calls st0 ;; bs_update_all st) = UB.
Proof.
  exists bin_missed. split; [|vm_compute; reflexivity]. intros f s t [H|[]]. injection H as <- <- <-. unfold elements_ok, wf. cbn. repeat split; lia.
Qed.
Print Assumptions C50_update_total_refuted.

(** The parallel loop over the thresholds (see C56). *)
Theorem C56_binary_stat : forall {W} (K : num W) (wide : f32 -> W) first second third st st', elements_ok first second third -> bs_disabled st = false ->
  bs_forward K wide first second third st = Ok st' ->
  always_ends_in (nadd K) [bs_tp st; bs_fp st; bs_fn st; bs_tn st] (length (bs_thresholds st)) (bs_actions wide (bs_thresholds st) first second third)
    [bs_tp st'; bs_fp st'; bs_fn st'; bs_tn st'].
Proof. intros W K wide. apply bs_forward_parallel. Qed.
Print Assumptions C56_binary_stat.

Example bin_result : (st0 <- bs_new f32_num (fun _ => f32_one) 2 f32_zero f32_one ;;
  bs_run f32_num (fun x => x) [CallForward (mkTensor 3 1 1 1 3 (Some [f_of_Z 2; fdiv f32_one (f_of_Z 2); f_of_Z (-1)]))
    (mkTensor 3 1 1 1 3 (Some [f_of_Z 1; f_of_Z 1; f_of_Z (-1)])) (mkTensor 3 1 1 1 3 (Some [f_of_Z 1; f_of_Z 2; f_of_Z 4]))] st0) =
  Ok (mkBin [f32_zero; f32_one] [f_of_Z 3; f_of_Z 1] [f_of_Z 4; f_of_Z 4] [f_of_Z 0; f_of_Z 0] [f_of_Z 0; f_of_Z 2] false).
Proof. vm_compute. reflexivity. Qed.

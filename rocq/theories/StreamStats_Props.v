(** C77: the class statistics of a data set. *)
From Coq Require Import Reals Lra.
From Flocq Require Import Core BinarySingleNaN.
From Verif Require Import Base BaseFacts Float32 FloatOps Tensor_Model Tensor_Spec Tensor_Props DatasetInput_Model Dataset_Model Dataset_Spec Dataset_Proofs Dataset_Props
  Backprop_Spec Backprop_Proofs StreamStats_Model StreamStats_Spec StreamStats_Proofs.
Local Open Scope nat_scope.
Local Open Scope list_scope.

(** ** Counting *)
(** The counts of the first table are the sums of the weights the data set gives the pixels of
    each class: error function times class weight.  Those of the second table have the
    class weight twice. *)
Theorem C77_counts position error_function mul value d classes o imgs labs cls :
  labelled d imgs labs cls -> outputs_for d 1 o -> ds_label_maps d <= classes -> ds_label_maps d <= length (ds_class_weights d) ->
  value f32_zero = 0%R -> (forall cw, In cw (ds_class_weights d) -> value (mul f32_zero cw) = 0%R) ->
  let weight_of i x y := error_function x y (width (imgs i)) (height (imgs i)) in
  let class_weight c := nth c (ds_class_weights d) f32_zero in
  exists counts weighted, count_classes position error_function mul value d classes o = Ok (counts, weighted) /\
    length counts = classes /\ length weighted = classes /\
    (forall c, c < classes ->
      nth c counts 0%R = over_class d imgs cls c (fun i x y => value (mul (weight_of i x y) (class_weight c))) /\
      nth c weighted 0%R = over_class d imgs cls c (fun i x y => value (mul (mul (weight_of i x y) (class_weight c)) (class_weight c)))) /\
    fold_left Rplus counts 0%R = over_pixels d imgs (fun i x y => value (mul (weight_of i x y) (class_weight (cls i x y)))).
Proof.
  intros Hl Ho Hm Hcw Hz Hzw weight_of class_weight. unfold count_classes.
  destruct (count_samples position error_function mul value Hz d imgs labs cls Hl Hcw Hzw (seq 0 (length (ds_training d) / 2)) o (repeat 0%R classes) (repeat 0%R classes))
    as (o' & r & r' & E & L & L' & V & V').
  { intros i Hi. apply in_seq in Hi. lia. } { exact Ho. } { now rewrite repeat_length. } { reflexivity. }
  rewrite repeat_length in *. rewrite E. cbn [bind snd]. exists r, r'. split; [reflexivity|]. split; [exact L|]. split; [exact L'|].
  assert (Z : forall c, nth c (repeat 0%R classes) 0%R = 0%R) by (intros c; apply nth_repeat).
  assert (C : forall c, c < classes -> nth c r 0%R = over_class d imgs cls c (fun i x y => value (mul (weight_of i x y) (class_weight c)))).
  { intros c Hc. rewrite V, Z by exact Hc. rewrite Rplus_0_l. reflexivity. }
  split.
  { intros c Hc. split; [now apply C|]. rewrite V', Z by exact Hc. rewrite Rplus_0_l. reflexivity. }
  assert (F : forall l acc, fold_left Rplus l acc = (acc + rsum (fun x => x) l)%R).
  { induction l as [|a l IH]; intros acc; cbn [fold_left rsum]; [lra|]. rewrite IH. lra. }
  rewrite F, Rplus_0_l.
  assert (S : forall l : list R, rsum (fun x => x) l = rsum (fun c => nth c l 0%R) (seq 0 (length l))).
  { induction l as [|a l IH]; [reflexivity|]. cbn [rsum length seq nth]. rewrite IH. f_equal. rewrite <- seq_shift, rsum_map. reflexivity. }
  rewrite S, L. rewrite (rsum_ext _ (fun c => over_class d imgs cls c (fun i x y => value (mul (weight_of i x y) (class_weight c))))) by (intros c Hc; apply in_seq in Hc; apply C; lia).
  unfold over_class, over_pixels. rewrite rsum_swap. apply rsum_ext. intros i Hi. apply in_seq in Hi. rewrite rsum_swap. apply rsum_ext. intros y Hy. apply in_seq in Hy.
  rewrite rsum_swap. apply rsum_ext. intros x Hx. apply in_seq in Hx.
  destruct (Hl i ltac:(lia)) as ((Ei & El & Wi & Wl & Si & Sl & Mi & Ml & Ewl & Ehl & Fw & Fh) & Hc). specialize (Hc x y ltac:(lia) ltac:(lia)).
  assert (Lt : cls i x y < classes).
  { destruct (C06_pixel_maximum (labs i) x y 0 Wl) as (c0 & Ec0 & F0); [lia..|]. destruct (class_lt (labs i) x y c0) as (H1 & H2); auto; try lia.
    set (val := fun m => match at_pos (labs i) x y m 0 with Some v => v | None => f32_zero end).
    assert (Hval : forall m, m < maps (labs i) -> at_pos (labs i) x y m 0 = Some (val m)).
    { intros m Hm'. destruct (Tensor_Proofs.at_pos_some (labs i) x y m 0 Wl) as [v Ev]; [repeat split; lia|]. unfold val. now rewrite Ev. }
    assert (cls i x y = c0) by (eapply C06_answer_unique; [apply (Hc val Hval)|apply (H1 val Hval)]). lia. }
  rewrite (rsum_single Nat.eqb Nat.eqb_eq (fun c => value (mul (weight_of i x y) (class_weight c))) (cls i x y)); [reflexivity|apply seq_NoDup|apply in_seq; lia].
Qed.
Print Assumptions C77_counts.

(** ** The tables *)
Lemma fold_sum l : forall acc, fold_left Rplus l acc = (acc + rsum (fun x => x) l)%R.
Proof. induction l as [|a l IH]; intros acc; cbn [fold_left rsum]; [lra|]. rewrite IH. lra. Qed.
Lemma counted_sum l : (forall c, In c l -> 0 <= c)%R -> rsum (fun c => if is_positive c then 1 else 0)%R l = INR (length (filter is_positive l)).
Proof.
  intros H. induction l as [|a l IH]; [reflexivity|]. cbn [rsum filter]. rewrite IH by (intros; apply H; now right). destruct (is_positive a); [|lra].
  cbn [length]. rewrite S_INR. lra.
Qed.
Lemma sum_nonneg l : (forall c, In c l -> 0 <= c)%R -> (0 <= rsum (fun x => x) l)%R.
Proof. intros H. induction l as [|a l IH]; cbn [rsum]; [lra|]. pose proof (H a (or_introl eq_refl)). specialize (IH (fun c Hc => H c (or_intror Hc))). lra. Qed.
Lemma is_positive_spec x : is_positive x = true <-> (0 < x)%R.
Proof. unfold is_positive. destruct (Rlt_dec 0 x); split; intros; auto; try discriminate; contradiction. Qed.
Lemma sum_positive l : (forall c, In c l -> 0 <= c)%R -> 0 < length (filter is_positive l) -> (0 < rsum (fun x => x) l)%R.
Proof.
  intros H. induction l as [|a l IH]; cbn [filter rsum]; [cbn; lia|]. intros Hn. pose proof (sum_nonneg l (fun c Hc => H c (or_intror Hc))).
  destruct (is_positive a) eqn:E.
  - apply is_positive_spec in E. lra.
  - pose proof (H a (or_introl eq_refl)). specialize (IH (fun c Hc => H c (or_intror Hc)) Hn). lra.
Qed.

(** A table of counts, none of them negative: the classes counted are those with a positive
    count; if there is one, the actual ratios are the shares of the total and add up to 1,
    and multiplied by its correction ratio the count of each of them is the same share of
    the total. *)
Theorem C77_table counts : (forall c, In c counts -> 0 <= c)%R ->
  let t := table_of counts in
  let total := rsum (fun c => c) counts in
  length (t_rows t) = length counts /\ t_counted t = length (filter is_positive counts) /\
  (0 < t_counted t ->
    t_expected t = Some (1 / INR (t_counted t))%R /\
    (forall i c, nth_error counts i = Some c -> exists r, nth_error (t_rows t) i = Some r /\ r_count r = c /\ r_ratio r = Some (c / total)%R /\
      ((0 < c)%R -> exists q, r_correction r = Some q /\ (0 < q)%R /\ (q * c = total / INR (t_counted t))%R /\ r_corrected r = Some (total / INR (t_counted t))%R) /\
      (c = 0%R -> r_correction r = Some 0%R /\ r_corrected r = Some 0%R)) /\
    rsum (fun r => match r_ratio r with Some x => x | None => 0%R end) (t_rows t) = 1%R /\
    rsum (fun r => match r_corrected r with Some x => x | None => 0%R end) (t_rows t) = total) /\
  (t_counted t = 0 -> t_expected t = None /\ forall r, In r (t_rows t) -> r_count r = 0%R /\ r_ratio r = None /\ r_correction r = Some 0%R).
Proof.
  intros H t total. assert (Ht : fold_left Rplus counts 0%R = total) by (rewrite fold_sum; apply Rplus_0_l).
  split; [unfold t, table_of; cbn [t_rows]; apply map_length|]. split; [reflexivity|]. split.
  - intros Hn. assert (Tp : (0 < total)%R) by now apply sum_positive.
    assert (Np : (0 < INR (t_counted t))%R) by now apply lt_0_INR.
    assert (Ee : t_expected t = Some (1 / INR (t_counted t))%R).
    { unfold t, table_of, quotient in *. cbn [t_expected t_counted] in *. destruct (Req_EM_T _ _) as [e|_]; [lra|reflexivity]. }
    assert (Row : forall c, (0 <= c)%R -> exists r, (let ratio := quotient c total in
        let correction := if is_positive c then match t_expected t, ratio with Some e, Some r => quotient e r | _, _ => None end else Some 0%R in
        mkRow c ratio correction (option_map (fun q => q * c)%R correction)) = r /\ r_count r = c /\ r_ratio r = Some (c / total)%R /\
      ((0 < c)%R -> exists q, r_correction r = Some q /\ (0 < q)%R /\ (q * c = total / INR (t_counted t))%R /\ r_corrected r = Some (total / INR (t_counted t))%R) /\
      (c = 0%R -> r_correction r = Some 0%R /\ r_corrected r = Some 0%R)).
    { intros c Hc. eexists. split; [reflexivity|]. cbn [r_count r_ratio r_correction r_corrected]. rewrite Ee.
      assert (Q : quotient c total = Some (c / total)%R) by (unfold quotient; destruct (Req_EM_T total 0); [lra|reflexivity]). rewrite Q.
      split; [reflexivity|]. split; [reflexivity|]. split.
      - intros Cp. rewrite (proj2 (is_positive_spec c) Cp).
        assert (Rp : (0 < c / total)%R) by now apply Rdiv_lt_0_compat.
        unfold quotient. destruct (Req_EM_T (c / total) 0) as [e|_]; [lra|]. exists (1 / INR (t_counted t) / (c / total))%R. split; [reflexivity|].
        assert (V : (1 / INR (t_counted t) / (c / total) * c = total / INR (t_counted t))%R) by (field; repeat split; lra).
        split; [apply Rdiv_lt_0_compat; [apply Rdiv_lt_0_compat; lra|exact Rp]|]. split; [exact V|]. cbn [option_map]. now rewrite V.
      - intros ->. replace (is_positive 0) with false by (symmetry; apply not_true_is_false; rewrite is_positive_spec; lra). split; [reflexivity|]. cbn [option_map]. f_equal. ring. }
    assert (Er : t_rows t = map (fun c => let ratio := quotient c total in
        let correction := if is_positive c then match t_expected t, ratio with Some e, Some r => quotient e r | _, _ => None end else Some 0%R in
        mkRow c ratio correction (option_map (fun q => q * c)%R correction)) counts) by (unfold t, table_of; cbn [t_rows t_expected]; rewrite Ht; reflexivity).
    split; [exact Ee|]. split; [|split].
    + intros i c Hi. destruct (Row c (H c (nth_error_In _ _ Hi))) as (r & E & Rest). exists r. split; [|exact Rest]. rewrite Er, nth_error_map, Hi. cbn [option_map]. f_equal. exact E.
    + rewrite Er, rsum_map. rewrite (rsum_ext _ (fun c => / total * c)%R).
      * rewrite rsum_scale. fold total. field. lra.
      * intros c Hc. destruct (Row c (H c Hc)) as (r & E & _ & E2 & _). cbv zeta in E |- *. rewrite E, E2. unfold Rdiv. ring.
    + rewrite Er, rsum_map. rewrite (rsum_ext _ (fun c => total / INR (t_counted t) * (if is_positive c then 1 else 0))%R).
      * rewrite rsum_scale, counted_sum by exact H. change (length (filter is_positive counts)) with (t_counted t). field. lra.
      * intros c Hc. destruct (Row c (H c Hc)) as (r & E & _ & _ & P1 & P2). cbv zeta in E |- *. rewrite E. destruct (is_positive c) eqn:Ep.
        -- apply is_positive_spec in Ep. destruct (P1 Ep) as (q & _ & _ & _ & ->). ring.
        -- assert (c = 0%R) as C0. { pose proof (H c Hc). destruct (Req_dec c 0); [assumption|]. rewrite (proj2 (is_positive_spec c)) in Ep by lra. discriminate. }
           destruct (P2 C0) as (_ & ->). ring.
  - intros Hn. assert (All : forall c, In c counts -> c = 0%R /\ is_positive c = false).
    { intros c Hc. destruct (is_positive c) eqn:Ep.
      - exfalso. assert (In c (filter is_positive counts)) by (apply filter_In; auto). unfold t, table_of in Hn. cbn [t_counted] in Hn.
        destruct (filter is_positive counts); [assumption|discriminate].
      - split; [|reflexivity]. pose proof (H c Hc). destruct (Req_dec c 0); [assumption|]. rewrite (proj2 (is_positive_spec c)) in Ep by lra. discriminate. }
    assert (T0 : total = 0%R) by (apply rsum_zero; intros c Hc; now apply All).
    split; [unfold t, table_of, quotient in *; cbn [t_expected t_counted] in *; rewrite Hn; cbn [INR]; destruct (Req_EM_T 0 0); [reflexivity|contradiction]|].
    intros r Hr. unfold t, table_of in Hr. cbn [t_rows] in Hr. apply in_map_iff in Hr as (c & <- & Hc). destruct (All c Hc) as (-> & Ep). cbn [r_count r_ratio r_correction].
    rewrite Ep, Ht, T0. split; [reflexivity|]. split; [|reflexivity]. unfold quotient. destruct (Req_EM_T 0 0); [reflexivity|contradiction].
Qed.
Print Assumptions C77_table.

(** ** What the tables are for *)
Definition with_weights (d : dataset) (ws : list f32) : dataset :=
  mkDataset (ds_training d) (ds_testing d) (ds_width d) (ds_height d) (ds_input_maps d) (ds_label_maps d) ws.

(** In exact arithmetic, multiplying the class weights by the correction ratios of the first
    table gives every class counted the same share of the total. *)
Theorem C77_reweighted position error_function mul value d classes o imgs labs cls weights' counts weighted :
  (forall a b, value (mul a b) = value a * value b)%R -> value f32_zero = 0%R ->
  labelled d imgs labs cls -> outputs_for d 1 o -> ds_label_maps d <= classes ->
  ds_label_maps d <= length (ds_class_weights d) -> ds_label_maps d <= length weights' ->
  count_classes position error_function mul value d classes o = Ok (counts, weighted) ->
  (forall c, In c counts -> 0 <= c)%R ->
  let t := table_of counts in
  (forall c r q, nth_error (t_rows t) c = Some r -> (0 < r_count r)%R -> r_correction r = Some q -> value (nth c weights' f32_zero) = (q * value (nth c (ds_class_weights d) f32_zero))%R) ->
  exists counts' weighted', count_classes position error_function mul value (with_weights d weights') classes o = Ok (counts', weighted') /\
    forall c, c < classes -> (0 < nth c counts 0)%R -> nth c counts' 0%R = (rsum (fun c => c) counts / INR (t_counted t))%R.
Proof.
  intros Hm Hz Hl Ho Hc Hw Hw' E Hn t Hq.
  assert (Z : forall cw, value (mul f32_zero cw) = 0%R) by (intros cw; rewrite Hm, Hz; ring).
  destruct (C77_counts position error_function mul value d classes o imgs labs cls Hl Ho Hc Hw Hz (fun cw _ => Z cw)) as (r & r' & E1 & L & _ & V & _).
  rewrite E in E1. injection E1 as <- <-.
  destruct (C77_counts position error_function mul value (with_weights d weights') classes o imgs labs cls Hl Ho Hc Hw' Hz (fun cw _ => Z cw)) as (s & s' & E2 & L2 & _ & V2 & _).
  exists s, s'. split; [exact E2|]. intros c Hlt Hp.
  assert (Ec : nth_error counts c = Some (nth c counts 0%R)) by (apply nth_error_nth'; lia).
  destruct (C77_table counts Hn) as (_ & T2 & T3 & _). assert (Hcount : 0 < t_counted t).
  { unfold t. rewrite T2. assert (In (nth c counts 0%R) (filter is_positive counts)) by (apply filter_In; split; [eapply nth_error_In; eauto|now apply is_positive_spec]).
    destruct (filter is_positive counts); [contradiction|cbn; lia]. }
  destruct (T3 Hcount) as (_ & T4 & _). destruct (T4 c _ Ec) as (r & Er & Rc & _ & T5 & _). destruct (T5 Hp) as (q & Eq & _ & Vq & _).
  specialize (Hq c r q Er ltac:(lra) Eq). destruct (V2 c Hlt) as (-> & _). cbn [ds_class_weights with_weights].
  fold t in Vq. rewrite <- Vq. destruct (V c Hlt) as (-> & _). unfold over_class, over_pixels. cbn [ds_training with_weights].
  rewrite <- rsum_scale. apply rsum_ext. intros i _. rewrite <- rsum_scale. apply rsum_ext. intros y _. rewrite <- rsum_scale. apply rsum_ext. intros x _.
  destruct (_ =? _); [|ring]. rewrite !Hm, Hq. ring.
Qed.
Print Assumptions C77_reweighted.

(** ** An example *)
(** One training image of two pixels, the first of class 0, the second of class 1. *)
Definition two_image : tensor f32 := mkTensor 1 2 1 1 2 (Some [0%Z; 0%Z]).
Definition two_label : tensor f32 := mkTensor 1 2 1 2 4 (Some [f32_one; 0%Z; 0%Z; f32_one]).
Definition two_data (weights : list f32) : dataset := mkDataset [two_image; two_label] [] 64 64 1 2 weights.
Definition zeros (m : nat) : tensor f32 := mkTensor 1 64 64 m (m * 64 * 64) (Some (repeat f32_zero (m * 64 * 64))).
Definition two_outputs : outputs f32 := mkOut (zeros 1) (zeros 2) (zeros 2) (zeros 1).

Lemma two_built weights : new_dataset [two_image; two_label] [] 2 2 2 weights = Ok (two_data weights).
Proof. vm_compute. reflexivity. Qed.
Lemma two_labelled weights : labelled (two_data weights) (fun _ => two_image) (fun _ => two_label) (fun _ x _ => x).
Proof.
  intros i Hi. cbn in Hi. replace i with 0 by lia. split.
  - repeat split; cbn; lia.
  - intros x y Hx Hy val Hval. cbn in Hx, Hy. replace y with 0 in Hval by lia. right.
    assert (x = 0 \/ x = 1) as [->|Ex] by lia.
    + pose proof (Hval 0 ltac:(cbn; lia)) as H0. pose proof (Hval 1 ltac:(cbn; lia)) as H1. vm_compute in H0, H1. injection H0 as H0. injection H1 as H1.
      split; [cbn; lia|]. split; [rewrite <- H0; vm_compute; reflexivity|]. split; intros j Hj; [|lia].
      cbn in Hj. assert (j = 0 \/ j = 1) as [->| ->] by lia; rewrite <- H0, <- ?H1; vm_compute; reflexivity.
    + subst x. pose proof (Hval 0 ltac:(cbn; lia)) as H0. pose proof (Hval 1 ltac:(cbn; lia)) as H1. vm_compute in H0, H1. injection H0 as H0. injection H1 as H1.
      split; [cbn; lia|]. split; [rewrite <- H1; vm_compute; reflexivity|]. split; intros j Hj.
      * cbn in Hj. assert (j = 0 \/ j = 1) as [->| ->] by lia; rewrite <- H1, <- ?H0; vm_compute; reflexivity.
      * replace j with 0 by lia. rewrite <- H0, <- H1. vm_compute. reflexivity.
Qed.
Lemma two_outputs_for weights : outputs_for (two_data weights) 1 two_outputs.
Proof. unfold outputs_for, shape_is, wf, two_outputs, zeros. cbn [o_data o_label o_helper o_weight samples width height maps elements data]. rewrite !repeat_length. repeat split; try reflexivity; cbn; lia. Qed.

(** Its counts: with class weights 3 and 1 (datums standing for integers), the counts are 3
    and 1, and the corrected weights 2 and 2 give 2 and 2. *)
Example C77_reweighted_example : exists counts weighted counts' weighted',
  let count ws := count_classes (fun _ _ => f32_zero) (fun _ _ _ _ => 1%Z) Z.mul IZR (two_data ws) 2 two_outputs in
  count [3%Z; 1%Z] = Ok (counts, weighted) /\ counts = [3; 1]%R /\ weighted = [9; 1]%R /\
  (forall c r q, nth_error (t_rows (table_of counts)) c = Some r -> (0 < r_count r)%R -> r_correction r = Some q ->
     IZR (nth c [2%Z; 2%Z] f32_zero) = (q * IZR (nth c (ds_class_weights (two_data [3%Z; 1%Z])) f32_zero))%R) /\
  count [2%Z; 2%Z] = Ok (counts', weighted') /\ counts' = [2; 2]%R.
Proof.
  assert (C : forall ws, exists counts weighted, count_classes (fun _ _ => f32_zero) (fun _ _ _ _ => 1%Z) Z.mul IZR (two_data ws) 2 two_outputs = Ok (counts, weighted) /\
    (length ws = 2 -> counts = [IZR (nth 0 ws 0%Z); IZR (nth 1 ws 0%Z)] /\ weighted = [IZR (nth 0 ws 0%Z * nth 0 ws 0%Z)%Z; IZR (nth 1 ws 0%Z * nth 1 ws 0%Z)%Z]) \/ length ws < 2).
  { intros ws. destruct (Nat.lt_ge_cases (length ws) 2) as [Hlt|Hge]; [exists [], []; now right|].
    destruct (C77_counts (fun _ _ => f32_zero) (fun _ _ _ _ => 1%Z) Z.mul IZR (two_data ws) 2 two_outputs _ _ _ (two_labelled ws) (two_outputs_for ws)) as (r & r' & E & L & L' & V & _);
      [cbn; lia|exact Hge|reflexivity|intros; reflexivity|].
    exists r, r'. left. split; [exact E|]. intros Hl. pose proof (V 0 ltac:(lia)) as [V0 V0']. pose proof (V 1 ltac:(lia)) as [V1 V1'].
    destruct r as [|a [|b [|]]]; try discriminate L. destruct r' as [|a' [|b' [|]]]; try discriminate L'.
    unfold over_class, over_pixels in V0, V0', V1, V1'. cbn -[Z.mul IZR nth] in V0, V0', V1, V1'. cbn [nth] in V0, V0', V1, V1'.
    rewrite !Z.mul_1_l in *. rewrite !Rplus_0_l, !Rplus_0_r in *. unfold f32_zero in *. subst. split; reflexivity. }
  destruct (C [3%Z; 1%Z]) as (r & r' & [(E & V)|H]); [|cbn in H; lia]. destruct (C [2%Z; 2%Z]) as (q & q' & [(E' & V')|H]); [|cbn in H; lia].
  destruct (V eq_refl) as (-> & ->). destruct (V' eq_refl) as (-> & ->). cbn [nth] in *.
  eexists _, _, _, _. cbv zeta. split; [exact E|]. split; [reflexivity|]. split; [f_equal|]. split; [|split; [exact E'|reflexivity]].
  intros c row x Er Hp Eq.
  destruct (C77_table [3; 1]%R) as (_ & T2 & T3 & _). { intros y [<-|[<-|[]]]; lra. }
  assert (N : t_counted (table_of [3; 1]%R) = 2).
  { rewrite T2. cbn [filter]. rewrite !(proj2 (is_positive_spec _)) by lra. reflexivity. }
  clear E E' V V' C. rewrite N in T3. destruct (T3 Nat.lt_0_2) as (_ & T4 & _). cbn [rsum INR] in T4.
  destruct c as [|[|c]].
  - destruct (T4 0 3%R eq_refl) as (r0 & E0 & Rc & _ & P & _). rewrite E0 in Er. injection Er as <-. destruct (P ltac:(lra)) as (y & Ey & _ & Vy & _). rewrite Ey in Eq. injection Eq as <-. cbn [nth ds_class_weights two_data]. lra.
  - destruct (T4 1 1%R eq_refl) as (r0 & E0 & Rc & _ & P & _). rewrite E0 in Er. injection Er as <-. destruct (P ltac:(lra)) as (y & Ey & _ & Vy & _). rewrite Ey in Eq. injection Eq as <-. cbn [nth ds_class_weights two_data]. lra.
  - unfold table_of in Er. cbn [t_rows map nth_error] in Er. destruct c; discriminate.
Qed.

(** ** Findings *)
(** The number a datum stands for. *)
Definition float_value (a : f32) : R := SF2R radix2 (sf_of_bits a).
Definition f32_two : f32 := 1073741824%Z.

Lemma two_counts ws : length ws = 2 -> (forall cw, In cw ws -> float_value (fmul f32_zero cw) = 0%R) ->
  exists a b a' b', count_classes (fun _ _ => f32_zero) (fun _ _ _ _ => f32_one) fmul float_value (two_data ws) 2 two_outputs = Ok ([a; b], [a'; b']) /\
    a = float_value (fmul f32_one (nth 0 ws f32_zero)) /\ b = float_value (fmul f32_one (nth 1 ws f32_zero)) /\
    a' = float_value (fmul (fmul f32_one (nth 0 ws f32_zero)) (nth 0 ws f32_zero)) /\ b' = float_value (fmul (fmul f32_one (nth 1 ws f32_zero)) (nth 1 ws f32_zero)).
Proof.
  intros Hl Hz.
  destruct (C77_counts (fun _ _ => f32_zero) (fun _ _ _ _ => f32_one) fmul float_value (two_data ws) 2 two_outputs _ _ _ (two_labelled ws) (two_outputs_for ws)) as (r & r' & E & L & L' & V & _);
    [cbn; lia|cbn; lia|reflexivity|exact Hz|].
  destruct r as [|a [|b [|]]]; try discriminate L. destruct r' as [|a' [|b' [|]]]; try discriminate L'. exists a, b, a', b'. split; [exact E|].
  pose proof (V 0 ltac:(lia)) as [V0 V0']. pose proof (V 1 ltac:(lia)) as [V1 V1'].
  unfold over_class, over_pixels in V0, V0', V1, V1'. cbn -[fmul float_value nth] in V0, V0', V1, V1'. cbn [nth] in V0, V0', V1, V1'.
  rewrite !Rplus_0_l, !Rplus_0_r in *. auto.
Qed.

(** Finding: tensorStreamStats' "Stats when ignoring weights" do not ignore the class weights:
    two data sets that differ in the weight of one class only get different statistics.
    GetTrainingSample has multiplied the weights of the pixels by the class weights. *)
Theorem C77_ignoring_weights_refuted : exists training d d' o counts counts' weighted weighted',
  new_dataset training [] 2 2 2 [f32_one; f32_one] = Ok d /\ new_dataset training [] 2 2 2 [f32_one; f32_two] = Ok d' /\
  outputs_for d 1 o /\
  count_classes (fun _ _ => f32_zero) (fun _ _ _ _ => f32_one) fmul float_value d 2 o = Ok (counts, weighted) /\
  count_classes (fun _ _ => f32_zero) (fun _ _ _ _ => f32_one) fmul float_value d' 2 o = Ok (counts', weighted') /\
  counts = [1; 1]%R /\ counts' = [1; 2]%R.
Proof.
  destruct (two_counts [f32_one; f32_one] eq_refl) as (a & b & a' & b' & E & Ea & Eb & _ & _).
  { intros cw [<-|[<-|[]]]; vm_compute; reflexivity. }
  destruct (two_counts [f32_one; f32_two] eq_refl) as (c & d & c' & d' & E' & Ec & Ed & _ & _).
  { intros cw [<-|[<-|[]]]; vm_compute; reflexivity. }
  exists [two_image; two_label], (two_data [f32_one; f32_one]), (two_data [f32_one; f32_two]), two_outputs, [a; b], [c; d], [a'; b'], [c'; d'].
  split; [apply two_built|]. split; [apply two_built|]. split; [apply two_outputs_for|]. split; [exact E|]. split; [exact E'|].
  assert (One : float_value (fmul f32_one f32_one) = 1%R).
  { replace (fmul f32_one f32_one) with f32_one by (vm_compute; reflexivity). unfold float_value. replace (sf_of_bits f32_one) with (SpecFloat.S754_finite false 8388608 (-23)) by (vm_compute; reflexivity).
    cbn [SF2R]. unfold F2R. cbn [Fnum Fexp cond_Zopp]. change (bpow radix2 (-23)) with (/ IZR 8388608)%R. field. }
  assert (Two : float_value (fmul f32_one f32_two) = 2%R).
  { replace (fmul f32_one f32_two) with f32_two by (vm_compute; reflexivity). unfold float_value. replace (sf_of_bits f32_two) with (SpecFloat.S754_finite false 8388608 (-22)) by (vm_compute; reflexivity).
    cbn [SF2R]. unfold F2R. cbn [Fnum Fexp cond_Zopp]. change (bpow radix2 (-22)) with (/ IZR 4194304)%R. field. }
  cbn [nth] in *. rewrite Ea, Eb, Ec, Ed, One, Two. split; reflexivity.
Qed.
Print Assumptions C77_ignoring_weights_refuted.

(** Finding: tensorStreamStats' "Stats when not ignoring weights" apply the class weights
    twice: one pixel of a class with weight 2 counts 4. *)
Theorem C77_weights_twice_refuted : exists training d o counts weighted,
  new_dataset training [] 2 2 2 [f32_one; f32_two] = Ok d /\ labelled d (fun _ => two_image) (fun _ => two_label) (fun _ x _ => x) /\ outputs_for d 1 o /\
  count_classes (fun _ _ => f32_zero) (fun _ _ _ _ => f32_one) fmul float_value d 2 o = Ok (counts, weighted) /\
  over_class d (fun _ => two_image) (fun _ x _ => x) 1 (fun _ _ _ => float_value f32_two) = 2%R /\ nth 1 weighted 0%R = 4%R.
Proof.
  destruct (two_counts [f32_one; f32_two] eq_refl) as (c & d & c' & d' & E' & Ec & Ed & Ec' & Ed').
  { intros cw [<-|[<-|[]]]; vm_compute; reflexivity. }
  exists [two_image; two_label], (two_data [f32_one; f32_two]), two_outputs, [c; d], [c'; d'].
  split; [apply two_built|]. split; [apply two_labelled|]. split; [apply two_outputs_for|]. split; [exact E'|].
  assert (Two : float_value f32_two = 2%R).
  { unfold float_value. replace (sf_of_bits f32_two) with (SpecFloat.S754_finite false 8388608 (-22)) by (vm_compute; reflexivity).
    cbn [SF2R]. unfold F2R. cbn [Fnum Fexp cond_Zopp]. change (bpow radix2 (-22)) with (/ IZR 4194304)%R. field. }
  split.
  - unfold over_class, over_pixels. cbn -[float_value]. rewrite Two. ring.
  - cbn [nth] in *. rewrite Ed'. replace (fmul (fmul f32_one f32_two) f32_two) with 1082130432%Z by (vm_compute; reflexivity). unfold float_value.
    replace (sf_of_bits 1082130432%Z) with (SpecFloat.S754_finite false 8388608 (-21)) by (vm_compute; reflexivity).
    cbn [SF2R]. unfold F2R. cbn [Fnum Fexp cond_Zopp]. change (bpow radix2 (-21)) with (/ IZR 2097152)%R. field.
Qed.
Print Assumptions C77_weights_twice_refuted.

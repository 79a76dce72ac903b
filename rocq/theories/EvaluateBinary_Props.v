(** C94: what a test of a network with one class reports is about the whole test set. *)
From Coq Require Import Reals.
From Verif Require Import Base BaseFacts LoopFacts Float32 FloatOps FloatOps_Flocq Tensor_Model Tensor_Spec Tensor_Proofs Num Schedule_Model Schedule_Proofs Trainer_Model Trainer_Props DatasetInput_Model DatasetInput_Spec DatasetInput_Proofs
  Dataset_Model Dataset_Spec Dataset_Proofs StatLayers_Model StatLayers_Spec StatLayers2_Proofs Evaluate_Spec Evaluate_Props EvaluateBinary_Model EvaluateBinary_Spec EvaluateBinary_Proofs.
Local Open Scope nat_scope.

(** A test with enough batches reports the numbers of the best threshold, counted over the pixels of the test set, each sample once;
    the fillers of the last batch do not count, exactly, although the counters are floats.  Everything is ready for the next test.
    If the F1 value of no threshold is a number, the program reads outside of its arrays (see C50_update_total_refuted). *)
Theorem C94_report {D G} (A : arith D) gtb (shuffle : G -> list nat -> list nat * G) uniform training_sample testing_sample net scaling
  cfg (dl : data_layer D) (t : trainer D (res (detector G))) es o0 b n ths set f :
  delivers testing_sample o0 b n set -> 0 < n -> detectable o0 b -> computes net (map snd (layers t)) o0 f -> ready o0 b n ths t ->
  weighted (width (o_label o0)) (height (o_label o0)) n set ->
  Trainer_Model.batch_size dl = b -> testing_samples dl = n -> b <> 0 -> n <= scaling (n / b + 1) (testing_ratio cfg) * b ->
  let command := detector_command A f32_zero gtb shuffle uniform training_sample testing_sample net scaling cfg dl t es in
  let pixels := all_elements (width (o_label o0)) (height (o_label o0)) n set f in
  (exists k th t' es', best ths pixels k th /\ command = Ok (report_at th pixels, t', es') /\ ready o0 b n ths t' /\ layers t' = layers t) \/
  ((forall th, In th ths -> ~ usable pixels th) /\ command = UB).
Proof.
  intros Hs Hn Ho Hf Hr Hw Eb En Nb L command pixels.
  destruct (test_spec A gtb shuffle uniform training_sample testing_sample net o0 b n ths set Hs Hn Ho (map snd (layers t)) f Hf Hw scaling cfg dl t es Eb Nb En Hr eq_refl L)
    as (t1 & es1 & l & o & ds & m & E & Ew & Sh & Bl & El & Tl & Et & Ed & Sz & HC & Ly & _). fold pixels in HC.
  destruct (bs_reset_counts f32_num m Sz) as (m' & Em & C' & Sz' & Et' & Ed').
  unfold command, detector_command. rewrite E. cbn [bind]. rewrite Ew. cbn [bind d_stat d_input].
  destruct (report_spec m pixels Sz HC) as [(k & th & B & ->)|(U & ->)]; rewrite Et in *; [left|right; split; [exact U|reflexivity]]. cbn [bind]. rewrite Em. cbn [bind].
  eexists k, th, _, es1. split; [exact B|]. split; [reflexivity|]. split; [|exact Ly].
  exists l, o, ds, m'. split; [reflexivity|]. split; [exact Sh|]. split; [exact Bl|]. split; [exact El|]. split; [exact Tl|]. split; [congruence|]. split; [congruence|].
  destruct Sz' as (L1 & L2 & L3 & L4). rewrite Et' in *. split; [exact L1|]. split; [exact L2|]. split; [exact L3|]. split; [exact L4|].
  assert (X : forall x, (forall j, j < length ths -> nth_error x j = Some f32_zero) -> length x = length ths -> Forall (eq f32_zero) x).
  { intros x H Lx. apply Forall_forall. intros v I. apply In_nth_error in I as (j & Ej). rewrite (H j) in Ej by (rewrite <- Lx; apply nth_error_Some; congruence). congruence. }
  assert (Y : forall j, j < length ths -> nth_error (bs_tp m') j = Some f32_zero /\ nth_error (bs_fp m') j = Some f32_zero /\ nth_error (bs_fn m') j = Some f32_zero /\ nth_error (bs_tn m') j = Some f32_zero).
  { intros j Hj. destruct (nth_error_lt ths Hj) as (v & Ev). rewrite <- Et' in Ev. exact (C' j v Ev). }
  intros x [<-|[<-|[<-|[<-|[]]]]]; apply X; auto; intros j Hj; apply (Y j Hj).
Qed.
Print Assumptions C94_report.

(** So the report depends only on the test set and on what the network computes: tests with batches of other sizes, other contents of
    memory, other random numbers report the same. *)
Theorem C94_batches {D G} (A : arith D) gtb (shuffle : G -> list nat -> list nat * G) uniform training_sample1 training_sample2 testing_sample1 testing_sample2 net1 net2 scaling
  cfg1 cfg2 (dl1 dl2 : data_layer D) (t1 t2 : trainer D (res (detector G))) es1 es2 o1 o2 b1 b2 n ths set f r1 r2 t1' t2' es1' es2' :
  delivers testing_sample1 o1 b1 n set -> delivers testing_sample2 o2 b2 n set -> 0 < n -> detectable o1 b1 -> detectable o2 b2 ->
  width (o_label o1) = width (o_label o2) -> height (o_label o1) = height (o_label o2) ->
  computes net1 (map snd (layers t1)) o1 f -> computes net2 (map snd (layers t2)) o2 f -> ready o1 b1 n ths t1 -> ready o2 b2 n ths t2 ->
  weighted (width (o_label o1)) (height (o_label o1)) n set ->
  Trainer_Model.batch_size dl1 = b1 -> testing_samples dl1 = n -> b1 <> 0 -> n <= scaling (n / b1 + 1) (testing_ratio cfg1) * b1 ->
  Trainer_Model.batch_size dl2 = b2 -> testing_samples dl2 = n -> b2 <> 0 -> n <= scaling (n / b2 + 1) (testing_ratio cfg2) * b2 ->
  detector_command A f32_zero gtb shuffle uniform training_sample1 testing_sample1 net1 scaling cfg1 dl1 t1 es1 = Ok (r1, t1', es1') ->
  detector_command A f32_zero gtb shuffle uniform training_sample2 testing_sample2 net2 scaling cfg2 dl2 t2 es2 = Ok (r2, t2', es2') ->
  r1 = r2.
Proof.
  intros S1 S2 Hn O1 O2 Ew Eh F1 F2 R1 R2 Hw B1 N1 Z1 L1 B2 N2 Z2 L2 C1 C2.
  destruct (C94_report A gtb shuffle uniform training_sample1 testing_sample1 net1 scaling cfg1 dl1 t1 es1 o1 b1 n ths set f S1 Hn O1 F1 R1 Hw B1 N1 Z1 L1) as [(k1 & th1 & x1 & y1 & Q1 & E1 & _)|(_ & E1)]; [|congruence].
  rewrite Ew, Eh in Hw, E1, Q1.
  destruct (C94_report A gtb shuffle uniform training_sample2 testing_sample2 net2 scaling cfg2 dl2 t2 es2 o2 b2 n ths set f S2 Hn O2 F2 R2 Hw B2 N2 Z2 L2) as [(k2 & th2 & x2 & y2 & Q2 & E2 & _)|(_ & E2)]; [|congruence].
  rewrite E1 in C1. rewrite E2 in C2. injection C1 as <- _ _. injection C2 as <- _ _.
  destruct Q1 as (T1 & U1 & A1 & P1), Q2 as (T2 & U2 & A2 & P2). assert (Le : forall a b, fgt a b = false -> fgt a (f_of_Z (-2)) = true -> fgt b (f_of_Z (-2)) = true -> fge b a = true).
  { unfold fge, feq, fgt. intros a c. destruct (f32_nan a), (f32_nan c); cbn [negb andb]; try discriminate. intros H _ _. apply Z.ltb_ge in H.
    destruct (Z.ltb_spec (f32_key a) (f32_key c)); [reflexivity|]. apply Z.eqb_eq. lia. }
  assert (k1 = k2). { destruct (Nat.lt_trichotomy k1 k2) as [Lt|[Eq|Lt]]; [|exact Eq|].
    - exfalso. specialize (P2 k1 th1 Lt T1). rewrite (Le _ _ (A1 k2 th2 T2) U2 U1) in P2. discriminate.
    - exfalso. specialize (P1 k2 th2 Lt T2). rewrite (Le _ _ (A2 k1 th1 T1) U1 U2) in P1. discriminate. }
  subst k2. rewrite T1 in T2. injection T2 as <-. reflexivity.
Qed.
Print Assumptions C94_batches.

(** With the whole test set as the testing ratio asks for it, every test has enough batches. *)
Theorem C94_whole cfg (dl : data_layer R) : testing_ratio cfg = 1%R -> Trainer_Model.batch_size dl <> 0 -> (Z.of_nat (testing_samples dl) < 2 ^ 24)%Z ->
  testing_samples dl <= scale (testing_samples dl / Trainer_Model.batch_size dl + 1) (testing_ratio cfg) * Trainer_Model.batch_size dl.
Proof. intros E Nb B. pose proof (C62_covers_test_set cfg dl E) as L. cbv zeta in L. specialize (L Nb B). lia. Qed.
Print Assumptions C94_whole.

(** ** Example: two test images of one pixel and one class, of which the network returns the values. *)
Definition one_map (a : f32) : tensor f32 := mkTensor 1 1 1 1 1 (Some [a]).
Definition bin_testing : list (tensor f32) := [one_map f32_one; one_map f32_one; one_map f32_zero; one_map minus_one].
Definition bin_set (side : nat) : dataset := mkDataset [] bin_testing side side 1 1 [f32_one].
Definition bin_outputs (side : nat) : outputs f32 := mkOut (ex_tensor side 1) (ex_tensor side 1) (ex_tensor side 2) (ex_tensor side 1).
Definition bin_sample side := get_testing_sample ex_position ex_error ex_mul (bin_set side).
Definition thirteen : list f32 := bs_threshold_values 13 minus_one f32_one.
Definition bin_stat : binary f32 := mkBin thirteen (repeat f32_zero 13) (repeat f32_zero 13) (repeat f32_zero 13) (repeat f32_zero 13) false.
Definition bin_detector side : detector unit := mkDetector (new_layer ex_shuffle true 2 0 2 f32_one tt, bin_outputs side, []) bin_stat.
Example C94_new : bs_new f32_num (fun _ => f32_one) 13 minus_one f32_one = Ok bin_stat.
Proof. vm_compute. reflexivity. Qed.
Definition bin_trainer : trainer R (res (detector unit)) := new_trainer R real_arith (res (detector unit)) (Ok (bin_detector 64)) [].
Example C94_hypotheses : exists set,
  delivers (bin_sample 64) (bin_outputs 64) 2 2 set /\ detectable (bin_outputs 64) 2 /\
  computes (ex_net []) (map snd (layers bin_trainer)) (bin_outputs 64) (fun img hlp => img) /\
  ready (bin_outputs 64) 2 2 thirteen bin_trainer /\
  weighted (width (o_label (bin_outputs 64))) (height (o_label (bin_outputs 64))) 2 set /\
  Trainer_Model.batch_size ex_dl1 = 2 /\ testing_samples ex_dl1 = 2 /\ testing_ratio ex_cfg1 = 1%R.
Proof.
  assert (H64 : 0 < 64) by lia.
  assert (Of : outputs_for (bin_set 64) 2 (bin_outputs 64)) by (split; [|split; [|split]]; cbn [bin_outputs o_data o_label o_helper o_weight]; apply ex_tensor_shape; auto; cbn; lia).
  assert (Sm : forall i, i < length (ds_testing (bin_set 64)) / 2 -> exists img lab, sample_is (bin_set 64) (ds_testing (bin_set 64)) i img lab).
  { intros i Hi. change (length _ / 2) with 2 in Hi. destruct i as [|[|i]]; [eexists _, _; repeat split; cbn; lia || reflexivity| |lia]. eexists _, _. repeat split; cbn; lia || reflexivity. }
  destruct (C81_dataset ex_position ex_error ex_mul (bin_set 64) 2 (bin_outputs 64) Of) as (set & Hd & Hex); [cbn; lia|exact Sm|].
  exists set. split; [exact Hd|]. pose proof Of as ((A1 & _) & (B1 & _) & (C1 & _) & (E1 & _)). split; [|split; [|split; [|split; [|repeat split]]]].
  - split; [exact B1|]. split; [exact E1|]. repeat split; cbn; lia.
  - intros o Ho. exists (o_data o), []. split; [reflexivity|]. destruct Ho as ((W1 & S1) & _). split; [exact W1|]. split; [exact S1|]. intros s e (H1 & _). exact H1.
  - exists (new_layer ex_shuffle true 2 0 2 f32_one tt), (bin_outputs 64), [], bin_stat. split; [reflexivity|]. split.
    { unfold shaped_like. repeat (split; [split; [assumption|apply same_shape_refl]|]). split; [assumption|apply same_shape_refl]. }
    repeat (split; [reflexivity|]). intros l [<-|[<-|[<-|[<-|[]]]]]; apply Forall_forall; intros v I; apply repeat_spec in I; auto.
  - intros i x y Hi Hx Hy. destruct (Sm i Hi) as (img & lab & Hsm). destruct (Hex i img lab Hi Hsm) as (_ & _ & _ & Fw). specialize (Fw x y 0 ltac:(lia)).
    destruct ((x <? width img) && (y <? height img)).
    + destruct Fw as (k & cw & _ & Ek & ->). unfold ex_mul. destruct k as [|k]; [injection Ek as <-|destruct k; discriminate]. unfold f32_nonneg, f32_inf, f32_one. lia.
    + rewrite Fw. unfold f32_nonneg, f32_inf, f32_zero. lia.
Qed.
(** The report of this test on images of one pixel: the image of value 1 is found at all thresholds below 1, the other is rightly left out at thresholds from 0 on. *)
Example C94_value : exists t' es', detector_command Zarith_ f32_zero fgt ex_shuffle ex_uniform (bin_sample 1) (bin_sample 1) (fun _ o => Ok (o_data o, [])) (fun n r => n) ex_cfg2 (mkData 2 2 1%Z 0 2)
    (new_trainer Z Zarith_ (res (detector unit)) (Ok (bin_detector 1)) []) [] =
  Ok (mkBS (Some f32_zero) (Some f32_zero) (Some f32_one) (Some f32_one) (Some f32_one) (Some f32_one), t', es').
Proof. eexists _, _. vm_compute. reflexivity. Qed.

(** C81: the accuracy a test reports is that of the whole test set. *)
From Coq Require Import Reals Lra.
From Verif Require Import Base BaseFacts Float32 Tensor_Model Tensor_Spec Tensor_Proofs Num RealNum Schedule_Model Schedule_Proofs Trainer_Model Trainer_Props DatasetInput_Model DatasetInput_Spec DatasetInput_Proofs
  Dataset_Model Dataset_Spec Dataset_Proofs StatLayers_Model StatLayers_Spec StatLayers_Proofs StatLayers2_Proofs Evaluate_Model Evaluate_Spec Evaluate_Proofs.
Local Open Scope nat_scope.

Section C81.
Context {D W G : Type} (A : arith D) (K : num W) (wide : f32 -> W).
Variable zero : f32.
Variable gtb : f32 -> f32 -> bool.
Variable shuffle : G -> list nat -> list nat * G.
Variable uniform : G -> f32 * G.
Variable training_sample testing_sample : outputs f32 -> nat -> nat -> res (outputs f32 * bool).
Variable net : list (list (list D)) -> outputs f32 -> res (tensor f32 * list D).
Notation forward := (world_forward K wide zero gtb shuffle uniform training_sample testing_sample net).

(** After a test with enough batches the confusion matrix holds the pixels of the test set: of every sample once, classified
    as the network classifies it.  Nothing else has weight. The trainer's state is the same as before. *)
Theorem C81_statistics scaling cfg (dl : data_layer D) (t : trainer D (res (bench W G))) es o0 b n c set f :
  delivers testing_sample o0 b n set -> 0 < n -> evaluable o0 b c -> computes net (map snd (layers t)) o0 f -> ready K o0 b n c t ->
  Trainer_Model.batch_size dl = b -> testing_samples dl = n -> b <> 0 -> n <= scaling (n / b + 1) (testing_ratio cfg) * b ->
  (forall x, nadd K x (n0 K) = x) -> wide zero = n0 K ->
  exists t' es' input m tested,
    test D A cfg dl (res (bench W G)) forward (@world_mode W G) scaling (t, es) = Ok (t', es') /\ world t' = Ok (mkBench input m) /\
    Forall2 (sample_pixels wide (width (o_label o0)) (height (o_label o0)) (maps (o_label o0)) f) (map set (seq 0 n)) tested /\
    counts K m (concat tested) /\ in_range c (concat tested) /\
    layers t' = layers t /\ last_deltas t' = last_deltas t /\ last_gradients t' = last_gradients t /\ accumulated t' = accumulated t /\ epoch t' = epoch t /\ first_iteration t' = first_iteration t.
Proof.
  intros Hs Hn Ho Hf Hr Eb En Nb L Z Wz.
  destruct (test_spec A K wide zero gtb shuffle uniform training_sample testing_sample net o0 b n c set Hs Hn Ho (map snd (layers t)) f Hf scaling cfg dl t es Eb Nb En Hr eq_refl L)
    as (t' & es' & l & o & ds & m & tested & fill & E & Ew & _ & _ & _ & _ & Cc & _ & HT & HZ & HC & HR & R).
  rewrite Wz in HZ. exists t', es', (l, o, ds), m, tested. split; [exact E|]. split; [exact Ew|]. split; [exact HT|]. split; [now apply (counts_unweighted K m _ fill)|].
  split; [now apply Forall_app in HR as [? _]|]. exact R.
Qed.
End C81.
Print Assumptions C81_statistics.

(** With exact numbers and the whole test set: a test command reports the rates of all pixels of the test set (nothing if they weigh
    less than one pixel), and leaves everything ready for the next test. *)
Theorem C81_rates {G} (wide : f32 -> R) zero gtb (shuffle : G -> list nat -> list nat * G) uniform training_sample testing_sample net
  cfg (dl : data_layer R) (t : trainer R (res (bench R G))) es o0 b n c set f :
  delivers testing_sample o0 b n set -> 0 < n -> evaluable o0 b c -> computes net (map snd (layers t)) o0 f -> ready R_num o0 b n c t ->
  Trainer_Model.batch_size dl = b -> testing_samples dl = n -> b <> 0 -> (Z.of_nat n < 2 ^ 24)%Z -> testing_ratio cfg = 1%R -> wide zero = 0%R ->
  exists t' es' tested,
    Forall2 (sample_pixels wide (width (o_label o0)) (height (o_label o0)) (maps (o_label o0)) f) (map set (seq 0 n)) tested /\
    test_command real_arith R_num wide zero gtb shuffle uniform training_sample testing_sample net scale Rltb Rdiv INR cfg dl t es =
      Ok (if Rlt_dec (total R_num any (concat tested)) 1 then None
          else Some (overall_rate (concat tested), average_rate c (concat tested), average_iou c (concat tested)), t', es') /\
    ready R_num o0 b n c t' /\ layers t' = layers t.
Proof.
  intros Hs Hn Ho Hf Hr Eb En Nb B E1 Wz. pose proof (C62_covers_test_set cfg dl E1) as L. cbv zeta in L. rewrite Eb, En in L. specialize (L Nb B).
  destruct (test_spec real_arith R_num wide zero gtb shuffle uniform training_sample testing_sample net o0 b n c set Hs Hn Ho (map snd (layers t)) f Hf scale cfg dl t es Eb Nb En Hr eq_refl)
    as (t1 & es1 & l & o & ds & m & tested & fill & E & Ew & Sh & Bl & El & Tl & Cc & Cd & HT & HZ & HC & HR & Ly & _); [lia|].
  rewrite Wz in HZ. apply (counts_unweighted R_num m _ fill Rplus_0_r HZ) in HC. apply Forall_app in HR as [HR _].
  destruct (cm_reset_counts R_num m) as (m' & Em & C' & Cc' & Cd'). { destruct HC as (mt & pc & ? & ? & ? & _). eauto. }
  eexists _, es1, tested. split; [exact HT|]. unfold test_command. rewrite E. cbn [bind]. rewrite Ew. cbn [bind b_matrix b_input].
  split; [|split].
  - assert (Eu : cm_update_all R_num Rltb Rdiv INR m = Ok (if Rlt_dec (total R_num any (concat tested)) 1 then None
          else Some (overall_rate (concat tested), average_rate c (concat tested), average_iou c (concat tested)))).
    { destruct (Rlt_dec (total R_num any (concat tested)) 1) as [Lt|Ge].
      - destruct HC as (mt & pc & _ & _ & _ & _ & _ & Et & _). unfold cm_update_all. rewrite Et. change (n1 R_num) with 1%R. now rewrite (proj2 (Rltb_true _ _) Lt).
      - rewrite <- Cc. apply update_all_spec; [exact HC|now rewrite Cc|]. now apply Rnot_lt_le. }
    rewrite Eu. cbn [bind]. rewrite Em. cbn [bind]. reflexivity.
  - exists l, o, ds, m'. split; [reflexivity|]. repeat (split; [congruence || exact Sh || auto|]). exact C'.
  - exact Ly.
Qed.
Print Assumptions C81_rates.

(** ** Datasets deliver their test sets *)
Section Dataset.
Variable position : nat -> nat -> f32.
Variable error_function : nat -> nat -> nat -> nat -> f32.
Variable mul : f32 -> f32 -> f32.

(** [p] shows [pic] inside the w by h rectangle at the origin and zero outside. *)
Definition framed (w h : nat) (p : picture) (maps : nat) (pic : nat -> nat -> nat -> f32 -> Prop) : Prop :=
  forall x y m, m < maps -> if (x <? w) && (y <? h) then pic x y m (p x y m) else p x y m = f32_zero.
(** The sample as the network sees it. Pixels outside the image have no weight, the others that of the error function and of the
    class of their label. *)
Definition example_of (d : dataset) (img lab : tensor f32) (e : example) : Prop :=
  let w := width img in
  let h := height img in
  framed w h (e_image e) (ds_input_maps d) (fun x y m v => at_pos img x y m 0 = Some v) /\
  framed w h (e_label e) (ds_label_maps d) (fun x y m v => at_pos lab x y m 0 = Some v) /\
  framed w h (e_helper e) 2 (fun x y m v => v = if m =? 0 then position x w else position y h) /\
  framed w h (e_weight e) 1 (fun x y m v => exists k cw, class_of lab x y k /\ nth_error (ds_class_weights d) k = Some cw /\ v = mul (error_function x y w h) cw).

Definition frame (w h : nat) (pic : nat -> nat -> nat -> option f32) : picture :=
  fun x y m => if (x <? w) && (y <? h) then match pic x y m with Some v => v | None => f32_zero end else f32_zero.
Definition test_set (d : dataset) (i : nat) : example :=
  match image (ds_testing d) i, label (ds_testing d) i with
  | Some img, Some lab => let w := width img in let h := height img in
    mkExample (frame w h (fun x y m => at_pos img x y m 0)) (frame w h (fun x y m => Some (if m =? 0 then position x w else position y h)))
              (frame w h (fun x y m => at_pos lab x y m 0)) (frame w h (fun x y m => weight_at error_function mul d lab w h x y))
  | _, _ => mkExample (fun _ _ _ => f32_zero) (fun _ _ _ => f32_zero) (fun _ _ _ => f32_zero) (fun _ _ _ => f32_zero)
  end.

Lemma shows_slot t t' slot w h pic : slot < samples t -> slot_shows t t' slot w h pic -> (forall x y m, m < maps t -> x < w -> y < h -> pic x y m <> None) -> slot_is t' slot (frame w h pic).
Proof.
  intros Hs (Wf & Sh & Hat) Hp x y m V. assert (V' : valid_pos t x y m slot) by (eapply valid_pos_like; [apply same_shape_sym; exact Sh|exact V]).
  rewrite (Hat x y m slot V'), Nat.eqb_refl. unfold frame. destruct (Nat.ltb_spec x w), (Nat.ltb_spec y h); cbn [andb]; auto.
  destruct (pic x y m) eqn:E; [reflexivity|]. exfalso. apply (Hp x y m); auto. apply V'.
Qed.
Lemma shows_others t t' slot w h pic s p : slot_shows t t' slot w h pic -> s <> slot -> slot_is t s p -> slot_is t' s p.
Proof.
  intros (Wf & Sh & Hat) Ne H x y m V. assert (V' : valid_pos t x y m s) by (eapply valid_pos_like; [apply same_shape_sym; exact Sh|exact V]).
  rewrite (Hat x y m s V'). destruct (Nat.eqb_spec s slot); [contradiction|]. now apply H.
Qed.

Lemma at_pos_some (t : tensor f32) x y m s : wf t -> valid_pos t x y m s -> at_pos t x y m s <> None.
Proof. intros Wf V. destruct (Math_Proofs.contents_exists 0%Z t Wf) as [g Hg]. assert (E : at_pos t x y m s = Some (g x y m s)) by exact (Hg x y m s V). rewrite E. discriminate. Qed.

Lemma weight_some d stream i img lab x y : sample_is d stream i img lab -> ds_label_maps d <= length (ds_class_weights d) -> x < width img -> y < height img ->
  exists k cw, class_of lab x y k /\ nth_error (ds_class_weights d) k = Some cw /\ weight_at error_function mul d lab (width img) (height img) x y = Some (mul (error_function x y (width img) (height img)) cw).
Proof.
  intros (Ei & El & Wi & Wl & Si & Sl & Mi & Ml & Ewl & Ehl & Fw & Fh) Hcw Hx Hy.
  destruct (Tensor_Props.C06_pixel_maximum lab x y 0 Wl) as (k & Ek & _); [lia|lia|lia|]. destruct (class_lt lab x y k) as (Hc & Hlt); auto; try lia.
  destruct (nth_error (ds_class_weights d) k) as [cw|] eqn:Ecw; [|apply nth_error_None in Ecw; lia]. exists k, cw. split; [exact Hc|]. split; [exact Ecw|]. unfold weight_at. now rewrite Ek, Ecw.
Qed.

(** A dataset whose test samples are proper delivers them. *)
Theorem C81_dataset d b o0 : outputs_for d b o0 -> ds_label_maps d <= length (ds_class_weights d) ->
  (forall i, i < length (ds_testing d) / 2 -> exists img lab, sample_is d (ds_testing d) i img lab) ->
  exists set, delivers (get_testing_sample position error_function mul d) o0 b (length (ds_testing d) / 2) set /\
    forall i img lab, i < length (ds_testing d) / 2 -> sample_is d (ds_testing d) i img lab -> example_of d img lab (set i).
Proof.
  intros Ho0 Hcw Hall. exists (test_set d). split.
  - intros o slot i Ho Hs Hi. destruct (Hall i Hi) as (img & lab & Hsm).
    assert (Hof : outputs_for d b o).
    { destruct Ho as ((W1 & (?&?&?&?)) & (W2 & (?&?&?&?)) & (W3 & (?&?&?&?)) & (W4 & (?&?&?&?))). destruct Ho0 as ((_&?&?&?&?) & (_&?&?&?&?) & (_&?&?&?&?) & (_&?&?&?&?)).
      split; [split; [exact W1|lia]|]. split; [split; [exact W2|lia]|]. split; [split; [exact W3|lia]|split; [exact W4|lia]]. }
    destruct (get_sample_spec position error_function mul d (ds_testing d) b o slot i img lab Hof Hs Hi Hsm Hcw) as (o' & E & Ho' & S1 & S2 & S3 & S4).
    exists o'. split; [exact E|]. split.
    { destruct Ho' as ((W1&?&?&?&?) & (W2&?&?&?&?) & (W3&?&?&?&?) & (W4&?&?&?&?)). destruct Ho0 as ((_&?&?&?&?) & (_&?&?&?&?) & (_&?&?&?&?) & (_&?&?&?&?)).
      split; [split; [exact W1|repeat split; congruence]|]. split; [split; [exact W2|repeat split; congruence]|].
      split; [split; [exact W3|repeat split; congruence]|split; [exact W4|repeat split; congruence]]. }
    pose proof Hsm as (Ei & El & Wi & Wl & Si & Sl & Mi & Ml & Ewl & Ehl & Fw & Fh). pose proof Hof as ((_&D1&D2&D3&D4) & (_&L1&L2&L3&L4) & (_&P1&P2&P3&P4) & (_&X1&X2&X3&X4)).
    split; [|intros s e Ne (H1 & H2 & H3 & H4); repeat split; eapply shows_others; eauto].
    unfold test_set, slot_holds. rewrite Ei, El. cbn [e_image e_helper e_label e_weight]. split; [|split; [|split]].
    + apply (shows_slot (o_data o)); [lia|exact S1|]. intros x y m Hm Hx Hy. apply at_pos_some; [exact Wi|]. repeat split; lia.
    + apply (shows_slot (o_helper o)); [lia|exact S3|]. discriminate.
    + apply (shows_slot (o_label o)); [lia|exact S2|]. intros x y m Hm Hx Hy. apply at_pos_some; [exact Wl|]. repeat split; lia.
    + apply (shows_slot (o_weight o)); [lia|exact S4|]. intros x y m Hm Hx Hy. destruct (weight_some d _ i img lab x y Hsm Hcw Hx Hy) as (k & cw & _ & _ & ->). discriminate.
  - intros i img lab Hi Hsm. pose proof Hsm as (Ei & El & Wi & Wl & Si & Sl & Mi & Ml & Ewl & Ehl & Fw & Fh). unfold test_set. rewrite Ei, El.
    split; [|split; [|split]]; intros x y m Hm; cbn [e_image e_helper e_label e_weight]; unfold frame;
      destruct (Nat.ltb_spec x (width img)), (Nat.ltb_spec y (height img)); cbn [andb]; try reflexivity.
    + destruct (at_pos img x y m 0) eqn:E; [reflexivity|]. exfalso. revert E. apply at_pos_some; [exact Wi|]. repeat split; lia.
    + destruct (at_pos lab x y m 0) eqn:E; [reflexivity|]. exfalso. revert E. apply at_pos_some; [exact Wl|]. repeat split; lia.
    + destruct (weight_some d _ i img lab x y Hsm Hcw) as (k & cw & H1 & H2 & ->); auto. eauto.
Qed.
End Dataset.
Print Assumptions C81_dataset.

(** ** Examples *)
(** Two test images of one pixel and two classes; the network returns its input.  The first pixel is classified
    correctly, the second is not. *)
Definition two_maps (a b : f32) : tensor f32 := mkTensor 1 1 1 2 2 (Some [a; b]).
Definition ex_testing : list (tensor f32) :=
  [two_maps f32_one f32_zero; two_maps f32_one f32_zero; two_maps f32_one f32_zero; two_maps f32_zero f32_one].
Definition ex_set (side : nat) : dataset := mkDataset [] ex_testing side side 2 2 [f32_one; f32_one].
Definition ex_tensor (side m : nat) : tensor f32 := mkTensor 2 side side m (2 * m * side * side) (Some (repeat f32_zero (2 * m * side * side))).
Definition ex_outputs (side : nat) : outputs f32 := mkOut (ex_tensor side 2) (ex_tensor side 2) (ex_tensor side 2) (ex_tensor side 1).
Definition ex_position (a b : nat) : f32 := f32_zero.
Definition ex_error (x y w h : nat) : f32 := f32_one.
Definition ex_mul (a b : f32) : f32 := b.
Definition ex_shuffle (g : unit) (l : list nat) : list nat * unit := (l, g).
Definition ex_uniform (g : unit) : f32 * unit := (f32_zero, g).
Definition ex_testing_sample side := get_testing_sample ex_position ex_error ex_mul (ex_set side).
Definition ex_training_sample side := get_training_sample ex_position ex_error ex_mul (ex_set side).
Definition ex_cfg1 : settings R := mkSettings 0%R 0%R 0%R 0%R 1%R 1%R GradientDescent true 1 1.
Definition ex_dl1 : data_layer R := mkData (2 * 64 * 64) 2 1%R 0 2.
Definition ex_matrix {W} (z : W) : confusion W := mkCM 2 (Some ([z; z; z; z], [z; z])) z z false.
Definition ex_bench {W} (z : W) side : bench W unit := mkBench (new_layer ex_shuffle true 2 0 2 f32_one tt, ex_outputs side, []) (ex_matrix z).

Lemma ex_tensor_shape side m : 0 < m -> 0 < side -> shape_is (ex_tensor side m) 2 side side m.
Proof. intros Hm Hs. unfold shape_is, wf, ex_tensor. cbn [samples width height maps elements data]. rewrite repeat_length. repeat split; try nia. Qed.
Lemma ex_outputs_for side : 0 < side -> outputs_for (ex_set side) 2 (ex_outputs side).
Proof. intros Hs. split; [|split; [|split]]; cbn [ex_outputs o_data o_label o_helper o_weight]; apply ex_tensor_shape; auto; cbn; lia. Qed.
Lemma ex_shaped side : 0 < side -> shaped_like (ex_outputs side) (ex_outputs side).
Proof. intros Hs. destruct (ex_outputs_for side Hs) as ((A & _) & (B & _) & (C & _) & (E & _)). unfold shaped_like. repeat (split; [split; [assumption|apply same_shape_refl]|]). split; [assumption|apply same_shape_refl]. Qed.
Lemma ex_samples side i : 0 < side -> i < length (ds_testing (ex_set side)) / 2 -> exists img lab, sample_is (ex_set side) (ds_testing (ex_set side)) i img lab.
Proof. intros Hs Hi. change (length _ / 2) with 2 in Hi. destruct i as [|[|i]]; [eexists _, _; repeat split; cbn; lia || reflexivity| |lia]. eexists _, _. repeat split; cbn; lia || reflexivity. Qed.
(** All hypotheses of [C81_rates] hold together. *)
Definition ex_net (losses : list R) (ps : list (list (list R))) (o : outputs f32) : res (tensor f32 * list R) := Ok (o_data o, losses).
Example ex_hypotheses : exists set,
  delivers (ex_testing_sample 64) (ex_outputs 64) 2 2 set /\ evaluable (ex_outputs 64) 2 2 /\
  computes (ex_net []) (map snd (layers (new_trainer R real_arith (res (bench R unit)) (Ok (ex_bench 0%R 64)) []))) (ex_outputs 64) (fun img hlp => img) /\
  ready R_num (ex_outputs 64) 2 2 2 (new_trainer R real_arith (res (bench R unit)) (Ok (ex_bench 0%R 64)) []) /\
  Trainer_Model.batch_size ex_dl1 = 2 /\ testing_samples ex_dl1 = 2 /\ testing_ratio ex_cfg1 = 1%R.
Proof.
  assert (H64 : 0 < 64) by lia.
  destruct (C81_dataset ex_position ex_error ex_mul (ex_set 64) 2 (ex_outputs 64) (ex_outputs_for 64 H64)) as (set & Hd & _); [cbn; lia|intros i; now apply ex_samples|].
  exists set. split; [exact Hd|]. destruct (ex_outputs_for 64 H64) as ((A & _) & (B & _) & (C & _) & (E & _)). split; [|split; [|split; [|repeat split]]].
  - split; [exact B|]. split; [exact E|]. repeat split; cbn; lia.
  - intros o Ho. exists (o_data o), []. split; [reflexivity|]. destruct Ho as ((W1 & S1) & _). split; [exact W1|]. split; [exact S1|]. intros s e (H1 & _). exact H1.
  - exists (new_layer ex_shuffle true 2 0 2 f32_one tt), (ex_outputs 64), [], (ex_matrix 0%R). split; [reflexivity|]. split; [now apply ex_shaped|]. repeat (split; [reflexivity|]).
    exists [0; 0; 0; 0]%R, [0; 0]%R. repeat (split; [reflexivity|]). split; [|split; [|split; reflexivity]].
    + intros p a Hp Ha. cbn [ex_matrix cm_classes] in *. destruct p as [|[|]], a as [|[|]]; try lia; reflexivity.
    + intros a Ha. cbn [ex_matrix cm_classes] in *. destruct a as [|[|]]; try lia; reflexivity.
Qed.

(** Finding: the test loss is too small.  It is averaged over all batches, although fillers have no loss: there is always at least one filler,
    and a whole batch of them if the batch size divides the size of the test set.  Here both test pixels have a loss of 4, but the
    values that are averaged are 4 and 0. *)
Definition pixel_losses (o : outputs f32) : Z :=
  match data (o_weight o) with Some ws => fold_left Z.add (map (fun w => if Z.eqb w f32_zero then 0 else 4) ws) 0 | None => 0 end%Z.
Definition lossy_net (ps : list (list (list Z))) (o : outputs f32) : res (tensor f32 * list Z) := Ok (o_data o, [pixel_losses o]).
Definition reported (es : list (event Z)) : list Z := flat_map (fun e => match e with EIteration v => [v] | _ => [] end) es.
Definition ex_cfg2 : settings Z := mkSettings 0%Z 0%Z 0%Z 0%Z 1%Z 1%Z GradientDescent true 1 1.
Theorem C81_loss_refuted :
  exists t' es', test Z Zarith_ ex_cfg2 (mkData 2 2 1%Z 0 2) (res (bench Z unit))
      (world_forward Z_num (fun w => if Z.eqb w f32_zero then 0 else 1)%Z f32_zero fgt ex_shuffle ex_uniform (ex_training_sample 1) (ex_testing_sample 1) lossy_net)
      (@world_mode Z unit) (fun n r => n) (new_trainer Z Zarith_ (res (bench Z unit)) (Ok (ex_bench 0%Z 1)) [], []) = Ok (t', es') /\
    reported es' = [4; 0]%Z.
Proof. eexists _, _. split; [vm_compute; reflexivity|]. vm_compute. reflexivity. Qed.
Print Assumptions C81_loss_refuted.

(** C30 C31: datasets of images and labels. *)
From Verif Require Import Base BaseFacts Float32 Tensor_Model Tensor_Spec Tensor_Proofs Stream_Model DatasetInput_Model DatasetInput_Spec
  DatasetInput_Proofs Dataset_Model Dataset_Spec Dataset_Proofs.

(** ** C30 *)

(** The reported width and height are the smallest multiples of 64 that are not below those
    of the considered images. *)
Theorem C30_dimensions training testing classes names colors weights d :
  new_dataset training testing classes names colors weights = Ok d ->
  (forall t, considered training testing t -> (Z.of_nat (width t) <= 2 ^ 32 - 64)%Z /\ (Z.of_nat (height t) <= 2 ^ 32 - 64)%Z) ->
  least_multiple_of_64 (fun v => exists t, considered training testing t /\ v = width t) (ds_width d) /\
  least_multiple_of_64 (fun v => exists t, considered training testing t /\ v = height t) (ds_height d).
Proof.
  intros H Hb. unfold new_dataset in H.
  destruct (_ || _); [discriminate|]. destruct (Nat.odd (length training)) eqn:O1; [discriminate|]. destruct (Nat.odd (length testing)) eqn:O2; [discriminate|].
  injection H as <-. cbn [ds_width ds_height].
  split; apply dim_least; auto; intros t Ht; now apply Hb.
Qed.
Print Assumptions C30_dimensions.


(** The maps are those of the first image and the first label: of the training stream when it
    is not empty, else of the testing stream; the other parts are the arguments. *)
Theorem C30_maps training testing classes names colors weights d :
  new_dataset training testing classes names colors weights = Ok d ->
  let first := match training with [] => testing | _ => training end in
  (forall img, image first 0 = Some img -> ds_input_maps d = maps img) /\
  (forall lab, label first 0 = Some lab -> ds_label_maps d = maps lab) /\
  (first = [] -> ds_input_maps d = 0 /\ ds_label_maps d = 0) /\
  ds_training d = training /\ ds_testing d = testing /\ ds_class_weights d = weights.
Proof.
  intros H. unfold new_dataset in H. destruct (_ || _); [discriminate|]. destruct (Nat.odd (length training)); [discriminate|]. destruct (Nat.odd (length testing)); [discriminate|].
  injection H as <-. cbn [ds_input_maps ds_label_maps ds_training ds_testing ds_class_weights]. unfold image, label, stream_maps.
  destruct training as [|t r]; cbn [length Nat.ltb Nat.leb Nat.mul Nat.add]; (split; [intros img E; now rewrite E|]); (split; [intros lab E; now rewrite E|]); (split; [intros E|auto]).
  - rewrite E. auto.
  - discriminate.
Qed.
Print Assumptions C30_maps.

(** A dataset is made exactly when the counts agree and images and labels come in pairs. *)
Theorem C30_accepts training testing classes names colors weights :
  (classes = names /\ classes = colors /\ (exists n, length training = 2 * n) /\ (exists n, length testing = 2 * n) ->
   exists d, new_dataset training testing classes names colors weights = Ok d) /\
  (~ (classes = names /\ classes = colors /\ (exists n, length training = 2 * n) /\ (exists n, length testing = 2 * n)) ->
   new_dataset training testing classes names colors weights = Fatal).
Proof.
  unfold new_dataset. split.
  - intros (<- & <- & (n & En) & (m & Em)). rewrite Nat.eqb_refl, En, Em, !Nat.odd_mul. cbn [Nat.odd Nat.even negb orb andb]. eexists. reflexivity.
  - intros N. destruct (Nat.eqb_spec classes names) as [E1|]; [|reflexivity]. destruct (Nat.eqb_spec classes colors) as [E2|]; [|reflexivity]. cbn [negb orb].
    destruct (Nat.odd (length training)) eqn:O1; [reflexivity|]. destruct (Nat.odd (length testing)) eqn:O2; [reflexivity|]. exfalso. apply N.
    rewrite <- Nat.negb_even in O1, O2. apply negb_false_iff, Nat.even_spec in O1, O2. destruct O1 as (a & ?), O2 as (b & ?). split; [exact E1|]. split; [exact E2|]. split; [now exists a|now exists b].
Qed.
Print Assumptions C30_accepts.
(** Without training images every test image is considered; all training images always are. *)
Theorem C30_all_images training testing i t :
  (image training i = Some t -> considered training testing t) /\
  (training = [] -> image testing i = Some t -> considered training testing t).
Proof.
  split; [intros H; left; eauto|]. intros -> H. right. exists i. split; [apply Nat.le_0_l|exact H].
Qed.
Print Assumptions C30_all_images.

(** Finding: the first test images (as many as there are training images) are not
    considered, so the dataset can be smaller than an image it contains. *)
Definition blank (w h m : nat) : tensor f32 := mkTensor 1 w h m (m * h * w) (Some (repeat 0%Z (m * h * w))).
Definition small_training := [blank 1 1 1; blank 1 1 1].
Definition large_testing := [blank 65 64 1; blank 65 64 1].
Theorem C30_test_images_refuted :
  exists d t, new_dataset small_training large_testing 1 1 1 [0%Z] = Ok d /\
    image large_testing 0 = Some t /\ wf t /\ ds_width d < width t.
Proof.
  exists (mkDataset small_training large_testing 64 64 1 1 [0%Z]), (blank 65 64 1).
  split; [vm_compute; reflexivity|]. split; [reflexivity|]. split; [|cbn; lia].
  unfold wf. cbn [elements samples maps height width data blank]. rewrite repeat_length. lia.
Qed.
Print Assumptions C30_test_images_refuted.

(** Loading that image writes behind the end of the helper output. *)
Definition big_outputs : outputs f32 :=
  mkOut (blank 64 64 1) (blank 64 64 1) (blank 64 64 2) (blank 64 64 1).
Theorem C31_large_test_image_refuted position error_function mul :
  outputs_for (mkDataset small_training large_testing 64 64 1 1 [0%Z]) 1 big_outputs /\
  get_testing_sample position error_function mul (mkDataset small_training large_testing 64 64 1 1 [0%Z]) big_outputs 0 0 = UB.
Proof.
  split.
  - repeat split; cbn [big_outputs o_data o_label o_helper o_weight blank elements samples maps height width data]; try reflexivity; try (rewrite repeat_length; reflexivity); lia.
  - vm_compute. reflexivity.
Qed.
Print Assumptions C31_large_test_image_refuted.

(** Sizes just below 2^32 wrap around to zero. *)
Theorem C30_wrap_refuted : round_dim (2 ^ 32 - 63)%Z = 0%Z.
Proof. vm_compute. reflexivity. Qed.
Print Assumptions C30_wrap_refuted.

(** ** C31 *)
Section C31.
Variable position : nat -> nat -> f32.
Variable error_function : nat -> nat -> nat -> nat -> f32.
Variable mul : f32 -> f32 -> f32.

(** A sample within range: each output shows its part in the requested slot and keeps the
    other slots.  The weight of a pixel is the error function times the weight of the
    class of the stored label there. *)
Definition sample_loaded (d : dataset) (o o' : outputs f32) (slot : nat) (img lab : tensor f32) : Prop :=
  let w := width img in
  let h := height img in
  slot_shows (o_data o) (o_data o') slot w h (fun x y m => at_pos img x y m 0) /\
  slot_shows (o_label o) (o_label o') slot w h (fun x y m => at_pos lab x y m 0) /\
  slot_shows (o_helper o) (o_helper o') slot w h (fun x y m => Some (if m =? 0 then position x w else position y h)) /\
  exists weights, slot_shows (o_weight o) (o_weight o') slot w h (fun x y m => weights x y) /\
    forall x y, x < w -> y < h ->
      exists c cw, class_of lab x y c /\ nth_error (ds_class_weights d) c = Some cw /\ weights x y = Some (mul (error_function x y w h) cw).

Lemma sample_ok d stream b o slot i img lab :
  outputs_for d b o -> slot < b -> i < length stream / 2 -> sample_is d stream i img lab -> ds_label_maps d <= length (ds_class_weights d) ->
  exists o', get_sample position error_function mul d stream o slot i = Ok (o', true) /\ outputs_for d b o' /\ sample_loaded d o o' slot img lab.
Proof.
  intros Ho Hs Hi Hsm Hcw.
  destruct (get_sample_spec position error_function mul d stream b o slot i img lab Ho Hs Hi Hsm Hcw) as (o' & E & Ho' & S1 & S2 & S3 & S4).
  exists o'. split; [exact E|]. split; [exact Ho'|]. split; [exact S1|]. split; [exact S2|]. split; [exact S3|].
  eexists. split; [exact S4|]. intros x y Hx Hy.
  destruct Hsm as (Ei & El & Wi & Wl & Si & Sl & Mi & Ml & Ewl & Ehl & Fw & Fh).
  destruct (Tensor_Props.C06_pixel_maximum lab x y 0 Wl) as (c & Ec & _); [lia|lia|lia|].
  destruct (class_lt lab x y c) as (Hc & Hlt); auto; try lia.
  destruct (nth_error (ds_class_weights d) c) as [cw|] eqn:Ecw; [|apply nth_error_None in Ecw; lia].
  exists c, cw. split; [exact Hc|]. split; [exact Ecw|]. unfold weight_at. rewrite Ec, Ecw. reflexivity.
Qed.

Theorem C31_training_sample d b o slot i img lab :
  outputs_for d b o -> slot < b -> i < length (ds_training d) / 2 -> sample_is d (ds_training d) i img lab -> ds_label_maps d <= length (ds_class_weights d) ->
  exists o', get_training_sample position error_function mul d o slot i = Ok (o', true) /\ outputs_for d b o' /\ sample_loaded d o o' slot img lab.
Proof. apply sample_ok. Qed.

Theorem C31_testing_sample d b o slot i img lab :
  outputs_for d b o -> slot < b -> i < length (ds_testing d) / 2 -> sample_is d (ds_testing d) i img lab -> ds_label_maps d <= length (ds_class_weights d) ->
  exists o', get_testing_sample position error_function mul d o slot i = Ok (o', true) /\ outputs_for d b o' /\ sample_loaded d o o' slot img lab.
Proof. apply sample_ok. Qed.

(** Requests out of range fail and change nothing. *)
Theorem C31_out_of_range d o slot i :
  (length (ds_training d) / 2 <= i -> get_training_sample position error_function mul d o slot i = Ok (o, false)) /\
  (length (ds_testing d) / 2 <= i -> get_testing_sample position error_function mul d o slot i = Ok (o, false)).
Proof.
  unfold get_training_sample, get_testing_sample, get_sample.
  split; intros H; (destruct (Nat.ltb_spec i (length (ds_training d) / 2)) || destruct (Nat.ltb_spec i (length (ds_testing d) / 2))); try reflexivity; try lia;
  destruct (Nat.ltb_spec i (length (ds_testing d) / 2)); try reflexivity; lia.
Qed.

(** So a dataset whose samples are proper meets what C27 and C28 ask of it. *)
Theorem C31_provides d stream b o0 :
  outputs_for d b o0 -> ds_label_maps d <= length (ds_class_weights d) ->
  (forall i, i < length stream / 2 -> exists img lab, sample_is d stream i img lab) ->
  provides (get_sample position error_function mul d stream) o0 b (length stream / 2) /\
  weight_local (get_sample position error_function mul d stream) o0.
Proof.
  intros Ho0 Hcw Hall.
  assert (Hlike : forall o, shaped_like o0 o -> outputs_for d b o).
  { intros o ((W1 & (?&?&?&?)) & (W2 & (?&?&?&?)) & (W3 & (?&?&?&?)) & (W4 & (?&?&?&?))).
    destruct Ho0 as ((_&?&?&?&?) & (_&?&?&?&?) & (_&?&?&?&?) & (_&?&?&?&?)).
    split; [split; [exact W1|lia]|]. split; [split; [exact W2|lia]|]. split; [split; [exact W3|lia]|split; [exact W4|lia]]. }
  assert (Hback : forall o, outputs_for d b o -> shaped_like o0 o).
  { intros o ((W1&?&?&?&?) & (W2&?&?&?&?) & (W3&?&?&?&?) & (W4&?&?&?&?)).
    destruct Ho0 as ((_&?&?&?&?) & (_&?&?&?&?) & (_&?&?&?&?) & (_&?&?&?&?)).
    split; [split; [exact W1|repeat split; congruence]|]. split; [split; [exact W2|repeat split; congruence]|].
    split; [split; [exact W3|repeat split; congruence]|split; [exact W4|repeat split; congruence]]. }
  split.
  - intros o slot i Ho Hs Hi. destruct (Hall i Hi) as (img & lab & Hsm).
    destruct (sample_ok d stream b o slot i img lab) as (o' & E & Ho' & _); auto. eauto.
  - intros o slot i o' Ho E.
    destruct (Nat.lt_ge_cases i (length stream / 2)) as [Hi|Hi].
    2: { unfold get_sample in E. destruct (Nat.ltb_spec i (length stream / 2)); [lia|discriminate]. }
    destruct (Hall i Hi) as (img & lab & Hsm). pose proof (Hlike o Ho) as Hof.
    destruct (Nat.lt_ge_cases slot b) as [Hs|Hs].
    + destruct (sample_ok d stream b o slot i img lab) as (o1 & E1 & Ho1 & S1 & S2 & S3 & w & (Ww & Sw & Hw) & _); auto.
      rewrite E in E1. inversion E1; subst o1. split; [auto|]. intros x y m s Hv Hne.
      rewrite Hw. { apply Nat.eqb_neq in Hne. now rewrite Hne. }
      destruct Ho as (_ & _ & _ & _ & Sh). eapply valid_pos_like; eauto.
    + exfalso. unfold get_sample in E. destruct (Nat.ltb_spec i (length stream / 2)); [|lia].
      destruct Hsm as (Ei & El & Wi & Wl & Si & Sl & Mi & Ml & Ewl & Ehl & Fw & Fh). unfold image in Ei. unfold label in El.
      destruct Hof as ((Wd & D1 & D2 & D3 & D4) & (Wo & L1 & L2 & L3 & L4) & _).
      unfold float_copy_sample in E. rewrite Ei, El in E.
      destruct (copy_sample_spec f32_zero img 0 (o_data o) slot Wi Wd) as (d' & E1 & _); [now apply wf_maps_pos|].
      destruct (copy_sample_spec f32_zero lab 0 (o_label o) slot Wl Wo) as (l' & E2 & _); [now apply wf_maps_pos|].
      assert (P1 : copy_sample_possible img 0 (o_data o) slot = false).
      { unfold copy_sample_possible. destruct (Nat.ltb_spec slot (samples (o_data o))); [lia|]. apply andb_false_r. }
      rewrite P1 in E1. rewrite E1 in E. cbn [bind] in E. rewrite E2 in E. cbn [bind andb] in E.
      destruct (run_stores _ _); cbn [bind] in E; try discriminate. destruct (clear _ _ _); cbn [bind] in E; try discriminate.
      destruct (run_stores _ _); cbn [bind] in E; discriminate.
Qed.
End C31.
Print Assumptions C31_training_sample.
Print Assumptions C31_testing_sample.
Print Assumptions C31_out_of_range.
Print Assumptions C31_provides.

(** ** Examples *)
Definition ex_img : tensor f32 := mkTensor 1 2 1 1 2 (Some [5; 6]%Z).
Definition ex_lab : tensor f32 := mkTensor 1 2 1 2 4 (Some [f32_one; 0; 0; f32_one]%Z).
Definition ex_d : dataset := mkDataset [ex_img; ex_lab] [] 64 64 1 2 [10; 20]%Z.
Example ex_dataset : new_dataset [ex_img; ex_lab] [] 2 2 2 [10; 20]%Z = Ok ex_d.
Proof. vm_compute. reflexivity. Qed.
Example ex_sample : sample_is ex_d (ds_training ex_d) 0 ex_img ex_lab.
Proof. repeat split; cbn; lia. Qed.
Definition ex_out : outputs f32 := mkOut (blank 64 64 1) (blank 64 64 2) (blank 64 64 2) (blank 64 64 1).
Example ex_outputs : outputs_for ex_d 1 ex_out.
Proof.
  repeat split; cbn [ex_out ex_d o_data o_label o_helper o_weight blank elements samples maps height width data ds_width ds_height ds_label_maps ds_input_maps];
  try reflexivity; try (rewrite repeat_length; reflexivity); lia.
Qed.
Example ex_weights_ok : ds_label_maps ex_d <= length (ds_class_weights ex_d).
Proof. cbn. lia. Qed.
(** Two pixels of classes 0 and 1: weights 10 and 20 (times an error function of one).  A
    small output size keeps the computation short. *)
Definition ex_small : dataset := mkDataset [ex_img; ex_lab] [] 4 2 1 2 [10; 20]%Z.
Definition ex_small_out : outputs f32 := mkOut (blank 4 2 1) (blank 4 2 2) (blank 4 2 2) (blank 4 2 1).
Example ex_run :
  match get_training_sample (fun x w => Z.of_nat x) (fun _ _ _ _ => 1%Z) Z.mul ex_small ex_small_out 0 0 with
  | Ok (o, ok) => ok = true /\ data (o_weight o) = Some [10; 20; 0; 0; 0; 0; 0; 0]%Z /\ data (o_data o) = Some [5; 6; 0; 0; 0; 0; 0; 0]%Z
  | _ => False end.
Proof. vm_compute. repeat split. Qed.

(** Specification vocabulary for datasets. *)
From Verif Require Import Base Float32 Tensor_Model Tensor_Spec DatasetInput_Model Dataset_Model.

(** Streams alternate images and labels. *)
Definition image (s : list (tensor f32)) (i : nat) : option (tensor f32) := nth_error s (2 * i).
Definition label (s : list (tensor f32)) (i : nat) : option (tensor f32) := nth_error s (2 * i + 1).

(** The images whose sizes the dataset looks at: all training images, and the test images
    from the number of training images on. *)
Definition considered (training testing : list (tensor f32)) (t : tensor f32) : Prop :=
  (exists i, image training i = Some t) \/ (exists i, length training / 2 <= i /\ image testing i = Some t).

(** [r] is the smallest multiple of 64 that is not below any of the sizes [P]. *)
Definition least_multiple_of_64 (P : nat -> Prop) (r : nat) : Prop :=
  r mod 64 = 0 /\ (forall v, P v -> v <= r) /\
  forall r', r' mod 64 = 0 -> (forall v, P v -> v <= r') -> r <= r'.

(** Sample [i] of the stream: an image and a label of the same size that fit the dataset. *)
Definition sample_is (d : dataset) (stream : list (tensor f32)) (i : nat) (img lab : tensor f32) : Prop :=
  image stream i = Some img /\ label stream i = Some lab /\ wf img /\ wf lab /\
  0 < samples img /\ 0 < samples lab /\
  maps img = ds_input_maps d /\ maps lab = ds_label_maps d /\
  width lab = width img /\ height lab = height img /\ width img <= ds_width d /\ height img <= ds_height d.

(** Output tensors as the input layer creates them for [b] slots. *)
Definition shape_is {D} (t : tensor D) (s w h m : nat) : Prop :=
  wf t /\ samples t = s /\ width t = w /\ height t = h /\ maps t = m.
Definition outputs_for (d : dataset) (b : nat) (o : outputs f32) : Prop :=
  shape_is (o_data o) b (ds_width d) (ds_height d) (ds_input_maps d) /\
  shape_is (o_label o) b (ds_width d) (ds_height d) (ds_label_maps d) /\
  shape_is (o_helper o) b (ds_width d) (ds_height d) 2 /\
  shape_is (o_weight o) b (ds_width d) (ds_height d) 1.

(** [t'] is [t] except for slot [slot], where it shows [pic] inside the w x h rectangle at
    the origin and zero outside. *)
Definition slot_shows (t t' : tensor f32) (slot w h : nat) (pic : nat -> nat -> nat -> option f32) : Prop :=
  wf t' /\ same_shape t' t /\
  forall x y m s, valid_pos t x y m s ->
    at_pos t' x y m s =
      if s =? slot then if (x <? w) && (y <? h) then pic x y m else Some f32_zero else at_pos t x y m s.

(** [c] is the class of the pixel: the first map with the largest value. *)
Definition class_of (lab : tensor f32) (x y c : nat) : Prop :=
  forall val, (forall m, m < maps lab -> at_pos lab x y m 0 = Some (val m)) -> first_largest (maps lab) val f32_lowest c.

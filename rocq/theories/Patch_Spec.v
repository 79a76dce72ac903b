(** Specification vocabulary for patch datasets. *)
From Verif Require Import Base Float32 Tensor_Model Tensor_Spec DatasetInput_Model Dataset_Model Dataset_Spec Patch_Model.

(** The patch positions (column, row) of an image, row by row. *)
Definition positions (px py : nat) (img : tensor f32) : list (nat * nat) :=
  flat_map (fun row => map (fun col => (col, row)) (seq 0 (width img + 1 - px))) (seq 0 (height img + 1 - py)).

(** All patches of a list of (image, label) pairs: image number (from [n]), column, row. *)
Fixpoint patches_from (px py n : nat) (pairs : list (tensor f32 * tensor f32)) : list (nat * nat * nat) :=
  match pairs with
  | [] => []
  | p :: ps => map (fun q => (n, fst q, snd q)) (positions px py (fst p)) ++ patches_from px py (S n) ps
  end.

(** Every image is a proper tensor at least as large as the patch, labels have the same size. *)
Definition pair_ok (px py im lm : nat) (p : tensor f32 * tensor f32) : Prop :=
  wf (fst p) /\ wf (snd p) /\ 0 < samples (fst p) /\ 0 < samples (snd p) /\
  maps (fst p) = im /\ maps (snd p) = lm /\ width (snd p) = width (fst p) /\ height (snd p) = height (fst p) /\
  px <= width (fst p) /\ py <= height (fst p) /\ (Z.of_nat (width (fst p)) < 2 ^ 32)%Z /\ (Z.of_nat (height (fst p)) < 2 ^ 32)%Z.

(** Outputs for [b] slots in patch mode. *)
Definition patch_outputs (d : patch_dataset) (b : nat) (o : outputs f32) : Prop :=
  shape_is (o_data o) b (pd_px d) (pd_py d) (pd_input_maps d) /\ shape_is (o_label o) b 1 1 (pd_label_maps d) /\
  shape_is (o_helper o) b 1 1 2 /\ shape_is (o_weight o) b 1 1 1.

(** [t'] is [t] with slot [slot] replaced by [pic]. *)
Definition slot_is (t t' : tensor f32) (slot : nat) (pic : nat -> nat -> nat -> option f32) : Prop :=
  wf t' /\ same_shape t' t /\
  forall x y m s, valid_pos t x y m s -> at_pos t' x y m s = if s =? slot then pic x y m else at_pos t x y m s.

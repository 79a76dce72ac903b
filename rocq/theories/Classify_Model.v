(** Model of tools/classifyImage.cpp: labelling one image with a trained network.

    The network built from the configuration file, with its parameters loaded and in testing
    mode (lines 111-133), is the parameter [net]: from the data and helper tensor it computes the
    tensor of its default output node.  Reading and writing image files is in Png_Model and
    Jpg_Model, the configuration files in Factory_Model and DatasetConfig_Model. *)
From Verif Require Import Base Float32 FloatOps Tensor_Model Dataset_Model Colorize_Model.
Local Open Scope nat_scope.

(** Lines 63-80, for width or height: unsigned int arithmetic. *)
Definition round8 (v : Z) : Z := fold_left round_step [1; 2; 4]%Z v.
Definition padded (v : nat) : nat := Z.to_nat (round8 (u32 (Z.of_nat v))).

(** Lines 95-96: ((datum)x) / ((datum)w - 1). *)
Definition prior (x w : nat) : f32 := fdiv (f_of_Z (Z.of_nat x)) (fsub (f_of_Z (Z.of_nat w)) f32_one).

(** Lines 93-108.  The last inner loop (line 104) runs to [height]. *)
Definition prior_stores (helper : tensor f32) (ow oh width height : nat) : list (nat * res f32) :=
  for_ oh (fun y =>
    for_ ow (fun x => [(offset helper x y 0 0, Ok (prior x ow)); (offset helper x y 1 0, Ok (prior y oh))]) ++
    for_from ow width (fun x => [(offset helper x y 0 0, Ok f32_zero); (offset helper x y 1 0, Ok f32_zero)])) ++
  for_from oh height (fun y =>
    for_ height (fun x => [(offset helper x y 0 0, Ok f32_zero); (offset helper x y 1 0, Ok f32_zero)])).

(** Lines 139-144. *)
Definition crop_stores (image small : tensor f32) : list (nat * res f32) :=
  for_ 3 (fun m => for_ (height small) (fun y => for_ (width small) (fun x =>
    [(offset small x y m 0, get image x y m 0)]))).

Section Classify.
Variable junk : nat -> f32.
Variable net : tensor f32 -> tensor f32 -> res (tensor f32).

(** Lines 62-108: the two inputs of the network. *)
Definition inputs (image : tensor f32) : res (tensor f32 * tensor f32) :=
  let w := padded (width image) in
  let h := padded (height image) in
  data <- clear (new_tensor junk 1 w h (maps image)) f32_zero None ;;
  helper <- clear (new_tensor junk 1 w h 2) f32_zero None ;;
  copied <- copy_sample f32_zero image 0 data 0 ;;
  helper' <- run_stores helper (prior_stores helper (width image) (height image) w h) ;;
  Ok (fst copied, helper').

(** Lines 62-144: the picture that is written. *)
Definition classify (classes : nat) (colors : list Z) (image : tensor f32) : res (tensor f32) :=
  ins <- inputs image ;;
  output <- net (fst ins) (snd ins) ;;
  colored <- colorize classes colors output (new_tensor junk 1 (width output) (height output) 3) ;;
  let small := new_tensor junk 1 (width image) (height image) 3 in
  run_stores small (crop_stores colored small).
End Classify.

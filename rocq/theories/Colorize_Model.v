(** Model of Dataset::Colorize (src/util/Colorize.cpp).  GetClasses() and GetClassColors() are the
    parameters [classes] and [colors]; the two tensors are different objects. *)
From Verif Require Import Base Float32 FloatOps Tensor_Model Pixel_Model.
Local Open Scope nat_scope.

(** Lines 29-31 and 62-64: channel 0 (red), 1 (green), 2 (blue) of a colour 0xRRGGBB. *)
Definition channel (color : Z) (c : nat) : f32 :=
  datum_from_uchar (Z.land (Z.shiftr color (match c with 0 => 16 | 1 => 8 | _ => 0 end)) 255).

(** Lines 36-42.  [value += 1.0; value /= 2.0] computes in double and rounds to float, which is the same as
    computing in float (the double has more than 2 * 24 + 2 digits). *)
Definition single_class (colors : list Z) (output target : tensor f32) (sample y x : nat) : list (nat * res f32) :=
  map (fun c => (offset target x y c sample,
    color <- load colors 0 ;;
    value <- get output x y 0 sample ;;
    Ok (fmul (channel color c) (fdiv (fadd value f32_one) (f_of_Z 2))))) [0; 1; 2].

(** Lines 51-68: the search starts at the smallest positive normal float. *)
Definition several_classes (classes : nat) (colors : list Z) (output target : tensor f32) (sample y x : nat) : list (nat * res f32) :=
  map (fun c => (offset target x y c sample,
    maxclass <- scan_max fgt classes (fun c => get output x y c sample) f32_min_positive ;;
    color <- load colors maxclass ;;
    Ok (channel color c))) [0; 1; 2].

(** Lines 22-73. *)
Definition colorize (classes : nat) (colors : list Z) (output target : tensor f32) : res (tensor f32) :=
  let paint := if classes =? 1 then single_class colors else several_classes classes colors in
  run_stores target (for_ (samples output) (fun sample => for_ (height output) (fun y => for_ (width output) (fun x =>
    paint output target sample y x)))).

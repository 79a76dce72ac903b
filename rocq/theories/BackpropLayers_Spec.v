(** Sizes of the tensors of a network, for C75. *)
From Coq Require Import Reals.
From Verif Require Import Base Math_Spec ConvLayer_Model Pool_Model Pool_Spec BackpropLayers_Model.
Local Open Scope list_scope.

(** A tensor of this shape has as many elements. *)
Definition shaped (d : dims) (l : list R) : Prop := length l = size d.

(** The positions of a tensor, where they are in memory, and the element at a position. *)
Definition in_range (d : dims) (x y m s : nat) : Prop := x < d_width d /\ y < d_height d /\ m < d_maps d /\ s < d_samples d.
Definition place (d : dims) (x y m s : nat) : nat := ((s * d_maps d + m) * d_height d + y) * d_width d + x.
Definition fn (d : dims) (l : list R) (x y m s : nat) : R := nth (place d x y m s) l 0%R.

(** A convolution with an input of the shape [d]: its weights (one kernel per output map,
    over the input maps of one group), its bias, and its output (one value per kernel
    position). *)
Definition weights_dims (c : conv) (d : dims) : dims := mkDims (cv_omaps c) (cv_kw c) (cv_kh c) (d_maps d / cv_group c).
Definition bias_dims (c : conv) : dims := mkDims 1 (cv_omaps c) 1 1.
Definition out_dims (c : conv) (d : dims) : dims :=
  mkDims (d_samples d) (positions (d_width d + 2 * cv_pw c) (cv_kw c) (cv_sw c)) (positions (d_height d + 2 * cv_ph c) (cv_kh c) (cv_sh c)) (cv_omaps c).

(** The order of the real numbers; a maximum is searched from -FLT_MAX = -(2^128 - 2^104). *)
Definition R_lowest : R := IZR (- (2 ^ 128 - 2 ^ 104)).
Definition R_order : order R := mkOrder (fun a b => if Rlt_dec b a then true else false) (fun a b => if Rle_dec b a then true else false) R_lowest.

(** One of the cells has a larger value than all others, and above -FLT_MAX. *)
Definition clear_maximum (cells : list (nat * nat)) (val : nat * nat -> R) : Prop :=
  exists p, In p cells /\ (R_lowest < val p)%R /\ forall q, In q cells -> q <> p -> (val q < val p)%R.

(** One output per position of a window of rw x rh pixels that moves by sw and sh. *)
Definition strided_dims (rw rh sw sh : nat) (d : dims) : dims :=
  mkDims (d_samples d) (positions (d_width d) rw sw) (positions (d_height d) rh sh) (d_maps d).

(** Specification vocabulary for the numerical operations. *)
From Verif Require Import Base Tensor_Model Tensor_Spec Num Math_Model.

(** The memory cell [a] of a tensor. *)
Definition raw {D} (t : tensor D) (a : nat) : option D :=
  match data t with Some l => nth_error l a | None => None end.

(** Sample [sm] of the tensor holds the matrix [m] with [rows] rows and [cols] columns:
    row by row with distance [ld], or column by column if [trans]. *)
Definition stored {D} (trans : bool) (t : tensor D) (sm ld rows cols : nat) (m : nat -> nat -> D) : Prop :=
  forall i j, i < rows -> j < cols ->
    raw t (sm * (maps t * width t * height t) + (if trans then j * ld + i else i * ld + j)) = Some (m i j).

(** The tensor's element at every position is given by [f]. *)
Definition contents {D} (t : tensor D) (f : nat -> nat -> nat -> nat -> D) : Prop :=
  forall x y m s, valid_pos t x y m s -> at_pos t x y m s = Some (f x y m s).

Definition has_shape {D} (t : tensor D) (s w h m : nat) : Prop :=
  samples t = s /\ width t = w /\ height t = h /\ maps t = m.

(** An image of [w] by [h] pixels surrounded by zeros. *)
Definition padded {D} (K : num D) (w h : nat) (img : nat -> nat -> nat -> nat -> D) (ix iy : Z) (m s : nat) : D :=
  if ((0 <=? ix) && (ix <? Z.of_nat w) && (0 <=? iy) && (iy <? Z.of_nat h))%Z
  then img (Z.to_nat ix) (Z.to_nat iy) m s else n0 K.

(** The number of positions of a kernel of size [k] moved in steps of [stride] inside [n] pixels. *)
Definition positions (n k stride : nat) : nat := if n <? k then 0 else (n - k) / stride + 1.

(** Sum over all positions of a tensor of the given shape. *)
Definition tensor_sum {D} (K : num D) (ss w h mm : nat) (f : nat -> nat -> nat -> nat -> D) : D :=
  nsum K ss (fun s => nsum K mm (fun m => nsum K h (fun y => nsum K w (fun x => f x y m s)))).

(** Scalar product of two tensors given by their contents. *)
Definition dot {D} (K : num D) (ss w h mm : nat) (f g : nat -> nat -> nat -> nat -> D) : D :=
  tensor_sum K ss w h mm (fun x y m s => nmul K (f x y m s) (g x y m s)).

(** The kernel fits into the padded image in both directions and moves. *)
Definition geometry_ok (g : geometry) : Prop :=
  0 < g_sw g /\ 0 < g_sh g /\ g_kw g <= g_width g + 2 * g_pw g /\ g_kh g <= g_height g + 2 * g_ph g.

Definition o_width (g : geometry) : nat := positions (g_width g + 2 * g_pw g) (g_kw g) (g_sw g).
Definition o_height (g : geometry) : nat := positions (g_height g + 2 * g_ph g) (g_kh g) (g_sh g).

(** The inputs for which the width test in line 335 decides correctly. *)
Definition col2im_safe (g : geometry) : Prop := g_pw g = 0 /\ g_height g <= g_width g.

(** Sum of all column elements whose window position covers pixel (x, y) of map m. *)
Definition col_gradient {D} (K : num D) (g : geometry) (col : nat -> nat -> nat -> nat -> D) (x y m s : nat) : D :=
  nsum K (g_kh g) (fun ky => nsum K (g_kw g) (fun kx => nsum K (o_height g) (fun oy => nsum K (o_width g) (fun ox =>
    if (ox * g_sw g + kx =? x + g_pw g) && (oy * g_sh g + ky =? y + g_ph g)
    then col ox oy s ((m * g_kh g + ky) * g_kw g + kx) else n0 K)))).

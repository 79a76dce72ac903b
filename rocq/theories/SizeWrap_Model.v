(** The sizes of tensors in std::size_t (src/util/Tensor.cpp): every operation is reduced modulo 2^64.  The other
    models compute with unbounded numbers; [SizeWrap_Props] says when this is the same. *)
From Coq Require Import ZArith.
From Verif Require Import Base.
Local Open Scope Z_scope.

Definition wrap (z : Z) : Z := z mod 2 ^ 64.
Definition mul64 (a b : Z) : Z := wrap (a * b).
Definition add64 (a b : Z) : Z := wrap (a + b).

(** The shape of a tensor and the size of its memory in elements (None: null pointer). *)
Record shape64 : Type := mkShape64 { z_samples : Z; z_width : Z; z_height : Z; z_maps : Z; z_elements : Z; z_memory : option Z }.
Definition no_shape : shape64 := mkShape64 0 0 0 0 0 None.

(** Tensor.cpp:143 and 181: samples * maps * width * height. *)
Definition elements64 (s w h m : Z) : Z := mul64 (mul64 (mul64 s m) w) h.

(** Tensor.cpp:174-194. *)
Definition reshape64 (t : shape64) (s w h m : Z) : shape64 * bool :=
  match z_memory t with
  | None => (t, false)
  | Some l =>
    let proposed := elements64 s w h m in
    if z_elements t =? proposed then (mkShape64 s w h m proposed (Some l), true) else (t, false)
  end.

(** Tensor.cpp:132-167 without preallocated memory; also what Deserialize does with the sizes in the header of a
    file (lines 268-278). *)
Definition resize64 (t : shape64) (s w h m : Z) : shape64 :=
  let '(t1, reshaped) := reshape64 t s w h m in
  if reshaped then t1
  else
    let t2 := match z_memory t with None => t | Some _ => no_shape end in
    let n := elements64 s w h m in
    if n =? 0 then t2 else mkShape64 s w h m n (Some n).

(** Tensor.h:128-135. *)
Definition offset64 (t : shape64) (x y map sample : Z) : Z :=
  add64 (add64 (add64 (mul64 (mul64 (mul64 sample (z_maps t)) (z_width t)) (z_height t)) (mul64 (mul64 map (z_width t)) (z_height t))) (mul64 y (z_width t))) x.

(** Model of class Segmentation (src/util/Segmentation.cpp).

    Simplifications: int is unbounded; a patch size is a natural number; datums are binary32 patterns. *)
From Verif Require Import Base Float32 FloatOps Float64 Tensor_Model Math_Model.
Local Open Scope nat_scope.

Section Segmentation.
Variable junk : nat -> f32.

(** [*t.data_ptr_const(x, y, map, sample)] with int coordinates (Tensor.h:128-135, 254-258): they are converted to
    std::size_t and the address is computed modulo 2^64. *)
Definition get_int (t : tensor f32) (x y : Z) (map sample : nat) : res f32 :=
  l <- buffer t ;;
  let a := ((Z.of_nat (offset t 0 0 map sample) + y * Z.of_nat (width t) + x) mod 2 ^ 64)%Z in
  if (a <? Z.of_nat (length l))%Z then load l (Z.to_nat a) else UB.

(** Lines 40-44, 47-51, 121-125 and 128-132. *)
Definition mirror (size p : Z) : Z :=
  let p := (if p <? 0 then - p else p)%Z in
  (if size <=? p then -1 + size + size - p else p)%Z.

(** Lines 36-61: the stores to the patches. *)
Definition patch_stores (pw ph : nat) (target source : tensor f32) (sample : nat) : list (nat * res f32) :=
  for_ (width source) (fun px => for_ (height source) (fun py =>
    for_ ph (fun ipy => for_ pw (fun ipx => for_ (maps source) (fun m =>
      [(offset target ipx ipy m (width source * py + px),
        get_int source (mirror (Z.of_nat (width source)) (Z.of_nat px + Z.of_nat ipx - Z.of_nat pw / 2))
                       (mirror (Z.of_nat (height source)) (Z.of_nat py + Z.of_nat ipy - Z.of_nat ph / 2)) m sample)]))))).

(** Lines 64-67: [place size patch p] is where the patch begins, relative to the image. The quotient is a double and is
    rounded to a float when it is stored. *)
Definition place (size patch p : nat) : f32 :=
  f_of_d (ddiv (d_of_Z (Z.max 0 (Z.min (Z.of_nat size - (Z.of_nat patch - 1)) (Z.of_nat p - Z.of_nat patch / 2)))) (d_of_Z (Z.of_nat size))).
Definition helper_stores (pw ph : nat) (source : tensor f32) : list (nat * res f32) :=
  for_ (width source) (fun px => for_ (height source) (fun py =>
    let element := width source * py + px in
    [(2 * element, Ok (place (height source) ph py)); (2 * element + 1, Ok (place (width source) pw px))])).

(** Lines 77-96. *)
Definition subtract_mean (eps : nat) (t : tensor f32) (sample : nat) : res (tensor f32) :=
  sum <- foldm (fun sum e => v <- (l <- buffer t ;; load l (sample * eps + e)) ;; Ok (fadd sum v)) (seq 0 eps) f32_zero ;;
  let mean := fdiv sum (f_of_Z (Z.of_nat eps)) in
  run_with fsub t (for_ eps (fun e => [(sample * eps + e, Ok mean)])).

(** Lines 16-97: the new contents of target and helper. *)
Definition extract_patches (pw ph : nat) (target helper source : tensor f32) (sample : nat) (mean : bool) : res (tensor f32 * tensor f32) :=
  let npatches := width source * height source in
  let target := resize junk target npatches pw ph (maps source) in
  let helper := resize junk helper npatches 2 1 1 in
  target <- run_stores target (patch_stores pw ph target source sample) ;;
  helper <- run_stores helper (helper_stores pw ph source) ;;
  target <- (if mean then foldm (subtract_mean (pw * ph * maps source)) (seq 0 (samples target)) target else Ok target) ;;
  Ok (target, helper).

(** Lines 99-147.  [ignore_class] is an int that is compared with an unsigned value. *)
Definition label_at (pw ph : nat) (source : tensor f32) (sample px py : nat) : res f32 :=
  get_int source (mirror (Z.of_nat (width source)) (Z.of_nat px + (Z.of_nat pw / 2 + 1) - Z.of_nat pw / 2))
                 (mirror (Z.of_nat (height source)) (Z.of_nat py + (Z.of_nat ph / 2 + 1) - Z.of_nat ph / 2)) 0 sample.
Definition extract_labels (pw ph : nat) (labels weight source : tensor f32) (sample : nat) (ignore_class : Z) : res (tensor f32 * tensor f32) :=
  let npatches := width source * height source in
  let labels := resize junk labels npatches 1 1 1 in
  let weight := resize junk weight npatches 1 1 1 in
  labels <- run_stores labels (for_ (width source) (fun px => for_ (height source) (fun py =>
    [(offset labels 0 0 0 (width source * py + px), label_at pw ph source sample px py)]))) ;;
  weight <- run_stores weight (for_ (width source) (fun px => for_ (height source) (fun py =>
    [(offset weight 0 0 0 (width source * py + px),
      v <- label_at pw ph source sample px py ;;
      Ok (if (v =? ignore_class mod 2 ^ 32)%Z then f32_zero else f32_one))]))) ;;
  Ok (labels, weight).
End Segmentation.

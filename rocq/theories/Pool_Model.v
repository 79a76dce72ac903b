(** Model of src/net/MaxPoolingLayer.cpp and src/net/AdvancedMaxPoolingLayer.cpp, CPU path.

    Simplifications: [unsigned int] dimensions and loop counters are unbounded; the selected
    positions, which the code keeps in tensors of floats, are converted as the code does.
    The stores of one iteration go to different tensors and are listed per tensor.

    The pooled values may be of any ordered type; the layers run with floats ([f32_order],
    [f32_num]).  The positions are floats in any case. *)
From Verif Require Import Base Float32 FloatOps Tensor_Model Num.

(** The comparisons of datum, and the value maxima start from
    (MaxPoolingLayer.cpp:149, AdvancedMaxPoolingLayer.cpp:146: lowest()). *)
Record order D := mkOrder { o_gt : D -> D -> bool; o_ge : D -> D -> bool; o_lowest : D }.
Arguments mkOrder {D} _ _ _.
Arguments o_gt {D} _.
Arguments o_ge {D} _.
Arguments o_lowest {D} _.
Definition f32_order : order f32 := mkOrder fgt fge f32_lowest.

(** Conversion of a float to unsigned int: undefined outside 0..2^32-1. *)
Definition f_to_uint (a : f32) : res nat :=
  match trunc a with
  | Some z => if ((0 <=? z) && (z <? 2 ^ 32))%Z then Ok (Z.to_nat z) else UB
  | None => UB
  end.
(** unsigned int to float. *)
Definition uint_to_f (n : nat) : f32 := f_of_Z (Z.of_nat n mod 2 ^ 32).

(** A store whose address is itself computed from memory. *)
Definition store_at {D} (ra : res nat) (rv : res D) : nat * res D :=
  match ra with Ok a => (a, rv) | Fatal => (0, Fatal) | UB => (0, UB) end.

Section PoolModel.
Context {D : Type}.
Variables (O : order D) (K : num D).

(** MaxPoolingLayer.cpp:147-163, AdvancedMaxPoolingLayer.cpp:145-160: the running maximum
    over the listed cells, with its position. *)
Definition window_max (input : tensor D) (cells : list (nat * nat)) (map sample : nat) : res (D * (nat * nat)) :=
  foldm (fun best cell =>
    v <- get input (fst cell) (snd cell) map sample ;;
    Ok (if o_gt O v (fst best) then (v, cell) else best)) cells (o_lowest O, (0, 0)).

(** ** MaxPoolingLayer *)

(** MaxPoolingLayer.cpp:36-69: the output's width and height. *)
Definition pool_create (rw rh w h : nat) : res (option (nat * nat)) :=
  if (rw =? 0) || (rh =? 0) then UB
  else if negb (w mod rw =? 0) || negb (h mod rh =? 0) then Ok None
  else Ok (Some (w / rw, h / rh)).

(** MaxPoolingLayer.cpp:150-153: the cells of a region, column by column. *)
Definition region_cells (rw rh ox oy : nat) : list (nat * nat) :=
  for_from (ox * rw) ((ox + 1) * rw) (fun ix => for_from (oy * rh) ((oy + 1) * rh) (fun iy => [(ix, iy)])).

(** The loops of lines 143-146 and 219-222. *)
Definition pool_loop {A} (maps_ output_width output_height : nat) (body : nat -> nat -> nat -> list A) : list A :=
  for_ maps_ (fun map => for_ output_width (fun ox => for_ output_height (fun oy => body map ox oy))).

(** MaxPoolingLayer.cpp:142-176: one iteration of the parallel loop, the stores to one of the
    tensors; [what] selects the stored value from the maximum and its position. *)
Definition pool_ff_sample {E} (rw rh maps_ ow oh : nat) (input : tensor D) (target : tensor E) (what : D * (nat * nat) -> E) (sample : nat) :
  list (nat * res E) :=
  pool_loop maps_ ow oh (fun map ox oy =>
    [(offset target ox oy map sample,
      best <- window_max input (region_cells rw rh ox oy) map sample ;; Ok (what best))]).

(** MaxPoolingLayer.cpp:103-178: returns maximum_ix_, maximum_iy_ and the output. *)
Definition pool_ff (rw rh : nat) (input : tensor D) (mix miy : tensor f32) (output : tensor D) : res (tensor f32 * tensor f32 * tensor D) :=
  let run {E} (target : tensor E) what :=
    run_stores target (for_ (samples input) (fun sample =>
      pool_ff_sample rw rh (maps input) (width output) (height output) input target what sample)) in
  mix' <- run mix (fun best => uint_to_f (fst (snd best))) ;;
  miy' <- run miy (fun best => uint_to_f (snd (snd best))) ;;
  output' <- run output (fun best => fst best) ;;
  Ok (mix', miy', output').

(** MaxPoolingLayer.cpp:217-230: one iteration of the parallel loop. *)
Definition pool_bp_sample (maps_ ow oh : nat) (mix miy : tensor f32) (output_delta input_delta : tensor D) (sample : nat) : list (nat * res D) :=
  pool_loop maps_ ow oh (fun map ox oy =>
    [store_at (fx <- get mix ox oy map sample ;; ix <- f_to_uint fx ;;
               fy <- get miy ox oy map sample ;; iy <- f_to_uint fy ;; Ok (offset input_delta ix iy map sample))
              (get output_delta ox oy map sample)]).

(** MaxPoolingLayer.cpp:180-235. *)
Definition pool_bp (mix miy : tensor f32) (output_delta input_delta : tensor D) : res (tensor D) :=
  cleared <- clear input_delta (n0 K) None ;;
  run_stores cleared (for_ (samples input_delta) (fun sample =>
    pool_bp_sample (maps input_delta) (width output_delta) (height output_delta) mix miy output_delta cleared sample)).

(** ** AdvancedMaxPoolingLayer *)

(** AdvancedMaxPoolingLayer.cpp:62-63: signed division truncates towards zero. *)
Definition apool_dim (size region stride : nat) : Z := (Z.quot (Z.of_nat size - Z.of_nat region) (Z.of_nat stride) + 1)%Z.

(** AdvancedMaxPoolingLayer.cpp:44-74; the result is converted to size_t by the caller. *)
Definition apool_create (rw rh sw sh w h : nat) : res (Z * Z) :=
  if (sw =? 0) || (sh =? 0) then UB else Ok (apool_dim w rw sw, apool_dim h rh sh).

(** AdvancedMaxPoolingLayer.cpp:148-151: the cells of a window, row by row. *)
Definition window_cells (rw rh sw sh ox oy : nat) : list (nat * nat) :=
  for_from (oy * sh) (oy * sh + rh) (fun iy => for_from (ox * sw) (ox * sw + rw) (fun ix => [(ix, iy)])).

(** AdvancedMaxPoolingLayer.cpp:139-172. *)
Definition apool_ff_sample {E} (rw rh sw sh maps_ ow oh : nat) (input : tensor D) (target : tensor E) (what : D * (nat * nat) -> E) (sample : nat) :
  list (nat * res E) :=
  pool_loop maps_ ow oh (fun map ox oy =>
    [(offset target ox oy map sample,
      best <- window_max input (window_cells rw rh sw sh ox oy) map sample ;; Ok (what best))]).

(** AdvancedMaxPoolingLayer.cpp:99-175: returns maximum_mask_ and the output. *)
Definition apool_ff (rw rh sw sh : nat) (input : tensor D) (mask : tensor f32) (output : tensor D) : res (tensor f32 * tensor D) :=
  let run {E} (target : tensor E) what :=
    run_stores target (for_ (samples input) (fun sample =>
      apool_ff_sample rw rh sw sh (maps input) (width output) (height output) input target what sample)) in
  mask' <- run mask (fun best => uint_to_f (width input * snd (snd best) + fst (snd best))) ;;
  output' <- run output (fun best => fst best) ;;
  Ok (mask', output').

(** AdvancedMaxPoolingLayer.cpp:222-228: the outputs considered for an input coordinate. *)
Definition apool_start (i region stride : nat) : nat := if i <? region then 0 else (i - region) / stride + 1.
Definition apool_end (i stride size : nat) : nat := Nat.min (i / stride + 1) size.

(** AdvancedMaxPoolingLayer.cpp:230-236. *)
Definition apool_sum (rw rh sw sh iw : nat) (mask : tensor f32) (output_delta : tensor D) (ix iy map sample : nat) : res D :=
  foldm (fun sum o =>
    f <- get mask (snd o) (fst o) map sample ;;
    if feq f (uint_to_f (ix + iw * iy)) then d <- get output_delta (snd o) (fst o) map sample ;; Ok (nadd K sum d) else Ok sum)
    (for_from (apool_start iy rh sh) (apool_end iy sh (height output_delta)) (fun oy =>
     for_from (apool_start ix rw sw) (apool_end ix sw (width output_delta)) (fun ox => [(oy, ox)]))) (n0 K).

(** AdvancedMaxPoolingLayer.cpp:216-241: one iteration of the parallel loop. *)
Definition apool_bp_sample (rw rh sw sh : nat) (mask : tensor f32) (output_delta input_delta : tensor D) (sample : nat) : list (nat * res D) :=
  for_ (maps input_delta) (fun map =>
  for_ (width input_delta) (fun ix =>
  for_ (height input_delta) (fun iy =>
    [(offset input_delta ix iy map sample,
      apool_sum rw rh sw sh (width input_delta) mask output_delta ix iy map sample)]))).

(** AdvancedMaxPoolingLayer.cpp:177-242. *)
Definition apool_bp (rw rh sw sh : nat) (mask : tensor f32) (output_delta input_delta : tensor D) : res (tensor D) :=
  if (sw =? 0) || (sh =? 0) then UB
  else run_stores input_delta (for_ (samples input_delta) (fun sample =>
         apool_bp_sample rw rh sw sh mask output_delta input_delta sample)).
End PoolModel.

(** Model of the layers that only move data: src/net/ConcatenationLayer.cpp,
    src/net/SumLayer.cpp, src/net/ResizeLayer.cpp, src/net/SpatialPriorLayer.cpp,
    src/net/UpscaleLayer.cpp, src/net/InputDownSamplingLayer.cpp.

    Simplifications: sizes are unbounded; a layer's tensors are different from each other;
    lists of inputs and outputs have the right length and no null pointers (those cases
    return false or FATAL before anything happens). *)
From Verif Require Import Base Tensor_Model Num Math_Model.

Section LayersModel.
Context {D : Type}.
Variable K : num D.

(** A call of Tensor::CopyMap: source, its sample and map, the target's sample and map. *)
Definition copy_call : Type := tensor D * nat * nat * nat * nat.
(** Calls of CopyMap with the same target, whose results the layers ignore. *)
Definition copy_maps (calls : list copy_call) (target : tensor D) : res (tensor D) :=
  foldm (fun t c => let '(source, ss, sm, ts, tm) := c in
           r <- copy_map (n0 K) source ss sm t ts tm ;; Ok (fst r)) calls target.

(** ** ConcatenationLayer *)

(** ConcatenationLayer.cpp:19-51: samples, width, height, maps of the output.  The message
    about different dimensions (lines 34-37) does not end the function. *)
Definition concat_create (a b : tensor D) : option (nat * nat * nat * nat) :=
  if negb (samples a =? samples b) then None
  else Some (samples a, width a, height b, maps a + maps b).

(** ConcatenationLayer.cpp:53-95. *)
Definition concat_connect (a b output : tensor D) : bool :=
  (samples a =? samples b) && (elements output =? elements a + elements b).

(** ConcatenationLayer.cpp:99-105: one iteration. *)
Definition concat_ff_sample (a b : tensor D) (s : nat) : list copy_call :=
  for_ (maps a) (fun m => [(a, s, m, s, m)]) ++ for_ (maps b) (fun m => [(b, s, m, s, maps a + m)]).
(** ConcatenationLayer.cpp:97-106. *)
Definition concat_ff (a b output : tensor D) : res (tensor D) :=
  copy_maps (for_ (samples a) (concat_ff_sample a b)) output.

(** ConcatenationLayer.cpp:108-117, the copies to input_a and those to input_b. *)
Definition concat_bp_a (output_delta : tensor D) (maps_a s : nat) : list copy_call :=
  for_ maps_a (fun m => [(output_delta, s, m, s, m)]).
Definition concat_bp_b (output_delta : tensor D) (maps_a maps_b s : nat) : list copy_call :=
  for_ maps_b (fun m => [(output_delta, s, maps_a + m, s, m)]).
Definition concat_bp (output_delta a_delta b_delta : tensor D) : res (tensor D * tensor D) :=
  a' <- copy_maps (for_ (samples a_delta) (concat_bp_a output_delta (maps a_delta))) a_delta ;;
  b' <- copy_maps (for_ (samples a_delta) (concat_bp_b output_delta (maps a_delta) (maps b_delta))) b_delta ;;
  Ok (a', b').

(** ** SumLayer *)

(** SumLayer.cpp:20-58. *)
Definition sum_create (a b : tensor D) : option (nat * nat * nat * nat) :=
  if negb (samples a =? samples b) then None
  else if negb (maps a =? maps b) then None
  else Some (samples a, width a, height b, maps a).

(** SumLayer.cpp:60-102.  If the output has not as many elements as the first input, line 89
    reads [output_], which is not set yet. *)
Definition sum_connect (a b output : tensor D) : res bool :=
  if negb (samples a =? samples b) then Ok false
  else if negb (elements output =? elements a) then UB
  else Ok true.

(** SumLayer.cpp:104-106. *)
Definition sum_ff (a b output : tensor D) : res (tensor D) := add_tensors K a b output.

(** SumLayer.cpp:108-113, for one of the inputs. *)
Definition sum_bp_to (samples_ : nat) (output_delta target : tensor D) : res (tensor D) :=
  foldm (fun t s => r <- copy_sample (n0 K) output_delta s t s ;; Ok (fst r)) (seq 0 samples_) target.
Definition sum_bp (output_delta a_delta b_delta : tensor D) : res (tensor D * tensor D) :=
  a' <- sum_bp_to (samples a_delta) output_delta a_delta ;;
  b' <- sum_bp_to (samples a_delta) output_delta b_delta ;;
  Ok (a', b').

(** ** ResizeLayer *)

(** ResizeLayer.cpp:37-60. *)
Definition resize_create (borderx bordery : nat) (input : tensor D) : nat * nat * nat * nat :=
  (samples input, width input + borderx, height input + bordery, maps input).

(** ResizeLayer.cpp:90-101: one iteration; the memcpy of line 99 as element stores. *)
Definition resize_ff_sample (borderx bordery : nat) (input output : tensor D) (sample : nat) : list (nat * res D) :=
  for_ (maps input) (fun map => for_ (height input) (fun y => for_ (width input) (fun x =>
    [(offset output (borderx / 2) (y + bordery / 2) map sample + x,
      l <- buffer input ;; load l (offset input 0 y map sample + x))]))).
(** ResizeLayer.cpp:82-102. *)
Definition resize_ff (borderx bordery : nat) (input output : tensor D) : res (tensor D) :=
  cleared <- clear output (n0 K) None ;;
  run_stores cleared (for_ (samples input) (resize_ff_sample borderx bordery input cleared)).

(** ResizeLayer.cpp:114-127. *)
Definition resize_bp_sample (borderx bordery : nat) (output_delta input_delta : tensor D) (sample : nat) : list (nat * res D) :=
  for_ (maps input_delta) (fun map => for_ (height input_delta) (fun y => for_ (width input_delta) (fun x =>
    [(offset input_delta 0 y map sample + x,
      l <- buffer output_delta ;; load l (offset output_delta (borderx / 2) (y + bordery / 2) map sample + x))]))).
(** ResizeLayer.cpp:104-130. *)
Definition resize_bp (backprop : bool) (borderx bordery : nat) (output_delta input_delta : tensor D) : res (tensor D) :=
  if backprop then
    cleared <- clear input_delta (n0 K) None ;;
    run_stores cleared (for_ (samples input_delta) (resize_bp_sample borderx bordery output_delta cleared))
  else Ok input_delta.

(** ** SpatialPriorLayer *)

(** Division of two integers converted to datum (lines 75 and 77). *)
Variable ratio : nat -> nat -> D.

(** SpatialPriorLayer.cpp:15-42. *)
Definition prior_create (input : tensor D) : nat * nat * nat * nat :=
  (samples input, width input, height input, maps input + 2).

(** SpatialPriorLayer.cpp:65-70: every map is copied once per row. *)
Definition prior_copies (input : tensor D) (sample : nat) : list copy_call :=
  for_from 2 (maps input + 2) (fun map => for_ (height input) (fun _ => [(input, sample, map - 2, sample, map)])).
(** SpatialPriorLayer.cpp:72-79. *)
Definition prior_coordinates (input output : tensor D) (sample : nat) : list (nat * res D) :=
  for_ (height input) (fun y => for_ (width input) (fun x =>
    [(offset output x y 0 sample, Ok (ratio x (width input)));
     (offset output x y 1 sample, Ok (ratio y (height input)))])).
(** SpatialPriorLayer.cpp:60-81. *)
Definition prior_ff (input output : tensor D) : res (tensor D) :=
  cleared <- clear output (n1 K) None ;;
  foldm (fun t sample => t1 <- copy_maps (prior_copies input sample) t ;; run_stores t1 (prior_coordinates input t1 sample))
        (seq 0 (samples input)) cleared.

(** SpatialPriorLayer.cpp:83-93. *)
Definition prior_bp_sample (output_delta input_delta : tensor D) (sample : nat) : list copy_call :=
  for_from 2 (maps input_delta + 2) (fun map => for_ (height input_delta) (fun _ => [(output_delta, sample, map, sample, map - 2)])).
Definition prior_bp (output_delta input_delta : tensor D) : res (tensor D) :=
  copy_maps (for_ (samples input_delta) (prior_bp_sample output_delta input_delta)) input_delta.

(** ** UpscaleLayer and InputDownSamplingLayer *)

(** UpscaleLayer.cpp:24-51. *)
Definition upscale_create (rw rh : nat) (input : tensor D) : nat * nat * nat * nat :=
  (samples input, width input * rw, height input * rh, maps input).
(** UpscaleLayer.cpp:75-81. *)
Definition upscale_ff (rw rh : nat) (input output : tensor D) : res (tensor D) := up K input output rw rh (n1 K).
Definition upscale_bp (rw rh : nat) (output_delta input_delta : tensor D) : res (tensor D) := down K output_delta input_delta rw rh (n1 K).

(** InputDownSamplingLayer.cpp:26-58. *)
Definition downsample_create (rw rh : nat) (input : tensor D) : res (option (nat * nat * nat * nat)) :=
  if (rw =? 0) || (rh =? 0) then UB
  else if negb (width input mod rw =? 0) || negb (height input mod rh =? 0) then Ok None
  else Ok (Some (samples input, width input / rw, height input / rh, maps input)).
(** InputDownSamplingLayer.cpp:82-84; [fraction] is 1 / (rw * rh). *)
Definition downsample_ff (fraction : D) (rw rh : nat) (input output : tensor D) : res (tensor D) := down K input output rw rh fraction.
(** InputDownSamplingLayer.cpp:86-90. *)
Definition downsample_bp (backprop : bool) (input_delta : tensor D) : res (tensor D) :=
  if backprop then Fatal else Ok input_delta.
End LayersModel.

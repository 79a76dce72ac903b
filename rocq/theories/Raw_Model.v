(** Model of Tensor::Serialize with convert = true (src/util/Tensor.cpp:225-248), the raw 8-bit export of tools/tensorTool.cpp (command bin). *)
From Verif Require Import Base Float32 FloatOps Tensor_Model Pixel_Model.

(** Element [i] of the memory. *)
Definition raw_elt (t : tensor f32) (i : nat) : res f32 := l <- buffer t ;; load l i.

(** Lines 226-242 for one pixel. *)
Definition raw_pixel (t : tensor f32) (ime_count is_count sample : nat) (out : list Z) (ime : nat) : res (list Z) :=
  r <- (d <- raw_elt t (is_count * sample + ime) ;; mchar_from_datum d) ;;
  g <- (d <- raw_elt t (is_count * sample + ime_count * 1 + ime) ;; mchar_from_datum d) ;;
  b <- (d <- raw_elt t (is_count * sample + ime_count * 2 + ime) ;; mchar_from_datum d) ;;
  Ok (out ++ [r; g; b]).
(** Lines 226-248; the result is what has been written. *)
Definition raw_bytes (t : tensor f32) : res (list Z) :=
  if maps t =? 3
  then let ime_count := width t * height t in
       let is_count := ime_count * maps t in
       foldm (fun out sample => foldm (raw_pixel t ime_count is_count sample) (seq 0 ime_count) out) (seq 0 (samples t)) []
  else foldm (fun out e => x <- (d <- raw_elt t e ;; mchar_from_datum d) ;; Ok (out ++ [x])) (seq 0 (elements t)) [].

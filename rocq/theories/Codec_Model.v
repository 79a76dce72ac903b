(** Model of the run-length codec and of class Conv::CompressedTensor
    (src/util/CompressedTensor.cpp). *)
From Verif Require Import Base Float32 Bytes_Model Tensor_Model.
Local Open Scope Z_scope.

(** CompressedTensor.cpp:209-214. *)
Definition rl_marker : byte := 88.        (* 'X' *)
Definition rl_doublemarker : byte := 88.  (* 'X' *)
Definition rl_rle : byte := 89.           (* 'Y' *)
Definition rl_max : nat := 253.           (* (1 << 8*rl_bytes) - 3, rl_bytes = 1 *)
Definition rl_min : nat := 2.             (* 1 + (5 + rl_bytes) / chars_per_datum *)

(** CompressedTensor.cpp:253-264: one byte of a literal symbol. *)
Definition emit_byte (c : byte) : list byte :=
  if c =? rl_marker then [rl_marker; rl_doublemarker] else [c].

(** CompressedTensor.cpp:249-285: bytes emitted for [running] copies of [last]. *)
Definition emit (last : f32) (running : nat) : list byte :=
  if ((0 <? running) && (running <? rl_min))%nat then
    for_ running (fun _ => flat_map emit_byte (f32_bytes last))
  else if (rl_min <=? running)%nat then
    [rl_marker; rl_rle; Z.land (Z.of_nat running) 255] ++ f32_bytes last
  else [].

(** CompressedTensor.cpp:227-295: one iteration with pos < uncompressed_elements.
    State: last_symbol, running_length, bytes written so far. *)
Definition compress_step (st : f32 * nat * list byte) (current : f32) : f32 * nat * list byte :=
  let '(last, running, out) := st in
  let running1 := if feq current last then S running else running in
  if negb (feq current last) || (running1 =? rl_max)%nat then
    (current, if (running1 =? rl_max)%nat then 0%nat else 1%nat, out ++ emit last running1)
  else (current, running1, out).

(** CompressedTensor.cpp:216-297.  The last iteration (pos == uncompressed_elements)
    only emits; it also copies the uninitialised current_symbol, which is not used
    afterwards.  [running_length] never exceeds 253, so std::size_t does not wrap. *)
Definition compress_data (l : list f32) : list byte :=
  let '(last, running, out) := fold_left compress_step l (0, 0%nat, []) in
  out ++ emit last running.

(** CompressedTensor.cpp:299-341: the decoding loop.  [cap] is the number of bytes the
    output buffer can still take; the code does not check it, so writing beyond is UB.
    Reading beyond the input is UB. *)
Fixpoint decode_loop (cap : nat) (input : list byte) : res (list byte) :=
  match input with
  | [] => Ok []
  | c :: rest =>
    if c =? rl_marker then
      match rest with
      | [] => UB                                              (* line 308 *)
      | d :: rest1 =>
        if d =? rl_doublemarker then                          (* lines 309-312 *)
          match cap with
          | O => UB
          | S cap' => o <- decode_loop cap' rest1 ;; Ok (rl_marker :: o)
          end
        else if d =? rl_rle then
          match rest1 with
          | [] => UB                                          (* line 318 *)
          | len :: rest2 =>
            if len =? 0 then                                  (* no reads, pos += 4 *)
              match rest2 with
              | _ :: _ :: _ :: _ :: rest3 => decode_loop cap rest3
              | _ => Ok []
              end
            else
              match rest2 with
              | b0 :: b1 :: b2 :: b3 :: rest3 =>              (* lines 324-332 *)
                let run := for_ (Z.to_nat len) (fun _ => [b0; b1; b2; b3]) in
                if (length run <=? cap)%nat then
                  o <- decode_loop (cap - length run) rest3 ;; Ok (run ++ o)
                else UB
              | _ => UB
              end
          end
        else Fatal                                            (* line 334 *)
      end
    else                                                      (* lines 336-340 *)
      match cap with
      | O => UB
      | S cap' => o <- decode_loop cap' rest ;; Ok (c :: o)
      end
  end.

(** CompressedTensor.cpp:299-346.  Result: the bytes written.  The loop counter [pos] is
    an unsigned int compared with a std::size_t: for 2^32 or more input bytes it wraps
    around and the loop starts over until it runs out of output memory (UB). *)
Definition decompress_data (cap : nat) (input : list byte) : res (list byte) :=
  o <- decode_loop cap input ;;
  if 2 ^ 32 <=? Z.of_nat (length input) then UB
  else if (length o mod 4 =? 0)%nat then Ok o else Fatal.

(** CompressedTensor.cpp:345 uncompressed_elements: the byte counter [bytes_out] is an
    unsigned int. *)
Definition reported_elements (o : list byte) : Z := (Z.of_nat (length o) mod 2 ^ 32) / 4.

(** CompressedTensor.h private members. *)
Record ctensor : Type := mkCTensor {
  c_samples : nat;
  c_width : nat;
  c_height : nat;
  c_maps : nat;
  c_elements : nat;
  c_data : list byte       (* compressed_data_ptr_, compressed_length_ bytes *)
}.
Definition c_empty : ctensor := mkCTensor 0 0 0 0 0 [].

(** CompressedTensor.cpp:79-103 with preallocated memory holding [bytes]; it always
    releases the old memory first. *)
Definition c_resize (s w h m : nat) (bytes : list byte) : ctensor :=
  match bytes with
  | [] => c_empty
  | _ => mkCTensor s w h m (s * w * h * m) bytes
  end.

(** CompressedTensor.cpp:47-59: the caller's buffer has 2*elements*4+2 bytes; an
    overrun would be UB. *)
Definition c_compress (t : tensor f32) : res ctensor :=
  l <- (match data t with Some l => Ok l | None => if (elements t =? 0)%nat then Ok [] else UB end) ;;
  let out := compress_data l in
  if (length out <=? 2 * elements t * 4 + 2)%nat
  then Ok (c_resize (samples t) (width t) (height t) (maps t) out)
  else UB.

(** Tensor.cpp:132-167 with preallocated memory different from the current memory. *)
Definition resize_prealloc (s w h m : nat) (buf : list f32) : tensor f32 :=
  let n := (s * m * w * h)%nat in
  if (n =? 0)%nat then empty_tensor else mkTensor s w h m n (Some buf).

(** CompressedTensor.cpp:61-76 with a fresh buffer of [elements_] datums. *)
Definition c_decompress (c : ctensor) : res (tensor f32) :=
  o <- decompress_data (4 * c_elements c) (c_data c) ;;
  if reported_elements o =? Z.of_nat (c_elements c)
  then Ok (resize_prealloc (c_samples c) (c_width c) (c_height c) (c_maps c) (f32s_of_bytes o))
  else Fatal.

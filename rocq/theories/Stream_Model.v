(** Model of tensor serialization and of the tensor stream classes
    (src/util/Tensor.cpp:220-320, src/util/CompressedTensor.cpp:105-170,
    src/util/FloatTensorStream.cpp, src/util/CompressedTensorStream.cpp,
    src/util/TensorStream.cpp, tools/compressTensorStream.cpp). *)
From Verif Require Import Base Float32 Bytes_Model Tensor_Model Codec_Model.
Local Open Scope Z_scope.

(** std::istream over a file: the bytes behind the read position and two state bits. *)
Record istream : Type := mkIS { rest : list byte; eofbit : bool; failbit : bool }.
Definition open_file (bytes : list byte) : istream := mkIS bytes false false.
Definition good (s : istream) : bool := negb (eofbit s) && negb (failbit s).

(** istream::read: a short read sets eofbit and failbit; a stream that is not good
    reads nothing. *)
Definition is_read (n : nat) (s : istream) : list byte * istream :=
  if good s then
    if (n <=? length (rest s))%nat
    then (firstn n (rest s), mkIS (skipn n (rest s)) false false)
    else (rest s, mkIS [] true true)
  else ([], mkIS (rest s) (eofbit s) true).

(** istream::peek. *)
Definition is_peek (s : istream) : istream :=
  if good s then match rest s with [] => mkIS [] true false | _ => s end
  else mkIS (rest s) (eofbit s) true.

(** istream::seekg(n, std::ios::cur) on a file; seeking behind the end is allowed and
    leaves nothing to read. *)
Definition is_seek (n : nat) (s : istream) : istream :=
  if failbit s then mkIS (rest s) false true else mkIS (skipn n (rest s)) false false.

(** [uint64_t v = 0; input.read((char* )&v, 8);] - bytes that are missing stay zero. *)
Definition read_u64 (s : istream) : nat * istream :=
  let '(got, s') := is_read 8 s in (Z.to_nat (le_value got), s').

(** Tensor.cpp:250-264 (convert == false). *)
Definition serialize (t : tensor f32) : list byte :=
  u64_bytes (Z.of_nat (samples t)) ++ u64_bytes (Z.of_nat (width t)) ++
  u64_bytes (Z.of_nat (height t)) ++ u64_bytes (Z.of_nat (maps t)) ++
  (if (0 <? elements t)%nat then flat_map f32_bytes (match data t with Some l => l | None => [] end) else []).

(** input.read into memory that holds [old]: what is not delivered stays as it was. *)
Definition read_into (old : list f32) (s : istream) : list f32 * istream :=
  let '(got, s') := is_read (4 * length old) s in
  (f32s_of_bytes (got ++ skipn (length got) (flat_map f32_bytes old)), s').

(** Tensor.cpp:267-320 without memory mapping (try_mmap == false or fd == 0).
    Sizes are not reduced modulo 2^64; see [SizeWrap_Model]. *)
Definition deserialize (junk : nat -> f32) (t : tensor f32) (head_only : bool) (s : istream)
  : res (tensor f32 * istream) :=
  let '(samples, s1) := read_u64 s in
  let '(width, s2) := read_u64 s1 in
  let '(height, s3) := read_u64 s2 in
  let '(maps, s4) := read_u64 s3 in
  let t1 := resize junk t samples width height maps in
  let n := (samples * maps * width * height)%nat in
  if (0 <? n)%nat && negb head_only then
    l <- buffer t1 ;;
    let '(l', s5) := read_into l s4 in Ok (with_data t1 l', s5)
  else if head_only then Ok (t1, is_seek (4 * n) s4)
  else Ok (t1, s4).

(** Tensor.cpp:267-320 with memory mapping, as used by the stream classes, for a fresh
    tensor.  Mapping a range behind the end of the file makes later accesses fault; the
    model reports UB at once. *)
Definition deserialize_mmap (s : istream) : res (tensor f32 * istream) :=
  let '(samples, s1) := read_u64 s in
  let '(width, s2) := read_u64 s1 in
  let '(height, s3) := read_u64 s2 in
  let '(maps, s4) := read_u64 s3 in
  let n := (samples * maps * width * height)%nat in
  if (0 <? n)%nat then
    if (4 * n <=? length (rest s4))%nat then
      Ok (resize_prealloc samples width height maps (f32s_of_bytes (firstn (4 * n) (rest s4))), is_seek (4 * n) s4)
    else UB
  else Ok (empty_tensor, s4).

(** CompressedTensor.cpp:105-120. *)
Definition c_serialize (c : ctensor) : list byte :=
  u64_bytes (Z.of_nat (c_samples c)) ++ u64_bytes (Z.of_nat (c_width c)) ++
  u64_bytes (Z.of_nat (c_height c)) ++ u64_bytes (Z.of_nat (c_maps c)) ++
  u64_bytes (Z.of_nat (length (c_data c))) ++
  (if (0 <? c_elements c)%nat then c_data c else []).

(** CompressedTensor.cpp:122-170 for a fresh CompressedTensor, head_only == false.
    [mmap = false]: lines 141 and 166 (new memory holds [junkb]);
    [mmap = true]: lines 145-164. *)
Definition c_deserialize (junkb : nat -> byte) (mmap : bool) (s : istream) : res (ctensor * istream) :=
  let '(samples, s1) := read_u64 s in
  let '(width, s2) := read_u64 s1 in
  let '(height, s3) := read_u64 s2 in
  let '(maps, s4) := read_u64 s3 in
  let '(clen, s5) := read_u64 s4 in
  if (clen =? 0)%nat then Ok (c_empty, s5)
  else if mmap then
    if (clen <=? length (rest s5))%nat
    then Ok (c_resize samples width height maps (firstn clen (rest s5)), is_seek clen s5)
    else UB
  else
    let '(got, s6) := is_read clen s5 in
    Ok (c_resize samples width height maps (got ++ skipn (length got) (map junkb (seq 0 clen))), s6).

(** The loops [while (!input_stream.eof())] of FloatTensorStream.cpp:38-51 and
    CompressedTensorStream.cpp:44-61.  Every iteration either consumes at least 32 bytes
    or ends the stream, so [fuel] larger than the file length is never used up; running
    out of fuel is reported as UB. *)
Fixpoint load_loop {T} (parse : istream -> res (T * istream)) (count : T -> nat)
         (fuel : nat) (s : istream) (acc : list T) : res (list T) :=
  if eofbit s then Ok acc
  else match fuel with
       | O => UB
       | S fuel' =>
         r <- parse s ;;
         let '(t, s1) := r in
         if (count t =? 0)%nat then Ok acc
         else load_loop parse count fuel' (is_peek s1) (acc ++ [t])
       end.

(** FloatTensorStream.cpp:21-53. *)
Definition float_load (junk : nat -> f32) (mmap : bool) (file : list byte) : res (list (tensor f32)) :=
  load_loop (fun s => if mmap then deserialize_mmap s else deserialize junk empty_tensor false s)
            (fun t => elements t) (S (length file)) (open_file file) [].

(** CompressedTensorStream.h:23 *)
Definition cts_magic : Z := 14000778976521142860.  (* 0xC24CC24CC24CC24C *)

(** CompressedTensorStream.cpp:21-65: tensors_ and max_elements_. *)
Definition compressed_load (junkb : nat -> byte) (mmap : bool) (file : list byte)
  : res (list ctensor * nat) :=
  let '(got, s) := is_read 8 (open_file file) in
  if le_value got =? cts_magic then
    cs <- load_loop (c_deserialize junkb mmap) (fun c => c_elements c) (S (length file)) s [] ;;
    Ok (cs, fold_left Nat.max (map (fun c => c_elements c) cs) 0%nat)
  else Fatal.

(** TensorStream.cpp:46-63: which loader FromFile picks for an ordinary path. *)
Inductive file_kind := CompressedFile | FloatFile.
Definition detect (file : list byte) : file_kind :=
  if le_value (fst (is_read 8 (open_file file))) =? cts_magic then CompressedFile else FloatFile.

(** tools/compressTensorStream.cpp:42-67: reads float tensors, writes compressed ones. *)
Fixpoint compress_tool_loop (junk : nat -> f32) (fuel : nat) (t : tensor f32) (s : istream) (out : list byte)
  : res (list byte) :=
  if eofbit s then Ok out
  else match fuel with
       | O => UB
       | S fuel' =>
         r <- deserialize junk t false s ;;
         let '(t1, s1) := r in
         c <- c_compress t1 ;;
         t2 <- c_decompress c ;;
         if (elements t2 =? elements t1)%nat
         then compress_tool_loop junk fuel' t2 (is_peek s1) (out ++ c_serialize c)
         else Fatal
       end.
Definition compress_tool (junk : nat -> f32) (file : list byte) : res (list byte) :=
  compress_tool_loop junk (S (length file)) empty_tensor (open_file file) (u64_bytes cts_magic).

(** ** CopySample of the stream classes *)

(** FloatTensorStream.cpp:55-62. *)
Definition float_copy_sample (ts : list (tensor f32)) (source source_sample : nat)
           (target : tensor f32) (target_sample : nat) : res (tensor f32 * bool) :=
  match nth_error ts source with
  | Some t => copy_sample f32_zero t source_sample target target_sample
  | None => Ok (target, false)
  end.

(** Overwrites the beginning of [old] (from element [at_]) with [new]. *)
Definition splice (old : list f32) (at_ : nat) (new : list f32) : list f32 :=
  firstn at_ old ++ new ++ skipn (at_ + length new) old.

(** CompressedTensorStream.cpp:67-90.  [temp] is the memory of temp_tensor_
    (max_elements_ datums); the result includes its new contents.  In the ordinary path
    Tensor::CopySample only looks at the first [c_elements] datums of the scratch memory
    (its shape is that of the stored tensor), which the model makes explicit.  Writing
    more than the target's memory from the given offset is UB. *)
Definition compressed_copy_sample (cs : list ctensor) (temp : list f32) (source source_sample : nat)
           (target : tensor f32) (target_sample : nat) : res (tensor f32 * bool * list f32) :=
  match nth_error cs source with
  | None => Ok (target, false, temp)
  | Some c =>
    if (source_sample =? 0)%nat && (c_width c =? width target)%nat && (c_height c =? height target)%nat
       && (c_maps c =? maps target)%nat && (c_samples c =? 1)%nat then
      l <- buffer target ;;
      let at_ := offset target 0 0 0 target_sample in
      if (length l <? at_)%nat then UB else
      o <- decompress_data (4 * (length l - at_)) (c_data c) ;;
      if reported_elements o =? Z.of_nat (c_elements c)
      then Ok (with_data target (splice l at_ (f32s_of_bytes o)), true, temp)
      else Fatal
    else
      o <- decompress_data (4 * length temp) (c_data c) ;;
      if reported_elements o =? Z.of_nat (c_elements c) then
        let temp' := splice temp 0 (f32s_of_bytes o) in
        let view := mkTensor (c_samples c) (c_width c) (c_height c) (c_maps c) (c_elements c)
                             (Some (firstn (c_elements c) temp')) in
        r <- copy_sample f32_zero view source_sample target target_sample ;;
        Ok (r, temp')
      else Fatal
  end.

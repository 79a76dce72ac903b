(** Model of the conversions between 8/16-bit pixels and datums
    (include/cn24/util/Config.h) and of the pixel loops of src/util/PNGUtil.cpp and
    src/util/JPGUtil.cpp.  What libpng and libjpeg do with the pixel arrays (coding,
    decoding, file access) is not modelled. *)
From Verif Require Import Base Float32 FloatOps Tensor_Model.
Local Open Scope Z_scope.

(** The literal 0.003921569f: the float closest to 3921569 / 10^9. *)
Definition k_uchar : f32 := fdiv (f_of_Z 3921569) (f_of_Z 1000000000).
(** The literal 0.0000152590219f (Pixel_Proofs.k_ushort_closest). *)
Definition k_ushort : f32 := 931135616.

(** Config.h:38. *)
Definition datum_from_uchar (n : Z) : f32 := fmul k_uchar (f_of_Z n).
(** Config.h:39. *)
Definition datum_from_ushort (n : Z) : f32 := fmul k_ushort (f_of_Z n).
(** Config.h:40. *)
Definition uchar_from_datum (d : f32) : res Z := f_to_uchar (fmul (f_of_Z 255) d).
(** Config.h:41. *)
Definition mchar_from_datum (d : f32) : res Z := f_to_uchar (fadd (f_of_Z 127) (fmul (f_of_Z 127) d)).

Local Open Scope nat_scope.
Section Pixels.
Variable junk : nat -> f32.
Variable junkb : nat -> Z.

(** PNGUtil.cpp:128-144: [image] is what png_read_image stored. *)
Definition png_load8 (t : tensor f32) (w h channels : nat) (image : list Z) : res (tensor f32) :=
  let t1 := resize junk t 1 w h channels in
  run_stores t1 (for_ channels (fun channel => for_ h (fun y => for_ w (fun x =>
    [(offset t1 0 y channel 0 + x,
      p <- load image (w * channels * y + channels * x + channel) ;; Ok (datum_from_uchar p))])))).

(** PNGUtil.cpp:180-182: the 16-bit value at index [i] of the array (little endian machine),
    then the swap of its bytes. *)
Definition native16 (image : list Z) (i : nat) : res Z :=
  lo <- load image (2 * i) ;; hi <- load image (2 * i + 1) ;; Ok (lo + 256 * hi)%Z.
Definition swap16 (p : Z) : Z := Z.lor (Z.shiftr p 8) (Z.shiftl p 8 mod 2 ^ 16)%Z.
(** PNGUtil.cpp:170-187: [image] is the byte array behind image_data. *)
Definition png_load16 (t : tensor f32) (w h channels : nat) (image : list Z) : res (tensor f32) :=
  let t1 := resize junk t 1 w h channels in
  run_stores t1 (for_ channels (fun channel => for_ h (fun y => for_ w (fun x =>
    [(offset t1 0 y channel 0 + x,
      p <- native16 image (w * channels * y + channels * x + channel) ;; Ok (datum_from_ushort (swap16 p)))])))).

(** PNGUtil.cpp:203-211 and 247-260; None: refused. *)
Definition png_write (t : tensor f32) : res (option (list Z)) :=
  if negb (samples t =? 1) then Ok None
  else if negb (maps t =? 3) then Ok None
  else
    pixels <- exec (for_ (height t) (fun y => for_ (width t) (fun x => map (fun c =>
      (3 * width t * y + 3 * x + c, d <- get t x y c 0 ;; uchar_from_datum d)) [0; 1; 2])))
      (map junkb (seq 0 (3 * width t * height t))) ;;
    Ok (Some pixels).

(** JPGUtil.cpp:53-67: [lines] are the scan lines, read one at a time. *)
Definition jpg_line (w channels : nat) (st : tensor f32 * nat) (line : list Z) : res (tensor f32 * nat) :=
  let '(t, current) := st in
  t' <- run_stores t (for_ channels (fun c => for_ w (fun x =>
    [(offset t x current c 0, p <- load line (x * channels + c) ;; Ok (datum_from_uchar p))]))) ;;
  Ok (t', S current).
Definition jpg_load (t : tensor f32) (w h channels : nat) (lines : list (list Z)) : res (tensor f32) :=
  st <- foldm (jpg_line w channels) lines (resize junk t 1 w h channels, 0) ;; Ok (fst st).

(** JPGUtil.cpp:105-115: the scan lines handed to libjpeg; row_pointer is reused. *)
Definition jpg_row (t : tensor f32) (y : nat) (row : list Z) : res (list Z) :=
  exec (for_ (width t) (fun x => map (fun c =>
    (3 * x + c, d <- get t x y c 0 ;; uchar_from_datum d)) [0; 1; 2])) row.
Definition jpg_step (t : tensor f32) (st : list Z * list (list Z)) (y : nat) : res (list Z * list (list Z)) :=
  row <- jpg_row t y (fst st) ;; Ok (row, snd st ++ [row]).
Definition jpg_write (t : tensor f32) : res (list (list Z)) :=
  st <- foldm (jpg_step t) (seq 0 (height t)) (map junkb (seq 0 (3 * width t)), []) ;; Ok (snd st).
End Pixels.

(** PNGUtil.cpp:104-117 (8 bits per channel): the size of image_data and the start of each row in it, computed in
    png_uint_32. *)
Definition wrap32 (z : Z) : Z := (z mod 2 ^ 32)%Z.
Definition png_buffer_size (w h channels : Z) : Z := wrap32 (wrap32 (h * w) * channels).
Definition png_row_stride (w channels : Z) : Z := wrap32 (w * channels).
Definition png_row_start (w channels row : Z) : Z := wrap32 (row * png_row_stride w channels).

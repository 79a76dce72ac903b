(** Model of tools/makeTensorStream.cpp and tools/makeCompressedTensorStream.cpp: writing the images and
    labels of two list files as one file of tensors.

    As in List_Model, list files are lists of lines and image files are a function from names to tensors; a file
    that cannot be read ends the program.  The classes of the dataset are given by their colours (lines 52-65).
    The bytes are those of the output file when the program ends. *)
From Verif Require Import Base Float32 Bytes_Model Tensor_Model Codec_Model Stream_Model List_Model Single_Model.
Local Open Scope nat_scope.

Section Make.
Variable junk : nat -> f32.
Variable file : name -> tensor f32.

(** makeTensorStream.cpp:107-122 with [directRGB == "true"]: the first three maps of the label image. *)
Definition direct_label (rgb : tensor f32) : res (tensor f32) :=
  let lab := new_tensor junk 1 (width rgb) (height rgb) 3 in
  run_stores lab (for_ (height rgb) (fun y => for_ (width rgb) (fun x =>
    [(offset lab x y 0 0, get rgb x y 0 0); (offset lab x y 1 0, get rgb x y 1 0); (offset lab x y 2 0, get rgb x y 2 0)]))).

(** makeTensorStream.cpp:107-179; lines 123-179 are ListTensorStream.cpp:99-157. *)
Definition made_label (direct : bool) (colors : list Z) (rgb : tensor f32) : res (tensor f32) :=
  if direct then direct_label rgb else label_of junk single_class colors rgb.

(** makeTensorStream.cpp:88-183; [write] is what one tensor adds to the file. *)
Fixpoint make_lines (write : tensor f32 -> res (list byte)) (direct : bool) (colors : list Z) (idir ldir : name) (images labels : list name) (out : list byte)
  : res (list byte) :=
  match images with
  | [] => Ok out
  | i :: images' =>
    let l := hd [] labels in
    if (length i <? 5) || (length l <? 5) then Ok out
    else
      let it := file (idir ++ i) in
      let lt := file (ldir ++ l) in
      if negb (width it =? width lt) || negb (height it =? height lt) then make_lines write direct colors idir ldir images' (tl labels) out
      else
        lab <- made_label direct colors lt ;;
        a <- write it ;;
        b <- write lab ;;
        make_lines write direct colors idir ldir images' (tl labels) (out ++ a ++ b)
  end.

(** Lines 37-85; None: the list file cannot be opened. *)
Definition make (write : tensor f32 -> res (list byte)) (header : list byte) (direct : bool) (colors : list Z)
           (images : option (list name)) (idir : name) (labels : option (list name)) (ldir : name) : res (list byte) :=
  idir' <- directory idir ;;
  ldir' <- directory ldir ;;
  match images, labels with
  | Some il, Some ll => make_lines write direct colors idir' ldir' il ll header
  | _, _ => Fatal
  end.

(** makeTensorStream.cpp:181-182. *)
Definition make_stream := make (fun t => Ok (serialize t)) [].
(** makeCompressedTensorStream.cpp:88-89 and 185-191. *)
Definition make_compressed_stream := make (fun t => c <- c_compress t ;; Ok (c_serialize c)) (u64_bytes cts_magic).
End Make.

(** Model of class Conv::ListTensorStream (src/util/ListTensorStream.cpp).  Files are given
    by a function from names to tensors; names and lines are lists of characters. *)
From Verif Require Import Base Float32 FloatOps Tensor_Model Pixel_Model.

Definition name := list nat.

(** include/cn24/util/ListTensorStream.h: ListTensorMetadata. *)
Record metadata : Type := mkMeta { md_filename : name; md_width : nat; md_height : nat; md_maps : nat; md_samples : nat }.

(** ListTensorStream.cpp:172-176: [std::string::back] of an empty string is undefined. *)
Definition slash : nat := 47.
Definition directory (d : name) : res name :=
  match rev d with [] => UB | c :: _ => Ok (if c =? slash then d else d ++ [slash]) end.

Section List_.
Variable junk : nat -> f32.
(** Tensor(filename). *)
Variable file : name -> tensor f32.
(** ListTensorStream.cpp:124-127: the value for a single class. *)
Variable one_class : f32 -> f32 -> f32 -> Z -> f32.

(** ListTensorStream.cpp:194-222: one line of both lists after the other; a list of lines is
    what getline delivers, and missing label lines are empty. *)
Fixpoint load_lines (n_classes : nat) (idir ldir : name) (images labels : list name) (tensors : list metadata) (count : nat) : list metadata * nat :=
  match images with
  | [] => (tensors, count)
  | i :: images' =>
    let l := hd [] labels in
    if (length i <? 5) || (length l <? 5) then (tensors, count)
    else
      let it := file (idir ++ i) in
      let lt := file (ldir ++ l) in
      if negb (width it =? width lt) || negb (height it =? height lt) then load_lines n_classes idir ldir images' (tl labels) tensors count
      else load_lines n_classes idir ldir images' (tl labels)
             (tensors ++ [mkMeta (idir ++ i) (width it) (height it) (maps it) (samples it);
                          mkMeta (ldir ++ l) (width lt) (height lt) n_classes (samples lt)]) (count + 2)
  end.

(** ListTensorStream.cpp:169-225; None: the list file cannot be opened. *)
Definition load_files (n_classes : nat) (images : option (list name)) (idir : name) (labels : option (list name)) (ldir : name)
           (tensors : list metadata) : res (list metadata * nat) :=
  idir' <- directory idir ;;
  ldir' <- directory ldir ;;
  match images, labels with
  | Some il, Some ll => Ok (load_lines n_classes idir' ldir' il ll tensors 0)
  | _, _ => Fatal
  end.

(** ListTensorStream.cpp:94-96. *)
Definition channel (color : Z) (c : nat) : Z := (Z.shiftr color (8 * (2 - Z.of_nat c)) mod 256)%Z.

(** ListTensorStream.cpp:139-149: the three colour values of a pixel. *)
Definition pixel_rgb (rgb : tensor f32) (x y : nat) : res (f32 * f32 * f32) :=
  if maps rgb =? 3 then
    lr <- get rgb x y 0 0 ;; lg <- get rgb x y 1 0 ;; lb <- get rgb x y 2 0 ;; Ok (lr, lg, lb)
  else if maps rgb =? 1 then lr <- get rgb x y 0 0 ;; Ok (lr, lr, lr)
  else Fatal.

Definition matches (color : Z) (p : f32 * f32 * f32) : bool :=
  let '(lr, lg, lb) := p in
  feq lr (datum_from_uchar (channel color 0)) && feq lg (datum_from_uchar (channel color 1)) && feq lb (datum_from_uchar (channel color 2)).

(** ListTensorStream.cpp:136-155: one pixel, several classes. *)
Definition label_pixel (colors : list Z) (rgb : tensor f32) (lab : tensor f32) (y x : nat) : res (tensor f32) :=
  p <- pixel_rgb rgb x y ;;
  run_stores lab (flat_map (fun '(c, color) => if matches color p then [(offset lab x y c 0, Ok f32_one)] else [])
                           (combine (seq 0 (length colors)) colors)).
(** ListTensorStream.cpp:109-129: one pixel, one class. *)
Definition class_pixel (color : Z) (rgb : tensor f32) (lab : tensor f32) (y x : nat) : res (tensor f32) :=
  p <- pixel_rgb rgb x y ;;
  let '(lr, lg, lb) := p in
  run_stores lab [(offset lab x y 0 0, Ok (one_class lr lg lb color))].
Definition pixel_loop (body : tensor f32 -> nat -> nat -> res (tensor f32)) (w h : nat) (lab : tensor f32) : res (tensor f32) :=
  foldm (fun t y => foldm (fun t' x => body t' y x) (seq 0 w) t) (seq 0 h) lab.

(** ListTensorStream.cpp:99-157. *)
Definition label_of (colors : list Z) (rgb : tensor f32) : res (tensor f32) :=
  let lab := new_tensor junk 1 (width rgb) (height rgb) (length colors) in
  match colors with
  | [color] => pixel_loop (class_pixel color rgb) (width rgb) (height rgb) lab
  | _ => cleared <- clear lab f32_zero None ;; pixel_loop (label_pixel colors rgb) (width rgb) (height rgb) cleared
  end.

(** ListTensorStream.cpp:76-167.  The paths through line 158 and 162 end without a return
    statement: the call has no result (None); the effect on the target is kept here, although
    the language makes the whole call undefined. *)
Definition list_copy_sample (tensors : list metadata) (colors : list Z) (source source_sample : nat) (target : tensor f32) (target_sample : nat)
  : res (tensor f32 * option bool) :=
  match nth_error tensors source with
  | None => Ok (target, Some false)
  | Some md =>
    let rgb := file (md_filename md) in
    src <- (if Nat.odd source then label_of colors rgb else Ok rgb) ;;
    r <- copy_sample f32_zero src source_sample target target_sample ;;
    Ok (fst r, None)
  end.
End List_.

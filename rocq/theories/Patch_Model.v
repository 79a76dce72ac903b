(** Model of class Conv::TensorStreamPatchDataset (src/util/TensorStreamPatchDataset.cpp).

    The tensors of the two streams are given as lists (reading them is modelled in
    Stream_Model); the 32-bit and 64-bit unsigned arithmetic of sample numbers is explicit.
    Products, quotients and the error function on datums are parameters. *)
From Verif Require Import Base Float32 Tensor_Model Codec_Model Stream_Model DatasetInput_Model Dataset_Model.
Local Open Scope Z_scope.

Definition u64 (z : Z) : Z := z mod 2 ^ 64.

(** The images (even positions) and labels (odd positions) of a stream of alternating tensors. *)
Fixpoint split_pairs {A} (l : list A) : list (A * A) :=
  match l with a :: b :: t => (a, b) :: split_pairs t | _ => [] end.

Record patch_dataset : Type := mkPatch {
  pd_images : list (tensor f32);
  pd_labels : list (tensor f32);
  pd_last : list Z;
  pd_count_training : Z;
  pd_count_testing : Z;
  pd_px : nat;
  pd_py : nat;
  pd_input_maps : nat;
  pd_label_maps : nat;
  pd_class_weights : list f32 }.

(** TensorStreamPatchDataset.cpp:125-126 and the same expressions below. *)
Definition inner (size : nat) (patch : nat) : Z := u32 (Z.of_nat size - u32 (Z.of_nat patch - 1)).
Definition inner_count (px py : nat) (t : tensor f32) : Z := u32 (inner (width t) px * inner (height t) py).

(** TensorStreamPatchDataset.cpp:128-131 and 146-149. *)
Fixpoint running_sums (before : Z) (counts : list Z) : list Z :=
  match counts with [] => [] | c :: t => u32 (before + c) :: running_sums (u32 (before + c)) t end.
(** TensorStreamPatchDataset.cpp:133 and 151. *)
Definition sum_u32 (counts : list Z) : Z := fold_left (fun s c => u32 (s + c)) counts 0.

(** TensorStreamPatchDataset.cpp:35-160. *)
Definition new_patch_dataset (training testing : list (tensor f32)) (classes names colors : nat) (weights : list f32) (px py : nat) : res patch_dataset :=
  if negb (classes =? names)%nat || negb (classes =? colors)%nat then Fatal
  else if Nat.odd (length training) then Fatal
  else if Nat.odd (length testing) then Fatal
  else
    let pairs := split_pairs training ++ split_pairs testing in
    let images := map fst pairs in
    let labels := map snd pairs in
    Ok (mkPatch images labels (running_sums 0 (map (inner_count px py) images))
          (sum_u32 (map (fun p => inner_count px py (fst p)) (split_pairs training)))
          (sum_u32 (map (fun p => inner_count px py (fst p)) (split_pairs testing)))
          px py (maps (nth 0 images empty_tensor)) (maps (nth 0 labels empty_tensor)) weights).

(** TensorStreamPatchDataset.cpp:217-218: the first image whose running sum exceeds the index. *)
Fixpoint find_image (last : list Z) (index : Z) : nat :=
  match last with [] => 0%nat | l :: t => if l <=? index then S (find_image t index) else 0%nat end.

Section Sample.
Variable position : nat -> nat -> f32.
Variable error_function : nat -> nat -> nat -> nat -> f32.
Variable mul : f32 -> f32 -> f32.

(** TensorStreamPatchDataset.cpp:214-231: image, column, row.  Reading last_sample_[tensors_]
    is a read behind the array (UB), so the "return false" is never reached. *)
Definition locate (d : patch_dataset) (index : Z) : res (option (nat * Z * Z)) :=
  let t := find_image (pd_last d) index in
  last <- load (pd_last d) t ;;
  if last <=? index then Ok None
  else
    img <- load (pd_images d) t ;;
    let first := u32 (last - inner (width img) (pd_px d) * inner (height img) (pd_py d)) in
    let off := u32 (index - first) in
    let iw := u64 (Z.of_nat (width img) - u32 (Z.of_nat (pd_px d) - 1)) in
    if iw =? 0 then UB
    else let row := u32 (off / iw) in Ok (Some (t, u32 (off - row * iw), row)).

(** TensorStreamPatchDataset.cpp:233-240. *)
Definition patch_stores (d : patch_dataset) (img target : tensor f32) (sample col row : nat) : list (nat * res f32) :=
  for_ (pd_input_maps d) (fun m => for_ (pd_py d) (fun y => for_ (pd_px d) (fun i =>
    [((offset target 0 y m sample + i)%nat, l <- buffer img ;; load l (offset img col (row + y) m 0 + i)%nat)]))).
(** TensorStreamPatchDataset.cpp:242-246. *)
Definition label_stores (d : patch_dataset) (lab target : tensor f32) (sample col row : nat) : list (nat * res f32) :=
  for_ (pd_label_maps d) (fun m =>
    [(offset target 0 0 m sample, get lab (col + pd_px d / 2) (row + pd_py d / 2) m 0)]).
(** TensorStreamPatchDataset.cpp:248-257. *)
Definition patch_position (c size : nat) : f32 := if (1 <? size)%nat then position c size else f32_zero.

(** TensorStreamPatchDataset.cpp:212-266 and 273-327 after the index is known. *)
Definition get_patch (d : patch_dataset) (o : outputs f32) (sample : nat) (index : Z) : res (outputs f32 * bool) :=
  place <- locate d index ;;
  match place with
  | None => Ok (o, false)
  | Some (t, zc, zr) =>
    let col := Z.to_nat zc in let row := Z.to_nat zr in
    img <- load (pd_images d) t ;;
    lab <- load (pd_labels d) t ;;
    data' <- run_stores (o_data o) (patch_stores d img (o_data o) sample col row) ;;
    label' <- run_stores (o_label o) (label_stores d lab (o_label o) sample col row) ;;
    helper' <- run_stores (o_helper o)
      [(offset (o_helper o) 0 0 0 sample, Ok (patch_position col (width img)));
       (offset (o_helper o) 0 0 1 sample, Ok (patch_position row (height img)))] ;;
    c <- pixel_maximum fgt f32_lowest label' 0 0 sample ;;
    cw <- load (pd_class_weights d) c ;;
    weight' <- run_stores (o_weight o)
      [(offset (o_weight o) 0 0 0 sample,
        Ok (mul (error_function (col + pd_px d / 2)%nat (row + pd_py d / 2)%nat (width img) (height img)) cw))] ;;
    Ok (mkOut data' label' helper' weight', true)
  end.

(** TensorStreamPatchDataset.cpp:210-268. *)
Definition patch_training_sample (d : patch_dataset) (o : outputs f32) (sample : nat) (index : Z) : res (outputs f32 * bool) :=
  if index <? pd_count_training d then get_patch d o sample index else Ok (o, false).
(** TensorStreamPatchDataset.cpp:270-329; line 272 adds the number of test samples. *)
Definition patch_testing_sample (d : patch_dataset) (o : outputs f32) (sample : nat) (index : Z) : res (outputs f32 * bool) :=
  if index <? pd_count_testing d then get_patch d o sample (u32 (index + pd_count_testing d)) else Ok (o, false).
End Sample.

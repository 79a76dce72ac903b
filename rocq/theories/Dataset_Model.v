(** Model of class Conv::TensorStreamDataset (src/util/TensorStreamDataset.cpp) over streams
    that hold plain tensors (FloatTensorStream; C14 shows that compressed streams answer
    CopySample alike).

    Image coordinates and tensor counts are unbounded; the 32-bit unsigned arithmetic of the
    reported dimensions is explicit.  Products, quotients and the error function on datums
    are parameters.  The error cache (lines 137-143) is never read and left out.
    CreateFromConfiguration is in Config_Model. *)
From Verif Require Import Base Float32 Tensor_Model Codec_Model Stream_Model DatasetInput_Model.
Local Open Scope Z_scope.

Definition u32 (z : Z) : Z := z mod 2 ^ 32.

(** FloatTensorStream.h:33-36, CompressedTensorStream.h:37-40, ListTensorStream.cpp:21-47: zero for tensors that are not there. *)
Definition stream_width (s : list (tensor f32)) (i : nat) : nat := match nth_error s i with Some t => width t | None => 0%nat end.
Definition stream_height (s : list (tensor f32)) (i : nat) : nat := match nth_error s i with Some t => height t | None => 0%nat end.
Definition stream_maps (s : list (tensor f32)) (i : nat) : nat := match nth_error s i with Some t => maps t | None => 0%nat end.

(** TensorStreamDataset.cpp:83-84, 86-87, 91-92, 94-95: [if (v > max) max = v], a 64-bit
    comparison and a 32-bit assignment. *)
Definition take_larger (m : Z) (v : nat) : Z := if m <? Z.of_nat v then u32 (Z.of_nat v) else m.

(** TensorStreamDataset.cpp:82-96, for width or height: [dim] is the stream's function. *)
Definition largest (dim : list (tensor f32) -> nat -> nat) (training testing : list (tensor f32)) : Z :=
  let n_train := (length training / 2)%nat in
  let n_all := ((length testing + length training) / 2)%nat in
  let m := fold_left (fun m t => take_larger m (dim training (2 * t)%nat)) (seq 0 n_train) 0 in
  fold_left (fun m t => take_larger m (dim testing (2 * t)%nat)) (range n_train n_all) m.

(** TensorStreamDataset.cpp:98-126, for width or height. *)
Definition round_step (v k : Z) : Z := if Z.land v k =? 0 then v else u32 (v + k).
Definition round_dim (v : Z) : Z := fold_left round_step [1; 2; 4; 8; 16; 32] v.

Record dataset : Type := mkDataset {
  ds_training : list (tensor f32);
  ds_testing : list (tensor f32);
  ds_width : nat;
  ds_height : nat;
  ds_input_maps : nat;
  ds_label_maps : nat;
  ds_class_weights : list f32 }.

(** TensorStreamDataset.cpp:30-146.  [names] and [colors] are the lengths of the lists. *)
Definition new_dataset (training testing : list (tensor f32)) (classes names colors : nat) (weights : list f32) : res dataset :=
  if negb (classes =? names)%nat || negb (classes =? colors)%nat then Fatal
  else if Nat.odd (length training) then Fatal
  else if Nat.odd (length testing) then Fatal
  else
    let w := Z.to_nat (round_dim (largest stream_width training testing)) in
    let h := Z.to_nat (round_dim (largest stream_height training testing)) in
    let s := if (0 <? length training)%nat then training else testing in
    Ok (mkDataset training testing w h (stream_maps s 0) (stream_maps s 1) weights).

Section Sample.
(** ((datum)a) / ((datum)b - 1). *)
Variable position : nat -> nat -> f32.
Variable error_function : nat -> nat -> nat -> nat -> f32.
Variable mul : f32 -> f32 -> f32.

(** TensorStreamDataset.cpp:205-222 and 251-268. *)
Definition helper_stores (d : dataset) (helper : tensor f32) (sample dw dh : nat) : list (nat * res f32) :=
  for_ dh (fun y =>
    for_ dw (fun x => [(offset helper x y 0 sample, Ok (position x dw)); (offset helper x y 1 sample, Ok (position y dh))]) ++
    for_from dw (ds_width d) (fun x => [(offset helper x y 0 sample, Ok f32_zero); (offset helper x y 1 sample, Ok f32_zero)])) ++
  for_from dh (ds_height d) (fun y =>
    for_ (ds_width d) (fun x => [(offset helper x y 0 sample, Ok f32_zero); (offset helper x y 1 sample, Ok f32_zero)])).

(** TensorStreamDataset.cpp:231-235 and 277-281.  The iterations of the outer loop run in
    parallel; they store to different places. *)
Definition weight_stores (d : dataset) (label weight : tensor f32) (sample dw dh : nat) : list (nat * res f32) :=
  for_ dh (fun y => for_ dw (fun x =>
    [(offset weight x y 0 sample,
      c <- pixel_maximum fgt f32_lowest label x y sample ;;
      cw <- load (ds_class_weights d) c ;;
      Ok (mul (error_function x y dw dh) cw))])).

(** TensorStreamDataset.cpp:197-239 (training) and 243-285 (testing), which differ in the
    stream only. *)
Definition get_sample (d : dataset) (stream : list (tensor f32)) (o : outputs f32) (sample index : nat) : res (outputs f32 * bool) :=
  if (index <? length stream / 2)%nat then
    r1 <- float_copy_sample stream (2 * index) 0 (o_data o) sample ;;
    let '(data', ok1) := r1 in
    r2 <- float_copy_sample stream (2 * index + 1) 0 (o_label o) sample ;;
    let '(label', ok2) := r2 in
    let dw := stream_width stream (2 * index) in
    let dh := stream_height stream (2 * index) in
    helper' <- run_stores (o_helper o) (helper_stores d (o_helper o) sample dw dh) ;;
    cleared <- clear (o_weight o) f32_zero (Some sample) ;;
    weight' <- run_stores cleared (weight_stores d label' cleared sample dw dh) ;;
    Ok (mkOut data' label' helper' weight', ok1 && ok2)
  else Ok (o, false).

Definition get_training_sample (d : dataset) := get_sample d (ds_training d).
Definition get_testing_sample (d : dataset) := get_sample d (ds_testing d).
End Sample.

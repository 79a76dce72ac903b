(** C66: the sizes of tensors. *)
From Coq Require Import ZArith.
From Verif Require Import Base BaseFacts Tensor_Model Tensor_Spec Tensor_Proofs SizeWrap_Model.
Local Open Scope nat_scope.

Lemma wrap_mul_l a b : wrap (wrap a * b) = wrap (a * b).
Proof. unfold wrap. now rewrite Z.mul_mod_idemp_l by lia. Qed.
Lemma wrap_add_l a b : wrap (wrap a + b) = wrap (a + b).
Proof. unfold wrap. now rewrite Z.add_mod_idemp_l by lia. Qed.
Lemma wrap_add_r a b : wrap (a + wrap b) = wrap (a + b).
Proof. unfold wrap. now rewrite Z.add_mod_idemp_r by lia. Qed.
Lemma wrap_add a b : wrap (wrap a + wrap b) = wrap (a + b).
Proof. unfold wrap. now rewrite <- Z.add_mod by lia. Qed.
Lemma wrap3 a b c d : wrap (wrap (wrap (a * b) * c) * d) = wrap (a * b * c * d).
Proof. rewrite wrap_mul_l, <- Z.mul_assoc, wrap_mul_l. f_equal. ring. Qed.
Lemma elements64_mod s w h m : elements64 s w h m = wrap (s * m * w * h).
Proof. apply wrap3. Qed.
Lemma wrap_small z : (0 <= z < 2 ^ 64)%Z -> wrap z = z.
Proof. apply Z.mod_small. Qed.

(** The shape part of a tensor of the unbounded model. *)
Definition shape_of {D} (t : tensor D) : shape64 :=
  mkShape64 (Z.of_nat (samples t)) (Z.of_nat (width t)) (Z.of_nat (height t)) (Z.of_nat (maps t)) (Z.of_nat (elements t)) (option_map (fun l => Z.of_nat (length l)) (data t)).
(** The number of elements of a shape is a std::size_t. *)
Definition size_fits (s w h m : nat) : Prop := (Z.of_nat (s * m * w * h) < 2 ^ 64)%Z.

Lemma elements64_fits s w h m : size_fits s w h m -> elements64 (Z.of_nat s) (Z.of_nat w) (Z.of_nat h) (Z.of_nat m) = Z.of_nat (s * m * w * h).
Proof. unfold size_fits. intros F. rewrite elements64_mod, <- !Nat2Z.inj_mul. apply wrap_small. lia. Qed.

(** As long as the number of elements fits, resizing in std::size_t and in the unbounded model give the same shape and the same amount
    of memory, even if parts of the product do not fit. *)
Theorem C66_resize {D} (junk : nat -> D) (t : tensor D) s w h m : wf t -> size_fits s w h m ->
  resize64 (shape_of t) (Z.of_nat s) (Z.of_nat w) (Z.of_nat h) (Z.of_nat m) = shape_of (resize junk t s w h m).
Proof.
  intros W F. unfold resize64, reshape64, resize, reshape. destruct t as [ts tw th tm te [l|]]; cbn [shape_of z_memory option_map data z_elements elements samples width height maps].
  - rewrite (elements64_fits _ _ _ _ F). destruct (Nat.eqb_spec te (s * m * w * h)) as [E|N].
    + destruct (Z.eqb_spec (Z.of_nat te) (Z.of_nat (s * m * w * h))); [|lia]. reflexivity.
    + destruct (Z.eqb_spec (Z.of_nat te) (Z.of_nat (s * m * w * h))); [lia|].
      destruct (Nat.eqb_spec (s * m * w * h) 0) as [Z0|Z0]; destruct (Z.eqb_spec (Z.of_nat (s * m * w * h)) 0); try lia; [reflexivity|].
      unfold shape_of. cbn [data option_map samples width height maps elements]. now rewrite map_length, seq_length.
  - rewrite (elements64_fits _ _ _ _ F). destruct (Nat.eqb_spec (s * m * w * h) 0) as [Z0|Z0]; destruct (Z.eqb_spec (Z.of_nat (s * m * w * h)) 0); try lia; [reflexivity|].
    unfold shape_of. cbn [data option_map samples width height maps elements]. now rewrite map_length, seq_length.
Qed.
Theorem C66_reshape {D} (t : tensor D) s w h m : wf t -> size_fits s w h m ->
  reshape64 (shape_of t) (Z.of_nat s) (Z.of_nat w) (Z.of_nat h) (Z.of_nat m) = (shape_of (fst (reshape t s w h m)), snd (reshape t s w h m)).
Proof.
  intros W F. unfold reshape64, reshape. destruct t as [ts tw th tm te [l|]]; cbn [shape_of z_memory option_map data z_elements elements fst snd]; [|reflexivity].
  rewrite (elements64_fits _ _ _ _ F). destruct (Nat.eqb_spec te (s * m * w * h)) as [E|N]; destruct (Z.eqb_spec (Z.of_nat te) (Z.of_nat (s * m * w * h))); try lia; reflexivity.
Qed.
(** Positions inside the tensor have the offset of the unbounded model, which lies in its memory. *)
Theorem C66_offset {D} (t : tensor D) x y m s : wf t -> (Z.of_nat (elements t) < 2 ^ 64)%Z -> valid_pos t x y m s ->
  offset64 (shape_of t) (Z.of_nat x) (Z.of_nat y) (Z.of_nat m) (Z.of_nat s) = Z.of_nat (offset t x y m s) /\
  exists n, z_memory (shape_of t) = Some n /\ (0 <= Z.of_nat (offset t x y m s) < n)%Z.
Proof.
  intros W F V. pose proof (offset_lt t x y m s V) as L.
  split.
  - unfold offset64, mul64, add64. cbn [shape_of z_maps z_width z_height]. rewrite wrap3, (wrap_mul_l (Z.of_nat m * _)).
    set (a := (Z.of_nat s * _ * _ * _)%Z). set (b := (Z.of_nat m * _ * _)%Z). set (c := (Z.of_nat y * _)%Z).
    assert (E : Z.of_nat (offset t x y m s) = (a + b + c + Z.of_nat x)%Z) by (unfold offset, a, b, c; rewrite !Nat2Z.inj_add, !Nat2Z.inj_mul; reflexivity).
    rewrite E, (wrap_add a b), wrap_add, wrap_add_l. apply wrap_small. rewrite <- E. destruct W. lia.
  - destruct t as [ts tw th tm te [l|]]; cbn [shape_of z_memory option_map data elements] in *.
    + eexists. split; [reflexivity|]. destruct W as [W1 W2]. cbn in *. lia.
    + destruct W as [W1 W2]. cbn in *. lia.
Qed.
(** Finding: the size in the header of a file is not checked.  A header can promise 2^62 + 1 samples of four elements although the memory
    holds four elements: the first element of the second sample, which the shape allows, lies outside.  Reshape accepts such a shape too. *)
Theorem C66_wrap_refuted : exists s w h m : Z, (0 <= s < 2 ^ 64 /\ 0 <= w < 2 ^ 64 /\ 0 <= h < 2 ^ 64 /\ 0 <= m < 2 ^ 64)%Z /\
  let t := resize64 no_shape s w h m in
  z_samples t = s /\ (1 < s)%Z /\ z_width t = 4%Z /\ z_memory t = Some 4%Z /\ offset64 t 0 0 0 1 = 4%Z /\
  snd (reshape64 (resize64 no_shape 1 4 1 1) s w h m) = true.
Proof. exists (2 ^ 62 + 1)%Z, 4%Z, 1%Z, 1%Z. vm_compute. repeat split; congruence. Qed.

(** A tensor that meets the hypotheses although a part of the product of another shape does not fit. *)
Example sizes_example : exists t : tensor nat, t = new_tensor (fun n => n) 2 3 4 5 /\ wf t /\ valid_pos t 2 3 4 1 /\ shape_of t = mkShape64 2 3 4 5 120 (Some 120%Z).
Proof.
  eexists. split; [reflexivity|]. split; [apply wf_resize; split; [reflexivity|cbn; lia]|]. split; [unfold valid_pos; cbn; lia|vm_compute; reflexivity].
Qed.

Print Assumptions C66_resize.
Print Assumptions C66_reshape.
Print Assumptions C66_offset.
Print Assumptions C66_wrap_refuted.

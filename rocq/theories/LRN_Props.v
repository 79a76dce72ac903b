(** C57: local response normalization. *)
From Coq Require Import Reals Lra.
From Verif Require Import Base BaseFacts Tensor_Model Tensor_Spec Tensor_Proofs Num RealNum Math_Model Math_Spec Math_Proofs
  Conv_Proofs Conv_Props LRN_Model LRN_Spec LRN_Proofs LRN_Grad.

(** The positions summed up are exactly the neighbours, each once. *)
Theorem C57_neighbourhood : forall method size w h mm x y m p, 0 < size ->
  (In p (lrn_region method size w h mm x y m) <-> neighbour method size w h mm x y m p) /\ NoDup (lrn_region method size w h mm x y m).
Proof. intros. split; [now apply region_spec|apply region_nodup]. Qed.
Print Assumptions C57_neighbourhood.

(** Images as high as wide, any arithmetic: every output element is the normalized input. *)
Theorem C57_forward : forall {D} (K : num D) scale power ndiv method size (input sums output : tensor D) f n ss mm, 0 < size ->
  wf input -> wf sums -> wf output -> has_shape input ss n n mm -> same_shape sums input -> same_shape output input -> contents input f ->
  exists sums' output', lrn_ff K scale power ndiv method size input sums output = Ok (sums', output') /\
    same_shape output' output /\
    contents output' (fun x y m s => normalized K scale power ndiv f (lrn_region method size n n mm x y m) x y m s).
Proof.
  intros D K scale power ndiv method size input sums output f n ss mm Hs Wi Ws Wo (I1 & I2 & I3 & I4) Ss So Ci.
  destruct (lrn_ff_spec K scale power ndiv method size input sums output f Hs Wi Ws Wo Ss So Ci) as (s' & o' & E & _ & _ & _ & S2 & A & _); [lia|].
  exists s', o'. split; [exact E|]. split; [exact S2|]. intros x y m s Hv.
  assert (V : valid_pos input x y m s) by (apply (same_shape_valid _ _ _ _ _ _ (same_shape_trans _ _ _ S2 So)), Hv).
  assert (Hx : x < height input) by (destruct V; lia). destruct (A x y m s V Hx) as [_ H]. now rewrite H, I2, I3, I4.
Qed.
Print Assumptions C57_forward.

(** In exact arithmetic, with a coefficient alpha that is not negative: after the backward pass the input's gradient is the derivative
    of the outputs weighted with their gradients. *)
Theorem C57_backward : forall alpha beta method size (input sums output output_delta input_delta : tensor R) f dl n mm ss,
  (0 <= alpha)%R -> 0 < size ->
  wf input -> wf sums -> wf output -> wf output_delta -> wf input_delta ->
  has_shape input ss n n mm -> same_shape sums input -> same_shape output input -> same_shape output_delta input -> same_shape input_delta input ->
  contents input f -> contents output_delta dl ->
  let scale k := (alpha / INR k)%R in
  let out g x y m s := normalized R_num scale (fun z => Rpower z beta) Rdiv g (lrn_region method size n n mm x y m) x y m s in
  exists sums' output' input' grad,
    lrn_ff R_num scale (fun z => Rpower z beta) Rdiv method size input sums output = Ok (sums', output') /\
    lrn_bp R_num scale (fun z => Rpower z beta) (fun z => Rpower z (beta - 1)) Rdiv 2%R beta method size input sums' output_delta input_delta = Ok input' /\
    contents output' (out f) /\ same_shape input' input_delta /\ contents input' grad /\
    forall jx jy jm js, valid_pos input jx jy jm js ->
      derivable_pt_lim (fun v => tensor_sum R_num ss n n mm (fun x y m s => (dl x y m s * out (set_elt f jx jy jm js v) x y m s)%R))
        (f jx jy jm js) (grad jx jy jm js).
Proof.
  intros alpha beta method size input sums output od id f dl n mm ss Ha Hs Wi Ws Wo Wod Wid Hi S1 S2 S3 S4 C1 C2 scale out.
  destruct (lrn_gradient alpha beta Ha method size input sums output od id f dl n mm ss) as (s' & o' & i' & E1 & E2 & _ & Co & Sb & grad & Cg & Hd); auto.
  exists s', o', i', grad. auto 10.
Qed.
Print Assumptions C57_backward.

(** Finding: for images wider than high the columns beyond the height are not computed: the
    output keeps what was there before ... *)
Theorem C57_wide_refuted : forall {D} (K : num D) scale power ndiv method size (input sums output : tensor D) f x y m s, 0 < size ->
  wf input -> wf sums -> wf output -> same_shape sums input -> same_shape output input -> contents input f ->
  valid_pos input x y m s -> height input <= x ->
  exists sums' output', lrn_ff K scale power ndiv method size input sums output = Ok (sums', output') /\
    at_pos output' x y m s = at_pos output x y m s.
Proof.
  intros D K scale power ndiv method size input sums output f x y m s Hs Wi Ws Wo Ss So Ci Hv Hx.
  destruct (lrn_ff_spec K scale power ndiv method size input sums output f Hs Wi Ws Wo Ss So Ci) as (s' & o' & E & _ & _ & _ & S2 & _ & A); [destruct Hv; lia|].
  exists s', o'. auto.
Qed.
Print Assumptions C57_wide_refuted.

(** ... and for every image higher than wide it runs over the end of its memory. *)
Theorem C57_tall_refuted : forall {D} (K : num D) scale power ndiv method size (input sums output : tensor D),
  wf input -> wf sums -> same_shape sums input -> width input < height input -> 0 < maps input -> 0 < samples input ->
  lrn_ff K scale power ndiv method size input sums output = UB.
Proof. intros. now apply lrn_tall_ub. Qed.
Print Assumptions C57_tall_refuted.

(** A 2 by 2 image, window 3, with integer "division" and the identity as power: 1 + 1 * 30 = 31. *)
Example C57_case : exists s o,
  lrn_ff Z_num (fun _ => 1%Z) (fun z => z) (fun a b => (100 * a / b)%Z) Within 3 (zt 1 2 2 1 [1; 2; 3; 4]%Z) (zt 1 2 2 1 [0; 0; 0; 0]%Z) (zt 1 2 2 1 [0; 0; 0; 0]%Z) = Ok (s, o) /\
  o = zt 1 2 2 1 [3; 6; 9; 12]%Z.
Proof. eexists. eexists. split; vm_compute; reflexivity. Qed.

Example C57_case_across : exists s o,
  lrn_ff Z_num (fun _ => 1%Z) (fun z => z) (fun a b => (100 * a / b)%Z) Across 2 (zt 1 1 1 3 [1; 2; 3]%Z) (zt 1 1 1 3 [0; 0; 0]%Z) (zt 1 1 1 3 [0; 0; 0]%Z) = Ok (s, o) /\
  o = zt 1 1 1 3 [16; 14; 30]%Z.
Proof. eexists. eexists. split; vm_compute; reflexivity. Qed.

(** An image the hypotheses of [C57_wide_refuted] and [C57_tall_refuted] allow. *)
Example C57_wide_case : exists s o,
  lrn_ff Z_num (fun _ => 1%Z) (fun z => z) (fun a b => (100 * a / b)%Z) Within 1 (zt 1 2 1 1 [1; 2]%Z) (zt 1 2 1 1 [7; 7]%Z) (zt 1 2 1 1 [7; 7]%Z) = Ok (s, o) /\
  o = zt 1 2 1 1 [50; 7]%Z /\
  lrn_ff Z_num (fun _ => 1%Z) (fun z => z) (fun a b => (100 * a / b)%Z) Within 1 (zt 1 1 2 1 [1; 2]%Z) (zt 1 1 2 1 [7; 7]%Z) (zt 1 1 2 1 [7; 7]%Z) = UB.
Proof. eexists. eexists. split; [|split]; vm_compute; reflexivity. Qed.

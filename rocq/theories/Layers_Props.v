(** C41: the layers that move data; the layers built on up- and downsampling (C38). *)
From Verif Require Import Base BaseFacts Float32 FloatOps Tensor_Model Tensor_Spec Tensor_Proofs Num Math_Model Math_Spec Math_Proofs
  Conv_Proofs Conv2_Proofs Conv_Props Layers_Model Layers_Proofs.

(** * Concatenation *)

(** Inputs of the same size: the layer takes them, and the output it makes has the maps of both. *)
Theorem C41_concat_accepts : forall {D} (a b output : tensor D) ss w h ma mb,
  wf a -> wf b -> wf output -> has_shape a ss w h ma -> has_shape b ss w h mb ->
  concat_create a b = Some (ss, w, h, ma + mb) /\
  (has_shape output ss w h (ma + mb) -> concat_connect a b output = true).
Proof.
  intros D a b output ss w h ma mb Wa Wb Wo (A1 & A2 & A3 & A4) (B1 & B2 & B3 & B4). split.
  - unfold concat_create. rewrite A1, B1, A2, B3, A4, B4, Nat.eqb_refl. reflexivity.
  - intros (O1 & O2 & O3 & O4). unfold concat_connect. rewrite A1, B1, Nat.eqb_refl, (proj1 Wa), (proj1 Wb), (proj1 Wo).
    rewrite A1, A2, A3, A4, B1, B2, B3, B4, O1, O2, O3, O4. apply Nat.eqb_eq. ring.
Qed.
Print Assumptions C41_concat_accepts.

(** The output holds the first input's maps, then the second's, bit for bit. *)
Theorem C41_concat_forward : forall {D} (K : num D) (a b output : tensor D) fa fb ss w h ma mb,
  wf a -> wf b -> wf output -> has_shape a ss w h ma -> has_shape b ss w h mb -> has_shape output ss w h (ma + mb) ->
  contents a fa -> contents b fb ->
  exists output', concat_ff K a b output = Ok output' /\ wf output' /\ same_shape output' output /\
    (forall x y m s, x < w -> y < h -> m < ma -> s < ss -> at_pos output' x y m s = Some (fa x y m s)) /\
    (forall x y m s, x < w -> y < h -> m < mb -> s < ss -> at_pos output' x y (ma + m) s = Some (fb x y m s)).
Proof.
  intros D K a b output fa fb ss w h ma mb Wa Wb Wo Sa Sb So Ca Cb.
  destruct (concat_ff_correct K a b output fa fb ss w h ma mb) as (o & E & W & S & C); auto.
  exists o. split; [exact E|]. split; [exact W|]. split; [exact S|]. destruct So as (O1 & O2 & O3 & O4), S as (S1 & S2 & S3 & S4).
  split; intros x y m s Hx Hy Hm Hs; rewrite C by (repeat split; lia).
  - now rewrite (proj2 (Nat.ltb_lt _ _) Hm).
  - rewrite (proj2 (Nat.ltb_ge (ma + m) ma)) by lia. now replace (ma + m - ma) with m by lia.
Qed.
Print Assumptions C41_concat_forward.

Theorem C41_concat_backward : forall {D} (K : num D) (output_delta a_delta b_delta : tensor D) g ss w h ma mb,
  wf a_delta -> wf b_delta -> wf output_delta -> has_shape a_delta ss w h ma -> has_shape b_delta ss w h mb ->
  has_shape output_delta ss w h (ma + mb) -> contents output_delta g ->
  exists a' b', concat_bp K output_delta a_delta b_delta = Ok (a', b') /\
    wf a' /\ same_shape a' a_delta /\ contents a' (fun x y m s => g x y m s) /\
    wf b' /\ same_shape b' b_delta /\ contents b' (fun x y m s => g x y (ma + m) s).
Proof.
  intros D K od ad bd g ss w h ma mb Wa Wb Wo Sa Sb So Co.
  exact (concat_bp_correct K od ad bd g ss w h ma mb Wa Wb Wo Sa Sb So Co).
Qed.
Print Assumptions C41_concat_backward.

(** Finding: inputs that differ in both width and height are only reported (line 36 does not
    return), can pass the element count in Connect, and the second input is then lost. *)
Theorem C41_concat_mismatch_refuted : exists a b output output' : tensor Z,
  wf a /\ wf b /\ wf output /\ width a <> width b /\ height a <> height b /\
  concat_create a b = Some (samples output, width output, height output, maps output) /\
  concat_connect a b output = true /\ concat_ff Z_num a b output = Ok output' /\
  at_pos b 0 0 0 0 = Some 5%Z /\ at_pos output 0 0 2 0 = Some 0%Z /\ at_pos output' 0 0 2 0 = Some 0%Z.
Proof.
  exists (zt 1 1 1 2 [1; 2]%Z), (zt 1 2 2 1 [5; 6; 7; 8]%Z), (zt 1 1 2 3 [0; 0; 0; 0; 0; 0]%Z), (zt 1 1 2 3 [1; 0; 2; 0; 0; 0]%Z).
  repeat split; vm_compute; try reflexivity; try discriminate; lia.
Qed.
Print Assumptions C41_concat_mismatch_refuted.

Example C41_concat_case :
  concat_ff Z_num (zt 1 2 1 1 [1; 2]%Z) (zt 1 2 1 2 [3; 4; 5; 6]%Z) (zt 1 2 1 3 [0; 0; 0; 0; 0; 0]%Z) = Ok (zt 1 2 1 3 [1; 2; 3; 4; 5; 6]%Z) /\
  concat_bp Z_num (zt 1 2 1 3 [1; 2; 3; 4; 5; 6]%Z) (zt 1 2 1 1 [0; 0]%Z) (zt 1 2 1 2 [0; 0; 0; 0]%Z)
    = Ok (zt 1 2 1 1 [1; 2]%Z, zt 1 2 1 2 [3; 4; 5; 6]%Z).
Proof. split; reflexivity. Qed.

(** * Sum *)

Theorem C41_sum_accepts : forall {D} (a b output : tensor D) ss w h mm,
  wf a -> wf output -> has_shape a ss w h mm -> has_shape b ss w h mm ->
  sum_create a b = Some (ss, w, h, mm) /\
  (has_shape output ss w h mm -> sum_connect a b output = Ok true).
Proof.
  intros D a b output ss w h mm Wa Wo (A1 & A2 & A3 & A4) (B1 & B2 & B3 & B4). split.
  - unfold sum_create. rewrite A1, B1, A2, B3, A4, B4, !Nat.eqb_refl. reflexivity.
  - intros (O1 & O2 & O3 & O4). unfold sum_connect. rewrite A1, B1, Nat.eqb_refl, (proj1 Wa), (proj1 Wo).
    rewrite A1, A2, A3, A4, O1, O2, O3, O4, Nat.eqb_refl. reflexivity.
Qed.
Print Assumptions C41_sum_accepts.

Theorem C41_sum_forward : forall {D} (K : num D) (a b output : tensor D) fa fb ss w h mm,
  wf a -> wf b -> wf output -> has_shape a ss w h mm -> has_shape b ss w h mm -> has_shape output ss w h mm ->
  contents a fa -> contents b fb ->
  exists output', sum_ff K a b output = Ok output' /\ wf output' /\ same_shape output' output /\
    contents output' (fun x y m s => nadd K (fa x y m s) (fb x y m s)).
Proof. intros. eapply sum_ff_correct; eauto. Qed.
Print Assumptions C41_sum_forward.

(** Both inputs receive the whole gradient. *)
Theorem C41_sum_backward : forall {D} (K : num D) (output_delta a_delta b_delta : tensor D) g ss w h mm,
  wf output_delta -> wf a_delta -> wf b_delta ->
  has_shape output_delta ss w h mm -> has_shape a_delta ss w h mm -> has_shape b_delta ss w h mm -> contents output_delta g ->
  exists a' b', sum_bp K output_delta a_delta b_delta = Ok (a', b') /\
    wf a' /\ same_shape a' a_delta /\ contents a' g /\ wf b' /\ same_shape b' b_delta /\ contents b' g.
Proof. intros. eapply sum_bp_correct; eauto. Qed.
Print Assumptions C41_sum_backward.

(** Finding: inputs with different heights are taken by CreateOutputs; Connect then follows
    the null pointer [output_] instead of refusing them. *)
Theorem C41_sum_mismatch_refuted : exists a b output : tensor Z, wf a /\ wf b /\ wf output /\ height a <> height b /\
  sum_create a b = Some (samples output, width output, height output, maps output) /\ sum_connect a b output = UB.
Proof.
  exists (zt 1 1 1 1 [1]%Z), (zt 1 1 2 1 [5; 6]%Z), (zt 1 1 2 1 [0; 0]%Z).
  repeat split; vm_compute; try reflexivity; try discriminate; lia.
Qed.
Print Assumptions C41_sum_mismatch_refuted.

Example C41_sum_case :
  sum_ff Z_num (zt 2 1 1 1 [1; 2]%Z) (zt 2 1 1 1 [3; 4]%Z) (zt 2 1 1 1 [0; 0]%Z) = Ok (zt 2 1 1 1 [4; 6]%Z) /\
  sum_bp Z_num (zt 2 1 1 1 [4; 6]%Z) (zt 2 1 1 1 [0; 0]%Z) (zt 2 1 1 1 [9; 9]%Z) = Ok (zt 2 1 1 1 [4; 6]%Z, zt 2 1 1 1 [4; 6]%Z).
Proof. split; reflexivity. Qed.

(** * Borders *)

(** The image moves by half the border (rounded down); every other output pixel is zero. *)
Theorem C41_border_forward : forall {D} (K : num D) bx by_ (input output : tensor D) f ss w h mm,
  wf input -> wf output -> has_shape input ss w h mm -> contents input f ->
  resize_create bx by_ input = (samples output, width output, height output, maps output) ->
  exists output', resize_ff K bx by_ input output = Ok output' /\ wf output' /\ same_shape output' output /\
    contents output' (fun x y m s =>
      if (bx / 2 <=? x) && (x <? bx / 2 + w) && (by_ / 2 <=? y) && (y <? by_ / 2 + h) then f (x - bx / 2) (y - by_ / 2) m s else n0 K).
Proof.
  intros D K bx by_ input output f ss w h mm Wi Wo Si Ci Hc. eapply resize_ff_correct; eauto.
  destruct Si as (I1 & I2 & I3 & I4). unfold resize_create in Hc. injection Hc as H1 H2 H3 H4. repeat split; congruence.
Qed.
Print Assumptions C41_border_forward.

Theorem C41_border_backward : forall {D} (K : num D) bx by_ (output_delta input_delta : tensor D) g ss w h mm,
  wf input_delta -> wf output_delta -> has_shape input_delta ss w h mm -> has_shape output_delta ss (w + bx) (h + by_) mm ->
  contents output_delta g ->
  exists input', resize_bp K true bx by_ output_delta input_delta = Ok input' /\ wf input' /\ same_shape input' input_delta /\
    contents input' (fun x y m s => g (x + bx / 2) (y + by_ / 2) m s).
Proof. intros. eapply resize_bp_correct; eauto. Qed.
Print Assumptions C41_border_backward.

(** With back propagation switched off the input's gradient is not touched. *)
Theorem C41_border_disabled : forall {D} (K : num D) bx by_ (output_delta input_delta : tensor D),
  resize_bp K false bx by_ output_delta input_delta = Ok input_delta.
Proof. reflexivity. Qed.
Print Assumptions C41_border_disabled.

Example C41_border_case :
  resize_ff Z_num 3 1 (zt 1 2 2 1 [1; 2; 3; 4]%Z) (zt 1 5 3 1 (repeat 7%Z 15)) = Ok (zt 1 5 3 1 [0; 1; 2; 0; 0; 0; 3; 4; 0; 0; 0; 0; 0; 0; 0]%Z) /\
  resize_bp Z_num true 3 1 (zt 1 5 3 1 [0; 1; 2; 0; 0; 0; 3; 4; 0; 0; 0; 0; 0; 0; 0]%Z) (zt 1 2 2 1 [9; 9; 9; 9]%Z) = Ok (zt 1 2 2 1 [1; 2; 3; 4]%Z).
Proof. split; reflexivity. Qed.

(** * Spatial prior *)

(** (datum) x / (datum) n *)
Definition f32_ratio (x n : nat) : f32 := fdiv (f_of_Z (Z.of_nat x)) (f_of_Z (Z.of_nat n)).

(** Two maps with the relative coordinates come first, then the input's maps. *)
Theorem C41_prior_forward : forall {D} (K : num D) (ratio : nat -> nat -> D) (input output : tensor D) f ss w h mm,
  wf input -> wf output -> has_shape input ss w h mm -> contents input f ->
  prior_create input = (samples output, width output, height output, maps output) ->
  exists output', prior_ff K ratio input output = Ok output' /\ wf output' /\ same_shape output' output /\
    (forall x y s, x < w -> y < h -> s < ss ->
       at_pos output' x y 0 s = Some (ratio x w) /\ at_pos output' x y 1 s = Some (ratio y h)) /\
    (forall x y m s, x < w -> y < h -> m < mm -> s < ss -> at_pos output' x y (m + 2) s = Some (f x y m s)).
Proof.
  intros D K ratio input output f ss w h mm Wi Wo Si Ci Hc. pose proof Si as (I1 & I2 & I3 & I4).
  unfold prior_create in Hc. injection Hc as H1 H2 H3 H4.
  destruct (prior_ff_correct K ratio input output f ss w h mm) as (o & E & W & S & C); auto; [repeat split; congruence|].
  exists o. split; [exact E|]. split; [exact W|]. split; [exact S|]. destruct S as (S1 & S2 & S3 & S4). split.
  - intros x y s Hx Hy Hs. split; rewrite C by (repeat split; lia); reflexivity.
  - intros x y m s Hx Hy Hm Hs. rewrite C by (repeat split; lia).
    rewrite (proj2 (Nat.eqb_neq (m + 2) 0)), (proj2 (Nat.eqb_neq (m + 2) 1)) by lia. now replace (m + 2 - 2) with m by lia.
Qed.
Print Assumptions C41_prior_forward.

Theorem C41_prior_backward : forall {D} (K : num D) (output_delta input_delta : tensor D) g ss w h mm,
  wf input_delta -> wf output_delta -> has_shape input_delta ss w h mm -> has_shape output_delta ss w h (mm + 2) -> contents output_delta g ->
  exists input', prior_bp K output_delta input_delta = Ok input' /\ wf input' /\ same_shape input' input_delta /\
    contents input' (fun x y m s => g x y (m + 2) s).
Proof. intros. eapply prior_bp_correct; eauto. Qed.
Print Assumptions C41_prior_backward.

(** 0.5 in float arithmetic *)
Example C41_prior_case : exists o,
  prior_ff f32_num f32_ratio (mkTensor 1 2 1 1 2 (Some [f32_one; f32_zero])) (mkTensor 1 2 1 3 6 (Some (repeat f32_zero 6))) = Ok o /\
  data o = Some [f32_zero; 1056964608%Z; f32_zero; f32_zero; f32_one; f32_zero].
Proof. eexists. split; vm_compute; reflexivity. Qed.

(** * Upscaling and downsampling layers *)

Theorem C38_upscale_layer : forall {D} (K : num D), ring_laws K -> forall rw rh (input output output_delta input_delta : tensor D) f g,
  wf input -> wf output -> wf output_delta -> wf input_delta -> contents input f -> contents output_delta g ->
  same_shape input_delta input -> same_shape output_delta output ->
  upscale_create rw rh input = (samples output, width output, height output, maps output) ->
  exists output' input', upscale_ff K rw rh input output = Ok output' /\ upscale_bp K rw rh output_delta input_delta = Ok input' /\
    same_shape output' output /\ contents output' (fun x y m s => f (x / rw) (y / rh) m s) /\
    same_shape input' input_delta /\
    contents input' (fun x y m s => nsum K rh (fun ry => nsum K rw (fun rx => g (rw * x + rx) (rh * y + ry) m s))).
Proof.
  intros D K HK rw rh input output od id f g Wi Wo Wod Wid Ci Co (I1 & I2 & I3 & I4) (O1 & O2 & O3 & O4) Hc.
  unfold upscale_create in Hc. injection Hc as H1 H2 H3 H4.
  destruct (C38_upscale K input output rw rh (n1 K) f) as (o & E & W & S & C); auto.
  { repeat split; rewrite ?(Nat.mul_comm rw), ?(Nat.mul_comm rh); congruence. }
  destruct (C38_downsample K HK od id rw rh (n1 K) g) as (i & Eb & Wb & Sb & Cb); auto.
  { repeat split; rewrite ?(Nat.mul_comm rw), ?(Nat.mul_comm rh); congruence. }
  exists o, i. split; [exact E|]. split; [exact Eb|]. split; [exact S|]. pose proof (rl_ring _ HK) as R.
  assert (R1 : forall v, nmul K v (n1 K) = v).
  { intros v. rewrite (Ring_theory.Rmul_comm R). apply (Ring_theory.Rmul_1_l R). }
  split; [intros x y m s Hv; rewrite (C x y m s Hv); now rewrite R1|].
  split; [exact Sb|]. intros x y m s Hv. rewrite (Cb x y m s Hv). now rewrite R1.
Qed.
Print Assumptions C38_upscale_layer.

(** The downsampling layer: the mean when [fraction] is 1 / (rw * rh); it refuses sizes that
    are no multiples, and is fatal when asked to pass gradients on. *)
Theorem C38_downsampling_layer : forall {D} (K : num D), ring_laws K -> forall rw rh fraction (input output : tensor D) f s,
  wf input -> wf output -> contents input f -> 0 < rw -> 0 < rh ->
  (downsample_create rw rh input = Ok (Some s) <->
     s = (samples input, width input / rw, height input / rh, maps input) /\ width input mod rw = 0 /\ height input mod rh = 0) /\
  (downsample_create rw rh input = Ok (Some (samples output, width output, height output, maps output)) ->
   exists output', downsample_ff K fraction rw rh input output = Ok output' /\ same_shape output' output /\
     contents output' (fun x y m s => nmul K (nsum K rh (fun ry => nsum K rw (fun rx => f (rw * x + rx) (rh * y + ry) m s))) fraction)).
Proof.
  intros D K HK rw rh fraction input output f s Wi Wo Ci Hrw Hrh.
  assert (HC : forall r, downsample_create rw rh input = Ok (Some r) <->
     r = (samples input, width input / rw, height input / rh, maps input) /\ width input mod rw = 0 /\ height input mod rh = 0).
  { intros r. unfold downsample_create. destruct (Nat.eqb_spec rw 0); [lia|]. destruct (Nat.eqb_spec rh 0); [lia|]. cbn [orb].
    destruct (Nat.eqb_spec (width input mod rw) 0), (Nat.eqb_spec (height input mod rh) 0); cbn [negb orb].
    - split; [intros [= <-]; auto|intros (-> & _); reflexivity].
    - split; [discriminate|intros (_ & _ & ?); contradiction].
    - split; [discriminate|intros (_ & ? & _); contradiction].
    - split; [discriminate|intros (_ & ? & _); contradiction]. }
  split; [apply HC|]. intros H. apply HC in H as (H & M1 & M2). injection H as H1 H2 H3 H4.
  destruct (C38_downsample K HK input output rw rh fraction f) as (o & E & W & S & C); auto.
  { repeat split; try congruence; [rewrite H2|rewrite H3].
    - rewrite (Nat.div_mod (width input) rw) at 1 by lia. lia.
    - rewrite (Nat.div_mod (height input) rh) at 1 by lia. lia. }
  exists o. auto.
Qed.
Print Assumptions C38_downsampling_layer.

Theorem C38_downsampling_no_gradient : forall {D} (input_delta : tensor D),
  downsample_bp true input_delta = Fatal /\ downsample_bp false input_delta = Ok input_delta.
Proof. split; reflexivity. Qed.
Print Assumptions C38_downsampling_no_gradient.

(** C42, C43, C60 and C65: activations, softmax, HMax, the loss layer. *)
From Coq Require Import Reals Lra.
From Verif Require Import Base BaseFacts Tensor_Model Tensor_Spec Tensor_Proofs Num RealNum Math_Model Math_Spec Math_Proofs
  Conv_Proofs Conv_Props LRN_Grad Act_Model Act_Spec Act_Proofs.
Open Scope R_scope.

(** [backs fwd ff bp]: on tensors of equal shape the forward pass stores fwd of every input, and
    the backward pass stores the incoming gradient times the derivative of fwd at the input,
    wherever [smooth] holds. *)
Definition backs (fwd : R -> R) (smooth range : R -> Prop) (ff : tensor R -> tensor R -> res (tensor R))
  (bp : tensor R -> tensor R -> tensor R -> tensor R -> res (tensor R)) : Prop :=
  forall (input output output_delta input_delta : tensor R) f dl,
  wf input -> wf output -> wf output_delta -> wf input_delta ->
  same_shape output input -> same_shape output_delta input -> same_shape input_delta input ->
  contents input f -> contents output_delta dl ->
  exists output' input' grad,
    ff input output = Ok output' /\ bp input output' output_delta input_delta = Ok input' /\
    same_shape output' output /\ contents output' (fun x y m s => fwd (f x y m s)) /\
    same_shape input' input_delta /\ contents input' grad /\
    (forall v, range (fwd v)) /\
    forall x y m s, valid_pos input x y m s -> smooth (f x y m s) ->
      exists slope, derivable_pt_lim fwd (f x y m s) slope /\ grad x y m s = dl x y m s * slope.

Theorem C42_sigmoid : backs logistic (fun _ => True) (fun v => 0 < v < 1)
  (act_ff (sigmoid R_num Rdiv exp)) (fun _ output od id => act_bp (sigmoid_back R_num) output od id).
Proof.
  intros input output od id f dl Wi Wo Wd Wt So Sd St Ci Cd.
  destruct (act_ff_spec (sigmoid R_num Rdiv exp) input output f Wi Wo So Ci) as (o' & E & W' & S' & C').
  assert (S2 : same_shape o' input) by (eapply same_shape_trans; eauto).
  destruct (act_bp_spec (sigmoid_back R_num) o' od id (fun x y m s => sigmoid R_num Rdiv exp (f x y m s)) dl W' Wd Wt) as (i' & E2 & W2 & S3 & C2);
    [eapply same_shape_trans; [exact St|now apply same_shape_sym]|eapply same_shape_trans; [exact Sd|now apply same_shape_sym]|exact C'|exact Cd|].
  do 3 eexists. split; [exact E|]. split; [exact E2|]. split; [exact S'|]. split; [|split; [exact S3|split; [exact C2|split]]].
  - intros x y m s V. rewrite (C' x y m s V). now rewrite sigmoid_logistic.
  - exact logistic_range.
  - intros x y m s V _. eexists. split; [apply logistic_derivative|]. rewrite sigmoid_logistic. unfold sigmoid_back. cbn. ring.
Qed.
Print Assumptions C42_sigmoid.

Theorem C42_tanh : backs tanh (fun _ => True) (fun v => -1 < v < 1)
  (act_ff (tangent R_num Rdiv exp 2)) (fun _ output od id => act_bp (tangent_back R_num) output od id).
Proof.
  intros input output od id f dl Wi Wo Wd Wt So Sd St Ci Cd.
  destruct (act_ff_spec (tangent R_num Rdiv exp 2) input output f Wi Wo So Ci) as (o' & E & W' & S' & C').
  assert (S2 : same_shape o' input) by (eapply same_shape_trans; eauto).
  destruct (act_bp_spec (tangent_back R_num) o' od id (fun x y m s => tangent R_num Rdiv exp 2 (f x y m s)) dl W' Wd Wt) as (i' & E2 & W2 & S3 & C2);
    [eapply same_shape_trans; [exact St|now apply same_shape_sym]|eapply same_shape_trans; [exact Sd|now apply same_shape_sym]|exact C'|exact Cd|].
  do 3 eexists. split; [exact E|]. split; [exact E2|]. split; [exact S'|]. split; [|split; [exact S3|split; [exact C2|split]]].
  - intros x y m s V. rewrite (C' x y m s V). now rewrite tangent_tanh.
  - exact tanh_range.
  - intros x y m s V _. eexists. split; [apply tanh_derivative|]. rewrite tangent_tanh. reflexivity.
Qed.
Print Assumptions C42_tanh.

Theorem C42_rectifier : backs ramp (fun v => v <> 0) (fun v => 0 <= v)
  (act_ff (rectify R_num R_positive)) (fun input _ od id => act_bp (rectify_back R_num R_positive) input od id).
Proof.
  intros input output od id f dl Wi Wo Wd Wt So Sd St Ci Cd.
  destruct (act_ff_spec (rectify R_num R_positive) input output f Wi Wo So Ci) as (o' & E & W' & S' & C').
  destruct (act_bp_spec (rectify_back R_num R_positive) input od id f dl Wi Wd Wt St Sd Ci Cd) as (i' & E2 & W2 & S3 & C2).
  do 3 eexists. split; [exact E|]. split; [exact E2|]. split; [exact S'|]. split; [|split; [exact S3|split; [exact C2|split]]].
  - intros x y m s V. rewrite (C' x y m s V). now rewrite rectify_ramp.
  - intros v. apply Rmax_l.
  - intros x y m s V Hn. eexists. split; [apply ramp_derivative, Hn|]. unfold rectify_back, R_positive. cbn. destruct (Rlt_dec 0 (f x y m s)); ring.
Qed.
Print Assumptions C42_rectifier.

(** Where the input is 0 or negative the rectifier passes no gradient back. *)
Theorem C42_rectifier_closed : forall (input output_delta input_delta : tensor R) f dl, wf input -> wf output_delta -> wf input_delta ->
  same_shape output_delta input -> same_shape input_delta input -> contents input f -> contents output_delta dl ->
  exists input', act_bp (rectify_back R_num R_positive) input output_delta input_delta = Ok input' /\
    forall x y m s, valid_pos input x y m s -> f x y m s <= 0 -> at_pos input' x y m s = Some 0.
Proof.
  intros input od id f dl Wi Wd Wt Sd St Ci Cd.
  destruct (act_bp_spec (rectify_back R_num R_positive) input od id f dl Wi Wd Wt St Sd Ci Cd) as (i' & E2 & W2 & S3 & C2).
  exists i'. split; [exact E2|]. intros x y m s V Hle. rewrite C2 by (eapply same_shape_valid; [eapply same_shape_trans; eauto|exact V]).
  unfold rectify_back, R_positive. destruct (Rlt_dec 0 (f x y m s)); [lra|reflexivity].
Qed.
Print Assumptions C42_rectifier_closed.

(** Connect accepts exactly the shapes the theorems above ask for. *)
Theorem C42_connect : forall {D} (input output : tensor D), act_connect input output = true <-> same_shape output input.
Proof.
  intros D input output. unfold act_connect, same_shape. rewrite !andb_true_iff, !Nat.eqb_eq. intuition congruence.
Qed.
Print Assumptions C42_connect.
(** The output that is created has the shape of the input, so Connect accepts it. *)
Theorem C42_create : forall {D} (input output : tensor D), act_create input = (samples output, width output, height output, maps output) <-> same_shape output input.
Proof. intros D input output. unfold act_create, same_shape. split; [intros E; injection E; auto|intros (-> & -> & -> & ->); reflexivity]. Qed.
Print Assumptions C42_create.

Definition rt (s w h m : nat) (l : list R) : tensor R := mkTensor s w h m (s * m * h * w) (Some l).
Lemma rt_wf s w h m l : length l = (s * m * h * w)%nat -> (0 < length l)%nat -> wf (rt s w h m l).
Proof. intros E H. split; [reflexivity|]. cbn. lia. Qed.
Example C42_case : exists output' input' grad,
  act_ff (rectify R_num R_positive) (rt 1 2 1 1 [-1; 3]) (rt 1 2 1 1 [0; 0]) = Ok output' /\
  act_bp (rectify_back R_num R_positive) (rt 1 2 1 1 [-1; 3]) (rt 1 2 1 1 [5; 7]) (rt 1 2 1 1 [0; 0]) = Ok input' /\
  contents input' grad /\ grad 1%nat 0%nat 0%nat 0%nat = 7.
Proof.
  do 2 eexists. exists (fun x _ _ _ => if (x =? 1)%nat then 7 else 0). split; [reflexivity|]. split; [reflexivity|]. split; [|reflexivity].
  intros x y m s (Hx & Hy & Hm & Hs). cbn in Hx, Hy, Hm, Hs. assert (y = 0 /\ m = 0 /\ s = 0)%nat as (-> & -> & ->) by lia.
  destruct x as [|[|]]; [| |lia]; cbn; unfold rectify_back, R_positive, n0; cbn.
  - destruct (Rlt_dec 0 (-1)); [lra|reflexivity].
  - destruct (Rlt_dec 0 3); [reflexivity|lra].
Qed.

(** ** C65: softmax *)

(** On one row of classes: the outputs are exp(x_i) / sum of exp, positive, and sum up to 1. *)
Theorem C65_softmax : forall (input output : tensor R) f, wf input -> wf output -> same_shape output input -> contents input f ->
  height input = 1%nat -> maps input = 1%nat -> (0 < width input)%nat ->
  exists output' g, softmax_ff R_num Rdiv exp input output = Ok output' /\ same_shape output' output /\ contents output' g /\
    (forall x s, g x 0%nat 0%nat s = exp (f x 0%nat 0%nat s) / nsum R_num (width input) (fun i => exp (f i 0%nat 0%nat s))) /\
    (forall x s, 0 < g x 0%nat 0%nat s) /\ (forall s, nsum R_num (width input) (fun x => g x 0%nat 0%nat s) = 1).
Proof.
  intros input output f Wi Wo So Ci Hh Hm Hw. destruct (softmax_ff_spec input output f) as (o' & E & W & S & C); auto.
  do 2 eexists. split; [exact E|]. split; [exact S|]. split; [exact C|]. split; [reflexivity|].
  assert (P : forall s, 0 < nsum R_num (width input) (fun i => exp (f i 0%nat 0%nat s))) by (intros; now apply nsum_exp_pos).
  split; [intros; apply Rdiv_lt_0_compat; [apply exp_pos|apply P]|].
  intros s. specialize (P s). set (t := nsum R_num (width input) (fun i => exp (f i 0%nat 0%nat s))) in *.
  rewrite (nsum_ext R_num _ _ (fun x => nmul R_num (/ t) (exp (f x 0%nat 0%nat s)))) by (intros; cbn; unfold Rdiv; ring).
  rewrite (nsum_mul_l R_num R_ring_laws). fold t. cbn. field. lra.
Qed.
Print Assumptions C65_softmax.

(** Finding: images with more than one row or map keep their old output there. *)
Theorem C65_rows_refuted : exists input output : tensor R, wf input /\ wf output /\ same_shape output input /\
  exists output', softmax_ff R_num Rdiv exp input output = Ok output' /\ at_pos output' 0 1 0 0 = at_pos output 0 1 0 0.
Proof.
  exists (rt 1 1 2 1 [1; 2]), (rt 1 1 2 1 [0; 0]). split; [apply rt_wf; cbn; lia|]. split; [apply rt_wf; cbn; lia|]. split; [now repeat split|].
  eexists. split; reflexivity.
Qed.
Print Assumptions C65_rows_refuted.

(** Finding: the backward pass hands the gradient through unchanged ... *)
Theorem C65_backward_identity : forall (output_delta input_delta : tensor R) dl, wf output_delta -> wf input_delta ->
  same_shape output_delta input_delta -> contents output_delta dl ->
  exists input', softmax_bp output_delta input_delta = Ok input' /\ same_shape input' input_delta /\ contents input' dl.
Proof.
  intros od id dl Wo Wi S C. destruct (elementwise_fill id (elements id) (fun e => elt od e) dl Wi eq_refl) as (t & E & _ & S' & C').
  - intros x y m s V. now apply elt_contents.
  - now exists t.
Qed.
Print Assumptions C65_backward_identity.
(** ... which is not the derivative: with a single class the output is constantly 1, and a
    gradient of 1 is still passed back. *)
Theorem C65_backward_refuted : exists d v0 : R, d <> 1 /\
  derivable_pt_lim (fun v => exp v / nsum R_num 1 (fun _ => exp v)) v0 d /\
  softmax_bp (rt 1 1 1 1 [1]) (rt 1 1 1 1 [0]) = Ok (rt 1 1 1 1 [1]).
Proof.
  exists 0, 0. split; [lra|]. split; [|reflexivity]. eapply derive_ext; [|apply (derive_const 1)].
  intros v. cbn. pose proof (exp_pos v). field. lra.
Qed.
Print Assumptions C65_backward_refuted.

(** ** C43: the loss layer *)

(** Prediction and label of one shape, one weight per pixel. *)
Definition loss_setup (ss w h mm : nat) (first second third first_delta : tensor R) f label weight : Prop :=
  wf first /\ wf second /\ wf third /\ wf first_delta /\
  has_shape first ss w h mm /\ has_shape second ss w h mm /\ has_shape first_delta ss w h mm /\ has_shape third ss w h 1 /\
  contents first f /\ contents second label /\ contents third (fun x y _ s => weight x y s).

Theorem C43_loss : forall lw ss w h mm first second third first_delta f label weight,
  loss_setup ss w h mm first second third first_delta f label weight ->
  error_connect first second third = true /\
  error_loss R_num Rdiv 2 lw first second third = Ok (weighted_loss lw ss w h mm f label weight).
Proof.
  intros lw ss w h mm first second third fd f label weight (W1 & W2 & W3 & W4 & H1 & H2 & H3 & (T1 & T2 & T3 & T4) & C1 & C2 & C3).
  split.
  - unfold error_connect. rewrite (proj1 W1), (proj1 W2). destruct H1 as (-> & -> & -> & ->), H2 as (-> & -> & -> & ->). rewrite T1, !Nat.eqb_refl. reflexivity.
  - apply error_loss_spec; auto; lia.
Qed.
Print Assumptions C43_loss.

Theorem C43_gradient : forall lw ss w h mm first second third first_delta f label weight,
  loss_setup ss w h mm first second third first_delta f label weight ->
  exists delta' grad, error_ff R_num lw first second third first_delta = Ok delta' /\ same_shape delta' first_delta /\ contents delta' grad /\
    forall jx jy jm js, valid_pos first jx jy jm js ->
      derivable_pt_lim (fun v => weighted_loss lw ss w h mm (set_elt f jx jy jm js v) label weight) (f jx jy jm js) (grad jx jy jm js).
Proof.
  intros lw ss w h mm first second third fd f label weight (W1 & W2 & W3 & W4 & H1 & H2 & H3 & (T1 & T2 & T3 & T4) & C1 & C2 & C3).
  destruct (error_ff_spec lw first second third fd f label weight ss w h mm) as (d & E & _ & S & C); auto; [lia|].
  exists d. eexists. split; [exact E|]. split; [exact S|]. split; [exact C|]. cbv beta.
  intros jx jy jm js (Vx & Vy & Vm & Vs). destruct H1 as (A1 & A2 & A3 & A4). apply loss_derivative; lia.
Qed.
Print Assumptions C43_gradient.

(** Elements with zero weight neither change the loss nor get a gradient. *)
Theorem C43_zero_weight : forall lw ss w h mm f g label weight,
  (forall x y m s, weight x y s <> 0 -> f x y m s = g x y m s) ->
  weighted_loss lw ss w h mm f label weight = weighted_loss lw ss w h mm g label weight.
Proof.
  intros lw ss w h mm f g label weight H. unfold weighted_loss. f_equal. apply tensor_sum_ext. intros x y m s _ _ _ _.
  destruct (Req_dec (weight x y s) 0) as [->|Hn]; [ring|]. now rewrite (H x y m s Hn).
Qed.
Print Assumptions C43_zero_weight.
Theorem C43_zero_weight_gradient : forall lw ss w h mm first second third first_delta f label weight,
  loss_setup ss w h mm first second third first_delta f label weight ->
  exists delta', error_ff R_num lw first second third first_delta = Ok delta' /\
    forall x y m s, valid_pos first x y m s -> weight x y s = 0 -> at_pos delta' x y m s = Some 0.
Proof.
  intros lw ss w h mm first second third fd f label weight (W1 & W2 & W3 & W4 & H1 & H2 & H3 & (T1 & T2 & T3 & T4) & C1 & C2 & C3).
  destruct (error_ff_spec lw first second third fd f label weight ss w h mm) as (d & E & _ & S & C); auto; [lia|].
  exists d. split; [exact E|]. intros x y m s (Vx & Vy & Vm & Vs) Hz. destruct H1 as (A1 & A2 & A3 & A4), H3 as (D1 & D2 & D3 & D4).
  rewrite C; [f_equal; rewrite Hz; ring|]. apply (same_shape_valid _ _ _ _ _ _ S). repeat split; lia.
Qed.
Print Assumptions C43_zero_weight_gradient.

Theorem C43_nonnegative : forall lw ss w h mm f label weight, 0 <= lw -> (forall x y s, 0 <= weight x y s) ->
  0 <= weighted_loss lw ss w h mm f label weight.
Proof.
  intros lw ss w h mm f label weight Hl Hw. unfold weighted_loss, Rdiv. apply Rmult_le_pos; [|lra].
  apply tensor_sum_nonneg. intros x y m s _ _ _ _. apply Rmult_le_pos; [apply Rmult_le_pos; [apply pow2_ge_0|auto]|exact Hl].
Qed.
Print Assumptions C43_nonnegative.

Theorem C43_exact : forall lw ss w h mm f label weight,
  (forall x y m s, (x < w)%nat -> (y < h)%nat -> (m < mm)%nat -> (s < ss)%nat -> f x y m s = label x y m s) ->
  weighted_loss lw ss w h mm f label weight = 0.
Proof.
  intros lw ss w h mm f label weight H. unfold weighted_loss.
  rewrite (tensor_sum_ext R_num _ _ _ _ _ (fun _ _ _ _ => 0)).
  - unfold tensor_sum. repeat (rewrite (nsum_zero_ext R_num R_ring_laws); [cbn; field|intros]). 
    all: repeat (apply (nsum_zero_ext R_num R_ring_laws); intros); reflexivity.
  - intros. rewrite H by auto. ring.
Qed.
Print Assumptions C43_exact.

(** Finding: Connect accepts prediction and label of different shapes as long as the element
    counts agree; the passes then read out of bounds. *)
Theorem C43_shape_refuted : exists first second third first_delta : tensor R,
  wf first /\ wf second /\ wf third /\ wf first_delta /\ same_shape first_delta first /\
  error_connect first second third = true /\ error_ff R_num 1 first second third first_delta = UB.
Proof.
  exists (rt 1 2 2 1 [1; 2; 3; 4]), (rt 1 4 1 1 [1; 2; 3; 4]), (rt 1 2 2 1 [1; 1; 1; 1]), (rt 1 2 2 1 [0; 0; 0; 0]).
  repeat match goal with |- _ /\ _ => split end; try (apply rt_wf; cbn; lia); try (now repeat split).
Qed.
Print Assumptions C43_shape_refuted.
(** Finding: nor does it look at the size of the weight tensor. *)
Theorem C43_weights_refuted : exists first second third first_delta : tensor R,
  wf first /\ wf second /\ wf third /\ wf first_delta /\ same_shape first_delta first /\ same_shape second first /\
  error_connect first second third = true /\ error_loss R_num Rdiv 2 1 first second third = UB.
Proof.
  exists (rt 1 2 2 1 [1; 2; 3; 4]), (rt 1 2 2 1 [1; 2; 3; 4]), (rt 1 1 1 1 [1]), (rt 1 2 2 1 [0; 0; 0; 0]).
  repeat match goal with |- _ /\ _ => split end; try (apply rt_wf; cbn; lia); try (now repeat split).
Qed.
Print Assumptions C43_weights_refuted.

Example C43_case : loss_setup 1 2 1 1 (rt 1 2 1 1 [3; 5]) (rt 1 2 1 1 [1; 5]) (rt 1 2 1 1 [2; 1]) (rt 1 2 1 1 [0; 0])
  (fun x _ _ _ => nth x [3; 5] 0) (fun x _ _ _ => nth x [1; 5] 0) (fun x _ _ => nth x [2; 1] 0) /\
  weighted_loss 1 1 2 1 1 (fun x _ _ _ => nth x [3; 5] 0) (fun x _ _ _ => nth x [1; 5] 0) (fun x _ _ => nth x [2; 1] 0) = 4.
Proof.
  split.
  - unfold loss_setup. repeat match goal with |- _ /\ _ => split end; try (apply rt_wf; cbn; lia); try (now repeat split);
      intros x y m s (Hx & Hy & Hm & Hs); cbn in Hx, Hy, Hm, Hs; assert (y = 0 /\ m = 0 /\ s = 0)%nat as (-> & -> & ->) by lia;
      (destruct x as [|[|]]; [reflexivity|reflexivity|lia]).
  - unfold weighted_loss, tensor_sum. cbn. field.
Qed.

(** ** C60: HMax *)

(** Weights a and b, an input, the output the forward pass makes of it, and gradients. *)
Definition hmax_setup (ss w h mm : nat) (a b : R) (weights input output output_delta input_delta : tensor R) f dl : Prop :=
  wf weights /\ wf input /\ wf output /\ wf output_delta /\ wf input_delta /\
  get weights 0 0 0 0 = Ok a /\ get weights 1 0 0 0 = Ok b /\
  has_shape input ss w h mm /\ same_shape output input /\ same_shape output_delta input /\ same_shape input_delta input /\
  contents input f /\ contents output_delta dl.

Theorem C60_forward : forall ss w h mm a b weights input output output_delta input_delta f dl,
  hmax_setup ss w h mm a b weights input output output_delta input_delta f dl ->
  exists output', hmax_ff R_num Rdiv exp weights input output = Ok output' /\ same_shape output' output /\
    contents output' (fun x y m s => logistic (a * f x y m s + b)).
Proof.
  intros ss w h mm a b weights input output od id f dl (Ww & Wi & Wo & Wd & Wt & Ga & Gb & Hi & So & Sd & St & Ci & Cd).
  unfold hmax_ff. rewrite Ga. cbn [bind]. rewrite Gb. cbn [bind].
  destruct (act_ff_spec (hmax R_num Rdiv exp a b) input output f Wi Wo So Ci) as (o' & E & W & S & C).
  exists o'. split; [exact E|]. split; [exact S|]. intros x y m s V. rewrite (C x y m s V). now rewrite hmax_logistic.
Qed.
Print Assumptions C60_forward.

(** Without sparsity weight (lambda = 0) the input's gradient is the derivative of the outputs
    weighted with their gradients.  Missing from C60: the parameters' gradients and the sparsity
    term, which are wrong, see below. *)
Theorem C60_input_partial : forall mu lr count ss w h mm a b weights input output output_delta input_delta f dl,
  hmax_setup ss w h mm a b weights input output output_delta input_delta f dl ->
  exists output' input' dw grad, hmax_ff R_num Rdiv exp weights input output = Ok output' /\
    hmax_bp R_num Rdiv ln 2 0 mu lr count weights input output' output_delta input_delta = Ok (input', dw) /\
    same_shape input' input_delta /\ contents input' grad /\
    forall jx jy jm js, valid_pos input jx jy jm js ->
      derivable_pt_lim (fun v => tensor_sum R_num ss w h mm (fun x y m s => dl x y m s * logistic (a * set_elt f jx jy jm js v x y m s + b)))
        (f jx jy jm js) (grad jx jy jm js).
Proof.
  intros mu lr count ss w h mm a b weights input output od id f dl (Ww & Wi & Wo & Wd & Wt & Ga & Gb & Hi & So & Sd & St & Ci & Cd).
  unfold hmax_ff. rewrite Ga. cbn [bind]. rewrite Gb. cbn [bind].
  destruct (act_ff_spec (hmax R_num Rdiv exp a b) input output f Wi Wo So Ci) as (o' & E & W & S & C).
  assert (S' : same_shape o' input) by (eapply same_shape_trans; eauto).
  destruct (hmax_bp_spec 0 mu lr count a b weights input o' od id f dl ss w h mm) as (i' & E2 & W2 & S2 & C2); auto.
  { intros x y m s V. rewrite (C x y m s V). now rewrite hmax_logistic. }
  do 4 eexists. split; [exact E|]. split; [exact E2|]. split; [exact S2|]. split; [exact C2|]. cbv beta.
  intros jx jy jm js (Vx & Vy & Vm & Vs). destruct Hi as (I1 & I2 & I3 & I4).
  apply (derive_tensor_sum ss w h mm (fun x y m s v => dl x y m s * logistic (a * set_elt f jx jy jm js v x y m s + b)) _ _ jx jy jm js); try lia.
  - apply derive_ext with (f := fun v => dl jx jy jm js * logistic (a * v + b)).
    { intros v. unfold set_elt. now rewrite !Nat.eqb_refl. }
    replace (hmax_back R_num Rdiv ln a 0 mu (f jx jy jm js) (logistic (a * f jx jy jm js + b)) (dl jx jy jm js)) with
      (dl jx jy jm js * (logistic (a * f jx jy jm js + b) * (1 - logistic (a * f jx jy jm js + b)) * a)).
    + apply (derivable_pt_lim_scal (fun v => logistic (a * v + b))). apply hmax_derive_x.
    + unfold hmax_back. cbn. unfold Rdiv. ring.
  - intros x y m s Hne v v'. f_equal. f_equal. f_equal. f_equal. unfold set_elt.
    destruct ((x =? jx)%nat && (y =? jy)%nat && (m =? jm)%nat && (s =? js)%nat) eqn:Eq; [|reflexivity].
    rewrite !andb_true_iff, !Nat.eqb_eq in Eq. destruct Eq as (((-> & ->) & ->) & ->). contradiction.
Qed.
Print Assumptions C60_input_partial.

(** What the parameters' gradients are without sparsity weight: the derivatives of the plain sum
    of the outputs, whatever the gradients of the outputs are (times the local learning rate). *)
Theorem C60_weights_partial : forall mu lr count ss w h mm a b weights input output output_delta input_delta f dl,
  hmax_setup ss w h mm a b weights input output output_delta input_delta f dl ->
  exists output' input' da db, hmax_ff R_num Rdiv exp weights input output = Ok output' /\
    hmax_bp R_num Rdiv ln 2 0 mu lr count weights input output' output_delta input_delta = Ok (input', (lr * da, lr * db)) /\
    derivable_pt_lim (fun v => tensor_sum R_num ss w h mm (fun x y m s => logistic (v * f x y m s + b))) a da /\
    derivable_pt_lim (fun v => tensor_sum R_num ss w h mm (fun x y m s => logistic (a * f x y m s + v))) b db.
Proof.
  intros mu lr count ss w h mm a b weights input output od id f dl (Ww & Wi & Wo & Wd & Wt & Ga & Gb & Hi & So & Sd & St & Ci & Cd).
  unfold hmax_ff. rewrite Ga. cbn [bind]. rewrite Gb. cbn [bind].
  destruct (act_ff_spec (hmax R_num Rdiv exp a b) input output f Wi Wo So Ci) as (o' & E & W & S & C).
  assert (S' : same_shape o' input) by (eapply same_shape_trans; eauto).
  destruct (hmax_bp_spec 0 mu lr count a b weights input o' od id f dl ss w h mm) as (i' & E2 & W2 & S2 & C2); auto.
  { intros x y m s V. rewrite (C x y m s V). now rewrite hmax_logistic. }
  do 4 eexists. split; [exact E|]. split; [exact E2|].
  rewrite !Rmult_0_r, !Rplus_0_l. unfold tensor_sum. split.
  - apply (derive_sum ss (fun s v => nsum R_num mm (fun m => nsum R_num h (fun y => nsum R_num w (fun x => logistic (v * f x y m s + b)))))). intros s _.
    apply (derive_sum mm (fun m v => nsum R_num h (fun y => nsum R_num w (fun x => logistic (v * f x y m s + b))))). intros m _.
    apply (derive_sum h (fun y v => nsum R_num w (fun x => logistic (v * f x y m s + b)))). intros y _.
    apply (derive_sum w (fun x v => logistic (v * f x y m s + b))). intros x _.
    match goal with |- derivable_pt_lim _ _ ?d => replace d with (logistic (a * f x y m s + b) * (1 - logistic (a * f x y m s + b)) * f x y m s) end.
    + apply hmax_derive_a.
    + unfold hmax_da. cbn. ring.
  - apply (derive_sum ss (fun s v => nsum R_num mm (fun m => nsum R_num h (fun y => nsum R_num w (fun x => logistic (a * f x y m s + v)))))). intros s _.
    apply (derive_sum mm (fun m v => nsum R_num h (fun y => nsum R_num w (fun x => logistic (a * f x y m s + v))))). intros m _.
    apply (derive_sum h (fun y v => nsum R_num w (fun x => logistic (a * f x y m s + v)))). intros y _.
    apply (derive_sum w (fun x v => logistic (a * f x y m s + v))). intros x _.
    match goal with |- derivable_pt_lim _ _ ?d => replace d with (logistic (a * f x y m s + b) * (1 - logistic (a * f x y m s + b))) end.
    + apply hmax_derive_b.
    + unfold hmax_db. cbn. ring.
Qed.
Print Assumptions C60_weights_partial.

(** Finding: the gradients of the outputs do not enter those of the parameters.  Here the loss
    does not depend on the output at all, yet a gets a gradient. *)
Theorem C60_weights_refuted : exists weights input output output_delta input_delta f dl input' da db,
  hmax_setup 1 1 1 1 1 0 weights input output output_delta input_delta f dl /\
  contents output (fun x y m s => logistic (1 * f x y m s + 0)) /\
  hmax_bp R_num Rdiv ln 2 0 1 1 1 weights input output output_delta input_delta = Ok (input', (da, db)) /\
  derivable_pt_lim (fun v => tensor_sum R_num 1 1 1 1 (fun x y m s => dl x y m s * logistic (v * f x y m s + 0))) 1 0 /\ da <> 0.
Proof.
  exists (rt 1 2 1 1 [1; 0]), (rt 1 1 1 1 [1]), (rt 1 1 1 1 [logistic (1 * 1 + 0)]), (rt 1 1 1 1 [0]), (rt 1 1 1 1 [0]).
  exists (fun _ _ _ _ => 1), (fun _ _ _ _ => 0). do 3 eexists. split; [|split; [|split; [|split]]].
  - unfold hmax_setup. repeat match goal with |- _ /\ _ => split end; try (apply rt_wf; cbn; lia); try (now repeat split);
      intros x y m s (Hx & Hy & Hm & Hs); cbn in Hx, Hy, Hm, Hs; assert (x = 0 /\ y = 0 /\ m = 0 /\ s = 0)%nat as (-> & -> & -> & ->) by lia; reflexivity.
  - intros x y m s (Hx & Hy & Hm & Hs); cbn in Hx, Hy, Hm, Hs; assert (x = 0 /\ y = 0 /\ m = 0 /\ s = 0)%nat as (-> & -> & -> & ->) by lia; reflexivity.
  - reflexivity.
  - eapply derive_ext; [|apply (derive_const 0)]. intros v. unfold tensor_sum. cbn. ring.
  - unfold hmax_da. cbn. pose proof (logistic_range (1 * 1 + 0)) as [H1 H2]. set (o := logistic (1 * 1 + 0)) in *.
    assert (0 < (1 - o) * o) by (apply Rmult_lt_0_compat; lra). lra.
Qed.
Print Assumptions C60_weights_refuted.

(** Finding: the sparsity term of the input's gradient lacks the factor a. *)
Lemma sparsity_derivative a b mu x : mu <> 0 ->
  derivable_pt_lim (fun v => logistic (a * v + b) * ln (logistic (a * v + b)) + logistic (a * v + b) / mu) x
    (a * (logistic (a * x + b) * (1 - logistic (a * x + b)) * (ln (logistic (a * x + b)) + 1) + logistic (a * x + b) * (1 - logistic (a * x + b)) / mu)).
Proof.
  intros Hmu. pose proof (logistic_range (a * x + b)) as [H0 _]. pose proof (hmax_derive_x a b x) as H.
  assert (H1 : derivable_pt_lim (fun v => ln (logistic (a * v + b))) x (/ logistic (a * x + b) * (logistic (a * x + b) * (1 - logistic (a * x + b)) * a))).
  { apply (derivable_pt_lim_comp (fun v => logistic (a * v + b)) ln); [exact H|apply derivable_pt_lim_ln, H0]. }
  pose proof (derivable_pt_lim_mult _ _ _ _ _ H H1) as H2. unfold mult_fct in H2.
  assert (H3 : derivable_pt_lim (fun v => logistic (a * v + b) / mu) x (/ mu * (logistic (a * x + b) * (1 - logistic (a * x + b)) * a))).
  { apply derive_ext with (f := fun v => / mu * logistic (a * v + b)); [intros; unfold Rdiv; ring|].
    apply (derivable_pt_lim_scal (fun v => logistic (a * v + b))), H. }
  pose proof (derivable_pt_lim_plus _ _ _ _ _ H2 H3) as H4. unfold plus_fct in H4.
  match type of H4 with derivable_pt_lim _ _ ?d => match goal with |- derivable_pt_lim _ _ ?e => replace e with d by (field; lra) end end. exact H4.
Qed.

(** The term the code adds per element is the derivative divided by a: right for a = 1 only. *)
Theorem C60_sparsity_partial : forall a b lambda mu x od, mu <> 0 ->
  let o := logistic (a * x + b) in
  let extra := hmax_back R_num Rdiv ln a lambda mu x o od - od * a * ((1 - o) * o) in
  derivable_pt_lim (fun v => lambda * (logistic (a * v + b) * ln (logistic (a * v + b)) + logistic (a * v + b) / mu)) x (a * extra).
Proof.
  intros a b lambda mu x od Hmu o extra.
  replace (a * extra) with (lambda * (a * (o * (1 - o) * (ln o + 1) + o * (1 - o) / mu))).
  - apply (derivable_pt_lim_scal (fun v => logistic (a * v + b) * ln (logistic (a * v + b)) + logistic (a * v + b) / mu)).
    now apply sparsity_derivative.
  - unfold extra, hmax_back. cbn. unfold Rdiv. ring.
Qed.
Print Assumptions C60_sparsity_partial.

Theorem C60_sparsity_refuted : exists a b lambda mu x, 0 < mu /\
  ~ derivable_pt_lim (fun v => lambda * (logistic (a * v + b) * ln (logistic (a * v + b)) + logistic (a * v + b) / mu)) x
      (hmax_back R_num Rdiv ln a lambda mu x (logistic (a * x + b)) 0).
Proof.
  exists 2, 0, 1, 1, 0. split; [lra|]. intros H.
  pose proof (C60_sparsity_partial 2 0 1 1 0 0 ltac:(lra)) as H'. cbv zeta in H'.
  pose proof (uniqueness_limite _ _ _ _ H H') as E.
  assert (Eo : logistic (2 * 0 + 0) = / 2) by (unfold logistic; replace (- (2 * 0 + 0)) with 0 by ring; rewrite exp_0; f_equal; lra).
  rewrite Eo in E. unfold hmax_back in E. cbn in E. rewrite ln_Rinv in E by lra.
  assert (ln 2 < 1). { rewrite <- (ln_exp 1). apply ln_increasing; [lra|]. pose proof (exp_ineq1 1 ltac:(lra)). lra. }
  lra.
Qed.
Print Assumptions C60_sparsity_refuted.

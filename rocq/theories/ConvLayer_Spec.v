(** Specification vocabulary for the convolution layer. *)
From Verif Require Import Base Tensor_Model Tensor_Spec Num Math_Model Math_Spec ConvLayer_Model.

Section ConvSpec.
Context {D : Type}.
Variable K : num D.
Notation "x *! y" := (nmul K x y) (at level 40, left associativity).

(** A connected layer with the given weights and biases, for inputs of the given shape. *)
Record conv_ready (c : conv) (st : conv_state) (w h m S : nat) (wt : nat -> nat -> nat -> nat -> D) (b : nat -> D) : Prop := {
  cr_geo : cs_geo st = conv_geo c w h m S;
  cr_fits : geometry_ok (conv_geo c w h m S);
  cr_ow : cs_ow st = o_width (conv_geo c w h m S);
  cr_oh : cs_oh st = o_height (conv_geo c w h m S);
  cr_group : 0 < cv_group c;
  cr_in_groups : m mod cv_group c = 0;
  cr_out_groups : cv_omaps c mod cv_group c = 0;
  cr_im2col : wf (cs_im2col st) /\ has_shape (cs_im2col st) (cv_kw c * cv_kh c * m) (cs_ow st) (cs_oh st) S;
  cr_sms : wf (cs_sms st) /\ has_shape (cs_sms st) (cv_omaps c) (cs_ow st) (cs_oh st) S;
  cr_sms2 : wf (cs_sms2 st) /\ has_shape (cs_sms2 st) (cv_omaps c) (cs_ow st) (cs_oh st) S;
  cr_deltax : wf (cs_deltax st) /\ has_shape (cs_deltax st) (cv_kw c * cv_kh c * m) (cs_ow st) (cs_oh st) S;
  cr_ones : wf (cs_ones st) /\ has_shape (cs_ones st) 1 (cs_ow st * cs_oh st * S) 1 1 /\ contents (cs_ones st) (fun _ _ _ _ => n1 K);
  cr_weights : wf (cs_weights st) /\ has_shape (cs_weights st) (cv_omaps c) (cv_kw c) (cv_kh c) (m / cv_group c) /\ contents (cs_weights st) wt;
  cr_weights_delta : wf (cs_weights_delta st) /\ has_shape (cs_weights_delta st) (cv_omaps c) (cv_kw c) (cv_kh c) (m / cv_group c);
  cr_bias : wf (cs_bias st) /\ has_shape (cs_bias st) 1 (cv_omaps c) 1 1 /\ contents (cs_bias st) (fun o _ _ _ => b o);
  cr_bias_delta : wf (cs_bias_delta st) /\ has_shape (cs_bias_delta st) 1 (cv_omaps c) 1 1
}.

(** Sum over the kernel window of weight times zero-padded input. *)
Definition window (c : conv) (w h m : nat) (wt img : nat -> nat -> nat -> nat -> D) (x y o s : nat) : D :=
  let mg := m / cv_group c in
  nsum K mg (fun i => nsum K (cv_kh c) (fun ky => nsum K (cv_kw c) (fun kx =>
    wt kx ky i o *!
    padded K w h img (Z.of_nat (x * cv_sw c + kx) - Z.of_nat (cv_pw c)) (Z.of_nat (y * cv_sh c + ky) - Z.of_nat (cv_ph c))
           (o / (cv_omaps c / cv_group c) * mg + i) s))).

(** Gradient of the sum of output times [dl] with respect to a weight. *)
Definition weight_gradient (c : conv) (w h m ow oh S : nat) (img dl : nat -> nat -> nat -> nat -> D) (kx ky i o : nat) : D :=
  let mg := m / cv_group c in
  nsum K S (fun s => nsum K oh (fun y => nsum K ow (fun x =>
    dl x y o s *!
    padded K w h img (Z.of_nat (x * cv_sw c + kx) - Z.of_nat (cv_pw c)) (Z.of_nat (y * cv_sh c + ky) - Z.of_nat (cv_ph c))
           (o / (cv_omaps c / cv_group c) * mg + i) s))).

(** Gradient with respect to an input pixel: every output whose window covers the pixel
    contributes its gradient times the weight it used. *)
Definition input_gradient (c : conv) (m ow oh : nat) (wt dl : nat -> nat -> nat -> nat -> D) (x y i s : nat) : D :=
  let mg := m / cv_group c in let og := cv_omaps c / cv_group c in
  nsum K (cv_kh c) (fun ky => nsum K (cv_kw c) (fun kx => nsum K oh (fun oy => nsum K ow (fun ox =>
    if (ox * cv_sw c + kx =? x + cv_pw c) && (oy * cv_sh c + ky =? y + cv_ph c)
    then nsum K og (fun o => wt kx ky (i mod mg) (i / mg * og + o) *! dl ox oy (i / mg * og + o) s)
    else n0 K)))).
End ConvSpec.

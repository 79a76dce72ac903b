(** Connecting the layer produces a state as the theorems assume it. *)
From Verif Require Import Base BaseFacts LoopFacts Tensor_Model Tensor_Spec Tensor_Proofs Num Math_Model Math_Spec Math_Proofs
  Conv_Proofs ConvLayer_Model ConvLayer_Spec ConvLayer_Proofs.

(** Replaces the parameters' values, as training or loading does. *)
Definition set_params {D} (st : conv_state (D := D)) (W B : tensor D) : conv_state :=
  mkConvState (cs_geo st) (cs_ow st) (cs_oh st) (cs_im2col st) (cs_sms st) (cs_sms2 st) (cs_deltax st) (cs_ones st)
    W (cs_weights_delta st) B (cs_bias_delta st).

Section Ready.
Context {D : Type}.
Variable K : num D.
Variable junk : nat -> D.

Lemma new_shape (s w h m : nat) : 0 < s -> 0 < w -> 0 < h -> 0 < m ->
  wf (resize junk empty_tensor s w h m) /\ has_shape (resize junk empty_tensor s w h m) s w h m.
Proof.
  intros Hs Hw Hh Hm. split; [apply wf_resize, wf_empty|].
  destruct (resize_data junk (@empty_tensor D) s w h m) as (A & B & C & E & _).
  - assert (0 < s * m * w * h) by (repeat apply Nat.mul_pos_pos; assumption). lia.
  - repeat split; assumption.
Qed.

Lemma clear_filled (t : tensor D) v : wf t ->
  exists t', clear t v None = Ok t' /\ wf t' /\ same_shape t' t /\ contents t' (fun _ _ _ _ => v).
Proof.
  intros Hwf. destruct (clear_all_spec t v Hwf) as (t' & E & W & S & H). exists t'. split; [exact E|]. split; [exact W|].
  split; [exact S|]. intros x y m s Hv. apply H. now apply (same_shape_valid _ _ _ _ _ _ S).
Qed.

Lemma shape_same (t u : tensor D) s w h m : same_shape t u -> has_shape u s w h m -> has_shape t s w h m.
Proof. intros (A & B & C & E) (F & G & H & I). repeat split; congruence. Qed.

Lemma conv_connected_ready c w h m S :
  0 < S -> 0 < m -> 0 < cv_kw c -> 0 < cv_kh c -> 0 < cv_omaps c -> 0 < cv_sw c -> 0 < cv_sh c -> 0 < cv_group c ->
  cv_kw c <= w + 2 * cv_pw c -> cv_kh c <= h + 2 * cv_ph c -> m mod cv_group c = 0 -> cv_omaps c mod cv_group c = 0 ->
  exists st, conv_state_of K junk c w h m S (positions (w + 2 * cv_pw c) (cv_kw c) (cv_sw c))
                           (positions (h + 2 * cv_ph c) (cv_kh c) (cv_sh c)) = Ok st /\
    conv_ready K c st w h m S (fun _ _ _ _ => n0 K) (fun _ => n0 K).
Proof.
  intros HS Hm Hkw Hkh Ho Hsw Hsh Hg F1 F2 M1 M2.
  set (ow := positions (w + _) _ _). set (oh := positions (h + _) _ _).
  assert (How : 0 < ow) by (apply (positions_fit _ _ _ 0 Hsw); lia).
  assert (Hoh : 0 < oh) by (apply (positions_fit _ _ _ 0 Hsh); lia).
  assert (Hmg : 0 < m / cv_group c).
  { apply Nat.div_str_pos. split; [exact Hg|]. apply Nat.mod_divide in M1 as [q ->]; [|lia]. destruct q; lia. }
  unfold conv_state_of. cbv zeta.
  destruct (new_shape 1 (ow * oh * S) 1 1) as [W1 S1]; try (repeat apply Nat.mul_pos_pos; assumption || lia).
  assert (E1 : run_stores (resize junk empty_tensor 1 (ow * oh * S) 1 1)
     (for_ (elements (resize junk empty_tensor 1 (ow * oh * S) 1 1)) (fun i => [(i, Ok (n1 K))])) =
     clear (resize junk empty_tensor 1 (ow * oh * S) 1 1) (n1 K) None) by reflexivity.
  rewrite E1. clear E1. destruct (clear_filled _ (n1 K) W1) as (ones & -> & Wo & So & Co). cbn [bind].
  unfold new_tensor. destruct (new_shape 1 (cv_omaps c) 1 1) as [Wb Sb]; try lia.
  destruct (clear_filled _ (n0 K) Wb) as (bias & -> & Wb' & Sb' & Cb'). cbn [bind].
  destruct (new_shape (cv_omaps c) (cv_kw c) (cv_kh c) (m / cv_group c)) as [Ww Sw]; try assumption.
  destruct (clear_filled _ (n0 K) Ww) as (weights & -> & Ww' & Sw' & Cw'). cbn [bind].
  assert (Hnk : 0 < cv_kw c * cv_kh c * m) by (repeat apply Nat.mul_pos_pos; assumption).
  destruct (new_shape (cv_kw c * cv_kh c * m) ow oh S) as [Wc Sc]; try assumption.
  destruct (new_shape (cv_omaps c) ow oh S) as [Ws Ss]; try assumption.
  eexists. split; [reflexivity|].
  split; cbn [cs_geo cs_ow cs_oh cs_im2col cs_sms cs_sms2 cs_deltax cs_ones cs_weights cs_weights_delta cs_bias cs_bias_delta]; auto.
  - repeat split; auto.
  - split; [exact Wo|]. split; [eapply shape_same; eauto|exact Co].
  - split; [exact Ww'|]. split; [eapply shape_same; eauto|exact Cw'].
  - split; [exact Wb'|]. split; [eapply shape_same; eauto|exact Cb'].
Qed.

Lemma conv_ready_set_params c st w h m S wt b W B wt' b' :
  conv_ready K c st w h m S wt b ->
  wf W -> has_shape W (cv_omaps c) (cv_kw c) (cv_kh c) (m / cv_group c) -> contents W wt' ->
  wf B -> has_shape B 1 (cv_omaps c) 1 1 -> contents B (fun o _ _ _ => b' o) ->
  conv_ready K c (set_params st W B) w h m S wt' b'.
Proof. intros [] HW1 HW2 HW3 HB1 HB2 HB3. split; cbn; auto. Qed.
End Ready.

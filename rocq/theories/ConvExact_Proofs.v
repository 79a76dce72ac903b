(** The convolution layer in exact arithmetic. *)
From Coq Require Import Ring_theory Ring.
From Verif Require Import Base BaseFacts LoopFacts Tensor_Model Tensor_Spec Tensor_Proofs Num Math_Model Math_Spec Math_Proofs
  Conv_Proofs Conv2_Proofs ConvLayer_Model ConvLayer_Spec ConvLayer_Proofs.

Section ExactLayer.
Context {D : Type}.
Variable K : num D.
Hypothesis HK : ring_laws K.
Add Ring DRing3 : (rl_ring K HK).
Notation "x +! y" := (nadd K x y) (at level 50, left associativity).
Notation "x *! y" := (nmul K x y) (at level 40, left associativity).

Lemma nsum_kernel kw kh mg f :
  nsum K (kw * kh * mg) f = nsum K mg (fun i => nsum K kh (fun ky => nsum K kw (fun kx => f ((i * kh + ky) * kw + kx)))).
Proof using HK.
  replace (kw * kh * mg) with (mg * kh * kw) by ring.
  rewrite (nsum_mix K HK (mg * kh) kw), (nsum_mix K HK mg kh). reflexivity.
Qed.

Lemma flat_window_nested c w h m S wt img x y o s :
  flat_window K c w h m S wt img x y o s = window K c w h m wt img x y o s.
Proof using HK.
  unfold flat_window, window. cbv zeta. rewrite nsum_kernel. apply nsum_ext. intros i _. apply nsum_ext. intros ky Hky.
  apply nsum_ext. intros kx Hkx. destruct (encode_map (cv_kw c) (cv_kh c) i ky kx Hkx Hky) as (E1 & E2 & E3). rewrite E1, E2, E3.
  f_equal. set (mg := m / cv_group c). set (q := o / _).
  replace (q * (cv_kw c * cv_kh c * mg) + ((i * cv_kh c + ky) * cv_kw c + kx)) with (((q * mg + i) * cv_kh c + ky) * cv_kw c + kx) by ring.
  exact (col_value_encoded K (conv_geo c w h m S) img x y s (q * mg + i) ky kx Hkx Hky).
Qed.

Lemma nsum_flat w h n f :
  nsum K (w * h * n) (fun j => f (j mod w) ((j / w) mod h) (j / (w * h))) =
  nsum K n (fun s => nsum K h (fun y => nsum K w (fun x => f x y s))).
Proof using HK.
  rewrite nsum_kernel. apply nsum_ext. intros s _. apply nsum_ext. intros y Hy. apply nsum_ext. intros x Hx.
  destruct (encode_map w h s y x Hx Hy) as (E1 & E2 & E3). now rewrite E1, E2, E3.
Qed.

Lemma weight_gradient_nested c w h m ow oh S img dl kx ky i o : kx < cv_kw c -> ky < cv_kh c ->
  n1 K *! nsum K (ow * oh * S) (fun j =>
        dl (j mod ow) ((j / ow) mod oh) o (j / (ow * oh)) *!
               col_value K (conv_geo c w h m S) img (j mod ow) ((j / ow) mod oh) (j / (ow * oh))
                  (o / (cv_omaps c / cv_group c) * (cv_kw c * cv_kh c * (m / cv_group c)) + ((i * cv_kh c + ky) * cv_kw c + kx))) =
  weight_gradient K c w h m ow oh S img dl kx ky i o.
Proof using HK.
  intros Hkx Hky. unfold weight_gradient. cbv zeta. set (mg := m / cv_group c). set (q := o / _).
  replace (q * (cv_kw c * cv_kh c * mg) + ((i * cv_kh c + ky) * cv_kw c + kx)) with (((q * mg + i) * cv_kh c + ky) * cv_kw c + kx) by ring.
  rewrite (nsum_flat ow oh S (fun x y s => dl x y o s *! col_value K (conv_geo c w h m S) img x y s (((q * mg + i) * cv_kh c + ky) * cv_kw c + kx))).
  match goal with |- n1 K *! ?a = ?b => assert (E : a = b); [|rewrite E; ring] end.
  apply nsum_ext. intros s _. apply nsum_ext. intros y _. apply nsum_ext. intros x _. f_equal.
  exact (col_value_encoded K (conv_geo c w h m S) img x y s (q * mg + i) ky kx Hkx Hky).
Qed.

Lemma bias_gradient_nested ow oh S (dl : nat -> nat -> nat -> nat -> D) o :
  n1 K *! nsum K (ow * oh * S) (fun j => n1 K *! dl (j mod ow) ((j / ow) mod oh) o (j / (ow * oh))) =
  nsum K S (fun s => nsum K oh (fun y => nsum K ow (fun x => dl x y o s))).
Proof using HK.
  rewrite (nsum_mul_l K HK), (nsum_flat ow oh S (fun x y s => dl x y o s)). ring.
Qed.

Lemma input_gradient_nested c w h m S wt dl x y i s : i < m -> 0 < m / cv_group c ->
  let g := conv_geo c w h m S in
  fold_left (nadd K) (col_readers g (fun x y s tm => n1 K *! flat_col_delta K c m wt dl x y s tm) x y i s) (n0 K) =
  input_gradient K c m (o_width g) (o_height g) wt dl x y i s.
Proof using HK.
  intros Hi Hmg g. rewrite (readers_gradient K HK g _ x y i s Hi). unfold col_gradient, input_gradient. cbv zeta.
  apply nsum_ext. intros ky Hky. apply nsum_ext. intros kx Hkx. apply nsum_ext. intros oy _. apply nsum_ext. intros ox _.
  destruct ((ox * g_sw g + kx =? x + g_pw g) && (oy * g_sh g + ky =? y + g_ph g)) eqn:E;
    cbn [g conv_geo g_sw g_sh g_pw g_ph] in E; rewrite E; [|reflexivity].
  cbn [g conv_geo g_kw g_kh] in *. unfold flat_col_delta. cbv zeta. set (mg := m / cv_group c) in *. set (og := cv_omaps c / cv_group c).
  set (kg := cv_kw c * cv_kh c * mg).
  assert (Ei : i = i / mg * mg + i mod mg) by (pose proof (Nat.div_mod i mg ltac:(lia)); lia).
  pose proof (Nat.mod_upper_bound i mg ltac:(lia)) as Hmod.
  pose proof (encode_lt (cv_kw c) (cv_kh c) mg (i mod mg) ky kx Hkx Hky Hmod) as Hlt. fold kg in Hlt.
  assert (Et : (i * cv_kh c + ky) * cv_kw c + kx = i / mg * kg + ((i mod mg * cv_kh c + ky) * cv_kw c + kx)).
  { rewrite Ei at 1. unfold kg. ring. }
  rewrite Et. destruct (encode_map (cv_kw c) (cv_kh c) (i mod mg) ky kx Hkx Hky) as (D1 & D2 & D3).
  set (k := (i mod mg * cv_kh c + ky) * cv_kw c + kx) in *. clearbody k kg.
  assert (E1 : (i / mg * kg + k) / kg = i / mg) by (rewrite Nat.div_add_l, (Nat.div_small k kg) by lia; lia).
  assert (E2 : (i / mg * kg + k) mod kg = k) by (rewrite Nat.add_comm, Nat.mod_add, (Nat.mod_small k kg) by lia; lia).
  rewrite E1, E2. rewrite D1, D2, D3. ring.
Qed.

(** The input gradient is the transpose of the convolution: for every image,
    <conv image, dl> = <image, input gradient of dl>. *)
Lemma conv_adjoint c w h m S wt img dl :
  0 < cv_group c -> m mod cv_group c = 0 -> cv_omaps c mod cv_group c = 0 -> 0 < m / cv_group c ->
  let g := conv_geo c w h m S in
  dot K S (o_width g) (o_height g) (cv_omaps c) (window K c w h m wt img) dl =
  dot K S w h m img (input_gradient K c m (o_width g) (o_height g) wt dl).
Proof using HK.
  intros Hg Hm Ho Hmg g. destruct (group_sizes c m Hg Hm) as (_ & _ & G3).
  set (mg := m / cv_group c) in *. set (kg := cv_kw c * cv_kh c * mg) in *. set (og := cv_omaps c / cv_group c) in *.
  assert (Eog : cv_omaps c = cv_group c * og).
  { unfold og. apply Nat.mod_divide in Ho as [q ->]; [rewrite Nat.div_mul by lia; ring|lia]. }
  pose proof (col_adjoint K HK g img (fun x y s tm => n1 K *! flat_col_delta K c m wt dl x y s tm)) as Had.
  transitivity (dot K S w h m img (fun x y m0 s => fold_left (nadd K)
     (col_readers g (fun x0 y0 s0 tm => n1 K *! flat_col_delta K c m wt dl x0 y0 s0 tm) x y m0 s) (n0 K))).
  2:{ unfold dot, tensor_sum. apply nsum_ext. intros s _. apply nsum_ext. intros i Hi. apply nsum_ext. intros y _. apply nsum_ext. intros x _.
      f_equal. now apply input_gradient_nested. }
  change (g_samples g) with S in Had. change (g_width g) with w in Had. change (g_height g) with h in Had. change (g_maps g) with m in Had.
  rewrite <- Had. clear Had. unfold dot, tensor_sum.
  rewrite (nsum_swap K HK (col_maps g) S). apply nsum_ext. intros s _.
  (* both sides as sums over groups *)
  transitivity (nsum K (cv_group c) (fun gr => nsum K og (fun o => nsum K (o_height g) (fun y => nsum K (o_width g) (fun x =>
     nsum K kg (fun k => wt (k mod cv_kw c) ((k / cv_kw c) mod cv_kh c) (k / (cv_kw c * cv_kh c)) (gr * og + o) *!
        col_value K g img x y s (gr * kg + k) *! dl x y (gr * og + o) s)))))).
  { rewrite Eog at 1. rewrite (nsum_mix K HK). apply nsum_ext. intros gr _. apply nsum_ext. intros o Hoo. apply nsum_ext. intros y _.
    apply nsum_ext. intros x _. rewrite <- (flat_window_nested c w h m S wt img x y (gr * og + o) s).
    unfold flat_window. cbv zeta. fold mg. fold kg. fold og. fold g. rewrite <- (nsum_mul_r K HK). apply nsum_ext. intros k _.
    assert (E : (gr * og + o) / og = gr) by (rewrite Nat.div_add_l, Nat.div_small by lia; lia). now rewrite E. }
  assert (Ecm : col_maps g = cv_group c * kg) by (rewrite G3; reflexivity). rewrite Ecm, (nsum_mix K HK).
  apply nsum_ext. intros gr _. symmetry.
  transitivity (nsum K kg (fun k => nsum K (o_height g) (fun y => nsum K (o_width g) (fun x => nsum K og (fun o =>
     wt (k mod cv_kw c) ((k / cv_kw c) mod cv_kh c) (k / (cv_kw c * cv_kh c)) (gr * og + o) *!
        col_value K g img x y s (gr * kg + k) *! dl x y (gr * og + o) s))))).
  { apply nsum_ext. intros k Hk. apply nsum_ext. intros y _. apply nsum_ext. intros x _. unfold flat_col_delta. cbv zeta. fold mg. fold kg. fold og.
    assert (E1 : (gr * kg + k) / kg = gr) by (rewrite Nat.div_add_l, Nat.div_small by lia; lia).
    assert (E2 : (gr * kg + k) mod kg = k) by (rewrite Nat.add_comm, Nat.mod_add, Nat.mod_small by lia; lia).
    rewrite E1, E2. rewrite <- (nsum_mul_l K HK), <- (nsum_mul_r K HK). apply nsum_ext. intros o _. ring. }
  (* bring the sum over the kernel inside and the sum over the outputs outside *)
  rewrite (nsum_swap K HK kg). symmetry. rewrite (nsum_swap K HK og). apply nsum_ext. intros y _.
  rewrite (nsum_swap K HK og). symmetry. rewrite (nsum_swap K HK kg). apply nsum_ext. intros x _. apply (nsum_swap K HK).
Qed.

(** Likewise for the weights. *)
Lemma conv_weight_adjoint c w h m S wt img dl :
  0 < cv_group c -> cv_omaps c mod cv_group c = 0 ->
  let g := conv_geo c w h m S in
  dot K S (o_width g) (o_height g) (cv_omaps c) (window K c w h m wt img) dl =
  dot K (cv_omaps c) (cv_kw c) (cv_kh c) (m / cv_group c) wt (weight_gradient K c w h m (o_width g) (o_height g) S img dl).
Proof using HK.
  intros Hg Ho g. unfold dot, tensor_sum. rewrite (nsum_swap K HK S). apply nsum_ext. intros o _.
  set (mg := m / cv_group c).
  set (T := fun s y x i ky kx => wt kx ky i o *! padded K w h img (Z.of_nat (x * cv_sw c + kx) - Z.of_nat (cv_pw c))
      (Z.of_nat (y * cv_sh c + ky) - Z.of_nat (cv_ph c)) (o / (cv_omaps c / cv_group c) * mg + i) s *! dl x y o s).
  transitivity (nsum K S (fun s => nsum K (o_height g) (fun y => nsum K (o_width g) (fun x =>
    nsum K mg (fun i => nsum K (cv_kh c) (fun ky => nsum K (cv_kw c) (fun kx => T s y x i ky kx))))))).
  { apply nsum_ext. intros s _. apply nsum_ext. intros y _. apply nsum_ext. intros x _. unfold window. cbv zeta. fold mg.
    rewrite <- (nsum_mul_r K HK). apply nsum_ext. intros i _. rewrite <- (nsum_mul_r K HK). apply nsum_ext. intros ky _.
    rewrite <- (nsum_mul_r K HK). apply nsum_ext. intros kx _. reflexivity. }
  transitivity (nsum K mg (fun i => nsum K (cv_kh c) (fun ky => nsum K (cv_kw c) (fun kx =>
    nsum K S (fun s => nsum K (o_height g) (fun y => nsum K (o_width g) (fun x => T s y x i ky kx))))))).
  2:{ apply nsum_ext. intros i _. apply nsum_ext. intros ky _. apply nsum_ext. intros kx _. unfold weight_gradient. cbv zeta. fold mg.
      rewrite <- (nsum_mul_l K HK). apply nsum_ext. intros s _. rewrite <- (nsum_mul_l K HK). apply nsum_ext. intros y _.
      rewrite <- (nsum_mul_l K HK). apply nsum_ext. intros x _. unfold T. ring. }
  transitivity (nsum K mg (fun i => nsum K (cv_kh c) (fun ky => nsum K (cv_kw c) (fun kx => nsum K S (fun s => nsum K (o_height g) (fun y => nsum K (o_width g) (fun x => T s y x i ky kx))))))); [|reflexivity].
  rewrite <- (nsum_swap_out K HK S mg (cv_kh c) (cv_kw c)). apply nsum_ext. intros s _.
  rewrite <- (nsum_swap_out K HK (o_height g) mg (cv_kh c) (cv_kw c)). apply nsum_ext. intros y _.
  rewrite <- (nsum_swap_out K HK (o_width g) mg (cv_kh c) (cv_kw c)). reflexivity.
Qed.
End ExactLayer.

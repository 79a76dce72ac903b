(** C75: the layers of a network do their part of the chain rule. *)
From Coq Require Import Reals Lra.
From Verif Require Import Base BaseFacts LoopFacts Tensor_Model Tensor_Spec Tensor_Proofs Num RealNum Math_Model Math_Spec Math_Proofs
  Conv_Proofs ConvLayer_Model ConvLayer_Spec ConvReady_Proofs Conv_Props Layers_Model Layers_Proofs Layers_Props Act_Model Act_Spec Act_Proofs Act_Props
  Graph_Model Backprop_Model Backprop_Spec Backprop_Proofs BackpropBackward_Proofs BackpropLayers_Model BackpropLayers_Spec BackpropLayers_Proofs.
Local Open Scope nat_scope.
Local Open Scope list_scope.

Lemma same_has {D} (t u : tensor D) s w h m : same_shape t u -> has_shape u s w h m -> has_shape t s w h m.
Proof. intros (A & B & C & E) (F & G & H & I). repeat split; congruence. Qed.

(** ** Inputs of the network *)
Lemma input_differentiates loaded enabled : differentiates (input_behaviour R_num loaded) enabled (length loaded) [] [] [].
Proof.
  intros x p v0 dx dp Ex Ep [Lx _] [Lp _] _. specialize (Lx v0). specialize (Lp v0). rewrite Ex in Lx. rewrite Ep in Lp.
  destruct dx; [|discriminate]. destruct dp; [|discriminate].
  exists (map (fun l => repeat 0%R (length l)) loaded), 0%R. split; [apply map_length|]. split; [exact (all_move_const loaded v0)|].
  split; [exact (derive_const 0 v0)|]. intros delta _. cbn [b_early b_backward input_behaviour fst snd length seq rsum]. split.
  - rewrite dots_zero, dots_nil. ring.
  - split; intros [|i] H; discriminate.
Qed.

(** ** Activations *)
Lemma derive_comp (f g : R -> R) v0 a b : derivable_pt_lim g v0 a -> derivable_pt_lim f (g v0) b -> derivable_pt_lim (fun v => f (g v)) v0 (b * a)%R.
Proof. intros H1 H2. exact (derivable_pt_lim_comp g f v0 a b H1 H2). Qed.

Lemma activation_differentiates fwd (bwd : R -> R -> R) (from_output : bool) d old_out old_delta enabled u x0 :
  0 < size d -> shaped d old_out -> shaped d old_delta -> shaped d x0 -> u <> Observed ->
  (forall e, e < size d -> exists slope, derivable_pt_lim fwd (nth e x0 0%R) slope /\
     forall delta, bwd delta (if from_output then fwd (nth e x0 0%R) else nth e x0 0%R) = (delta * slope)%R) ->
  differentiates (activation_behaviour R_num d (act_ff fwd) (fun i o od id => act_bp bwd (if from_output then o else i) od id) old_out old_delta)
    enabled 1 [u] [x0] [].
Proof.
  intros P Lo Ld L0 Hu Sm x p v0 dx dp Ex Ep Mx [Lp _] _. specialize (Lp v0). rewrite Ep in Lp. destruct dp; [|discriminate]. clear Lp.
  pose proof (proj1 Mx v0) as Lx. rewrite Ex in Lx. destruct dx as [|d0 [|? ?]]; try discriminate. clear Lx.
  assert (M0 : moves (fun v => nth 0 (x v) []) v0 d0) by (apply (proj2 Mx 0); cbn; lia).
  assert (E0 : nth 0 (x v0) [] = x0) by now rewrite Ex.
  destruct (moves_shaped d _ v0 d0 M0) as [S0 Sv]; [now rewrite E0|].
  set (B := activation_behaviour _ _ _ _ _ _).
  assert (Out : forall v, shaped d (nth 0 (b_outputs B (x v) (p v)) []) /\
    forall i j m s, in_range d i j m s -> fn d (nth 0 (b_outputs B (x v) (p v)) []) i j m s = fwd (fn d (nth 0 (x v) []) i j m s)).
  { intros v. destruct (act_ff_spec fwd (tensor_of d (nth 0 (x v) [])) (tensor_of d old_out) (fn d (nth 0 (x v) []))) as (t & E & W & S & C);
      auto using tensor_wf, tensor_same, tensor_contents.
    cbn [b_outputs B activation_behaviour nth]. rewrite E. cbn [written].
    apply (written_at d t _ W (same_has _ _ _ _ _ _ S (tensor_shape d old_out)) C P). }
  assert (Slope : exists sl, forall i j m s, in_range d i j m s -> derivable_pt_lim fwd (fn d x0 i j m s) (sl i j m s) /\
    forall delta, bwd delta (if from_output then fwd (fn d x0 i j m s) else fn d x0 i j m s) = (delta * sl i j m s)%R).
  { assert (Hl : exists l, forall e, e < size d -> derivable_pt_lim fwd (nth e x0 0%R) (nth e l 0%R) /\
      forall delta, bwd delta (if from_output then fwd (nth e x0 0%R) else nth e x0 0%R) = (delta * nth e l 0)%R).
    { clear - Sm. revert Sm. generalize (size d) as n. induction n as [|n IH]; intros Sm; [exists []; intros; lia|].
      destruct IH as (l & Hl); [intros; apply Sm; lia|]. destruct (Sm n (Nat.lt_succ_diag_r n)) as (sn & Hn).
      exists (map (fun e => if e =? n then sn else nth e l 0%R) (seq 0 (S n))). intros e He.
      rewrite (nth_map_seq (fun e => if e =? n then sn else nth e l 0%R)) by exact He.
      destruct (Nat.eqb_spec e n) as [->|Ne]; [exact Hn|]. apply Hl. lia. }
    destruct Hl as (l & Hl). exists (fn d l). intros i j m s V. apply (Hl _ (place_lt d i j m s V)). }
  destruct Slope as (sl & Hsl).
  set (dy := tab d (fun i j m s => (sl i j m s * fn d d0 i j m s)%R)).
  exists [dy], 0%R. split; [reflexivity|]. split; [|split].
  - eapply (all_move_ext (fun v => [nth 0 (b_outputs B (x v) (p v)) []])); [reflexivity|]. apply all_move_one_output.
    apply fn_moves; [intros v; apply Out|]. intros i j m s V.
    apply (derive_ext (fun v => fwd (fn d (nth 0 (x v) []) i j m s))); [intros v; now rewrite (proj2 (Out v))|].
    apply (derive_comp fwd (fun v => fn d (nth 0 (x v) []) i j m s)); [now apply moves_fn|]. rewrite E0. now apply Hsl.
  - exact (derive_const 0 v0).
  - intros delta Hd. apply shape_one in Hd as (a & -> & La). assert (Sa : shaped d a) by (unfold shaped; rewrite La; apply tab_shaped).
    destruct (Out v0) as [So Fo]. rewrite Ex, Ep in So, Fo. cbn [nth] in Fo.
    destruct (act_bp_spec bwd (tensor_of d (if from_output then nth 0 (b_outputs B [x0] []) [] else x0)) (tensor_of d a) (tensor_of d old_delta)
        (fn d (if from_output then nth 0 (b_outputs B [x0] []) [] else x0)) (fn d a)) as (t & E & W & S & C);
      try apply tensor_wf; try apply tensor_same; try apply tensor_contents; auto; try (destruct from_output; auto; fail).
    assert (Eb : b_backward B enabled [x0] [] [a] = ([Some (elements_of t)], [])).
    { cbn [b_backward B activation_behaviour nth]. cbn [b_outputs B activation_behaviour nth] in E. f_equal. f_equal.
      transitivity (written_delta (Ok t)); [|reflexivity]. f_equal. rewrite <- E. destruct from_output; reflexivity. }
    rewrite Eb. cbn [fst snd length seq rsum b_early B activation_behaviour]. unfold handed. cbn [nth or_nothing].
    destruct (written_at d t _ W (same_has _ _ _ _ _ _ S (tensor_shape d old_delta)) C P) as [St Ft].
    split; [|split].
    + rewrite dots_one, dots_nil, (dot_fn d a dy) by apply tab_shaped. rewrite (dot_fn d _ d0 S0).
      rewrite (dot_ext d (fn d a) (fn d (elements_of t)) (fn d dy) (fn d d0)); [ring|].
      intros i j m s V. unfold dy. rewrite fn_tab, Ft by exact V. destruct (Hsl i j m s V) as [_ Hb].
      replace (fn d (if from_output then nth 0 (b_outputs B [x0] []) [] else x0) i j m s) with (if from_output then fwd (fn d x0 i j m s) else fn d x0 i j m s)
        by (destruct from_output; [now rewrite Fo|reflexivity]). rewrite Hb. ring.
    + intros [|i] Hi; [|destruct i; discriminate]. eexists. split; [reflexivity|]. cbn [nth]. now rewrite St, L0.
    + intros [|i] Hi; [injection Hi as Hi; contradiction|destruct i; discriminate].
Qed.

Theorem C75_sigmoid d old_out old_delta enabled u x0 :
  0 < size d -> shaped d old_out -> shaped d old_delta -> shaped d x0 -> u <> Observed ->
  differentiates (sigmoid_layer R_num Rdiv exp d old_out old_delta) enabled 1 [u] [x0] [].
Proof.
  intros P Lo Ld L0 Hu. apply (activation_differentiates _ _ true); auto. intros e _. eexists. split.
  - apply (derive_ext logistic); [intros v; symmetry; apply sigmoid_logistic|apply logistic_derivative].
  - intros delta. rewrite sigmoid_logistic. unfold sigmoid_back. cbn. ring.
Qed.
Theorem C75_tanh d old_out old_delta enabled u x0 :
  0 < size d -> shaped d old_out -> shaped d old_delta -> shaped d x0 -> u <> Observed ->
  differentiates (tanh_layer R_num Rdiv exp 2%R d old_out old_delta) enabled 1 [u] [x0] [].
Proof.
  intros P Lo Ld L0 Hu. apply (activation_differentiates _ _ true); auto. intros e _. eexists. split.
  - apply (derive_ext tanh); [intros v; symmetry; apply tangent_tanh|apply tanh_derivative].
  - intros delta. rewrite tangent_tanh. reflexivity.
Qed.
(** The rectifier has no derivative at 0. *)
Theorem C75_rectifier d old_out old_delta enabled u x0 :
  0 < size d -> shaped d old_out -> shaped d old_delta -> shaped d x0 -> u <> Observed -> (forall e, e < size d -> nth e x0 0%R <> 0%R) ->
  differentiates (rectifier_layer R_num R_positive d old_out old_delta) enabled 1 [u] [x0] [].
Proof.
  intros P Lo Ld L0 Hu Hz. apply (activation_differentiates _ _ false); auto. intros e He. eexists. split.
  - apply (derive_ext ramp); [intros v; symmetry; apply rectify_ramp|apply ramp_derivative, Hz, He].
  - intros delta. unfold rectify_back, R_positive. cbn. destruct (Rlt_dec 0 (nth e x0 0%R)); ring.
Qed.

(** ** Layers with one output *)
Lemma one_output (B : behaviour R) x p v0 d (F : R -> nat -> nat -> nat -> nat -> R) G : 0 < size d ->
  (forall v, exists t, b_outputs B (x v) (p v) = [elements_of t] /\ wf t /\
     has_shape t (d_samples d) (d_width d) (d_height d) (d_maps d) /\ contents t (F v)) ->
  (forall i j m s, in_range d i j m s -> derivable_pt_lim (fun v => F v i j m s) v0 (G i j m s)) ->
  all_move (fun v => b_outputs B (x v) (p v)) v0 [tab d G].
Proof.
  intros P H Dv.
  assert (Out : forall v, b_outputs B (x v) (p v) = [nth 0 (b_outputs B (x v) (p v)) []] /\ shaped d (nth 0 (b_outputs B (x v) (p v)) []) /\
    forall i j m s, in_range d i j m s -> fn d (nth 0 (b_outputs B (x v) (p v)) []) i j m s = F v i j m s).
  { intros v. destruct (H v) as (t & E & W & S & C). rewrite E. cbn [nth]. split; [reflexivity|]. apply (written_at d t _ W S C P). }
  apply (all_move_ext (fun v => [nth 0 (b_outputs B (x v) (p v)) []])); [intros v; symmetry; apply Out|].
  apply all_move_one_output, fn_moves; [intros v; apply Out|]. intros i j m s V.
  apply (derive_ext (fun v => F v i j m s)); [intros v; symmetry; now apply Out|now apply Dv].
Qed.

(** ** Sum and concatenation *)
Lemma two_inputs x v0 dx (x0 x1 : list R) da db : x v0 = [x0; x1] -> all_move x v0 dx -> shaped da x0 -> shaped db x1 ->
  exists d0 d1, dx = [d0; d1] /\ shaped da d0 /\ shaped db d1 /\ (forall v, shaped da (nth 0 (x v) [])) /\ (forall v, shaped db (nth 1 (x v) [])) /\
    moves (fun v => nth 0 (x v) []) v0 d0 /\ moves (fun v => nth 1 (x v) []) v0 d1.
Proof.
  intros Ex [L M] S0 S1. pose proof (L v0) as Lx. rewrite Ex in Lx. destruct dx as [|d0 [|d1 [|? ?]]]; try discriminate. clear Lx.
  assert (M0 : moves (fun v => nth 0 (x v) []) v0 d0) by (apply (M 0); cbn; lia).
  assert (M1 : moves (fun v => nth 1 (x v) []) v0 d1) by (apply (M 1); cbn; lia).
  destruct (moves_shaped da _ v0 d0 M0) as [A1 A2]; [now rewrite Ex|]. destruct (moves_shaped db _ v0 d1 M1) as [B1 B2]; [now rewrite Ex|].
  exists d0, d1. auto 10.
Qed.
Lemma no_params p v0 dp : p v0 = [] -> all_move p v0 dp -> dp = [].
Proof. intros Ep [L _]. specialize (L v0). rewrite Ep in L. now destruct dp. Qed.

Theorem C75_sum d old_out old_a old_b enabled u1 u2 x0 x1 :
  0 < size d -> shaped d old_out -> shaped d old_a -> shaped d old_b -> shaped d x0 -> shaped d x1 -> u1 <> Observed -> u2 <> Observed ->
  differentiates (sum_behaviour R_num d old_out old_a old_b) enabled 1 [u1; u2] [x0; x1] [].
Proof.
  intros P Lo La Lb L0 L1 H1 H2 x p v0 dx dp Ex Ep Mx Mp _. apply (no_params p v0 dp Ep) in Mp as ->.
  destruct (two_inputs x v0 dx x0 x1 d d Ex Mx L0 L1) as (d0 & d1 & -> & S0 & S1 & V0 & V1 & M0 & M1).
  exists [tab d (fun i j m s => fn d d0 i j m s + fn d d1 i j m s)%R], 0%R. split; [reflexivity|]. split; [|split].
  - apply (one_output _ x p v0 d (fun v i j m s => fn d (nth 0 (x v) []) i j m s + fn d (nth 1 (x v) []) i j m s)%R _ P).
    + intros v. destruct (C41_sum_forward R_num (tensor_of d (nth 0 (x v) [])) (tensor_of d (nth 1 (x v) [])) (tensor_of d old_out)
        (fn d (nth 0 (x v) [])) (fn d (nth 1 (x v) [])) (d_samples d) (d_width d) (d_height d) (d_maps d)) as (t & E & W & S & C);
        auto using tensor_wf, tensor_shape, tensor_contents.
      exists t. cbn [b_outputs sum_behaviour]. rewrite E. split; [reflexivity|]. split; [exact W|]. split; [exact (same_has _ _ _ _ _ _ S (tensor_shape d old_out))|exact C].
    + intros i j m s V. apply (derivable_pt_lim_plus (fun v => fn d (nth 0 (x v) []) i j m s) (fun v => fn d (nth 1 (x v) []) i j m s)); now apply moves_fn.
  - exact (derive_const 0 v0).
  - intros delta Hd. apply shape_one in Hd as (a & -> & Sa). rewrite tab_shaped in Sa.
    destruct (C41_sum_backward R_num (tensor_of d a) (tensor_of d old_a) (tensor_of d old_b) (fn d a) (d_samples d) (d_width d) (d_height d) (d_maps d))
      as (a' & b' & E & Wa & Sha & Ca & Wb & Shb & Cb); auto using tensor_wf, tensor_shape, tensor_contents.
    cbn [b_backward b_early sum_behaviour nth]. rewrite E. cbn [bind fst snd written_delta length seq rsum]. unfold handed. cbn [nth or_nothing].
    destruct (written_at d a' _ Wa (same_has _ _ _ _ _ _ Sha (tensor_shape d old_a)) Ca P) as [Sa' Fa].
    destruct (written_at d b' _ Wb (same_has _ _ _ _ _ _ Shb (tensor_shape d old_b)) Cb P) as [Sb' Fb].
    split; [|split].
    + rewrite dots_one, dots_nil, (dot_fn d a) by apply tab_shaped. rewrite (dot_fn d (elements_of a') d0 S0), (dot_fn d (elements_of b') d1 S1).
      rewrite (dot_ext d (fn d (elements_of a')) (fn d a) (fn d d0) (fn d d0)), (dot_ext d (fn d (elements_of b')) (fn d a) (fn d d1) (fn d d1)).
      2,3: intros i j m s V; rewrite ?Fa, ?Fb by exact V; reflexivity.
      rewrite Rplus_0_r, Rplus_0_r, Rplus_0_r, <- dot_plus. apply dot_ext. intros i j m s V. now rewrite fn_tab.
    + intros [|[|i]] Hi; [| |destruct i; discriminate]; (eexists; split; [reflexivity|]); cbn [nth]; [rewrite Sa', L0|rewrite Sb', L1]; reflexivity.
    + intros [|[|i]] Hi; [injection Hi as Hi; contradiction|injection Hi as Hi; contradiction|destruct i; discriminate].
Qed.

Lemma dot_maps ss w h ma mb f g :
  Math_Spec.dot R_num ss w h (ma + mb) f g =
  (Math_Spec.dot R_num ss w h ma f g + Math_Spec.dot R_num ss w h mb (fun x y m s => f x y (ma + m)%nat s) (fun x y m s => g x y (ma + m)%nat s))%R.
Proof.
  unfold Math_Spec.dot, tensor_sum. rewrite <- (nsum_add R_num R_ring_laws ss). apply nsum_ext. intros s _. apply (nsum_app R_num R_ring_laws).
Qed.
Theorem C75_concat da db old_out old_a old_b enabled u1 u2 x0 x1 :
  d_samples db = d_samples da -> d_width db = d_width da -> d_height db = d_height da ->
  0 < size da -> 0 < size db -> shaped (concat_dims da db) old_out -> shaped da old_a -> shaped db old_b -> shaped da x0 -> shaped db x1 ->
  u1 <> Observed -> u2 <> Observed ->
  differentiates (concat_behaviour R_num da db old_out old_a old_b) enabled 1 [u1; u2] [x0; x1] [].
Proof.
  intros D1 D2 D3 Pa Pb Lo La Lb L0 L1 H1 H2 x p v0 dx dp Ex Ep Mx Mp _. apply (no_params p v0 dp Ep) in Mp as ->.
  destruct (two_inputs x v0 dx x0 x1 da db Ex Mx L0 L1) as (d0 & d1 & -> & S0 & S1 & V0 & V1 & M0 & M1).
  set (o := concat_dims da db). assert (P : 0 < size o). { unfold size in *. cbn. nia. }
  set (G := fun i j m s => if m <? d_maps da then fn da d0 i j m s else fn db d1 i j (m - d_maps da) s).
  exists [tab o G], 0%R. split; [reflexivity|]. split; [|split].
  - apply (one_output _ x p v0 o (fun v i j m s => if m <? d_maps da then fn da (nth 0 (x v) []) i j m s else fn db (nth 1 (x v) []) i j (m - d_maps da) s) _ P).
    + intros v. destruct (concat_ff_correct R_num (tensor_of da (nth 0 (x v) [])) (tensor_of db (nth 1 (x v) [])) (tensor_of o old_out)
        (fn da (nth 0 (x v) [])) (fn db (nth 1 (x v) [])) (d_samples da) (d_width da) (d_height da) (d_maps da) (d_maps db)) as (t & E & W & S & C);
        auto using tensor_wf, tensor_shape, tensor_contents; try (repeat split; auto; fail).
      exists t. cbn [b_outputs concat_behaviour]. fold o. rewrite E. split; [reflexivity|]. split; [exact W|]. split; [exact (same_has _ _ _ _ _ _ S (tensor_shape o old_out))|exact C].
    + intros i j m s (Vx & Vy & Vm & Vs). cbn in Vx, Vy, Vm, Vs. unfold G. destruct (Nat.ltb_spec m (d_maps da)).
      * apply moves_fn; [exact M0|exact S0|now repeat split].
      * apply moves_fn; [exact M1|exact S1|]. unfold in_range. rewrite D1, D2, D3. repeat split; auto. lia.
  - exact (derive_const 0 v0).
  - intros delta Hd. apply shape_one in Hd as (a & -> & Sa). rewrite tab_shaped in Sa.
    destruct (C41_concat_backward R_num (tensor_of o a) (tensor_of da old_a) (tensor_of db old_b) (fn o a) (d_samples da) (d_width da) (d_height da) (d_maps da) (d_maps db))
      as (a' & b' & E & Wa & Sha & Ca & Wb & Shb & Cb); auto using tensor_wf, tensor_shape, tensor_contents; try (repeat split; auto; fail).
    cbn [b_backward b_early concat_behaviour nth]. fold o. rewrite E. cbn [bind fst snd written_delta length seq rsum]. unfold handed. cbn [nth or_nothing].
    destruct (written_at da a' _ Wa (same_has _ _ _ _ _ _ Sha (tensor_shape da old_a)) Ca Pa) as [Sa' Fa].
    destruct (written_at db b' _ Wb (same_has _ _ _ _ _ _ Shb (tensor_shape db old_b)) Cb Pb) as [Sb' Fb].
    split; [|split].
    + rewrite dots_one, dots_nil, (dot_fn o a) by apply tab_shaped. rewrite (dot_fn da (elements_of a') d0 S0), (dot_fn db (elements_of b') d1 S1).
      cbn [o concat_dims d_samples d_width d_height d_maps]. rewrite dot_maps, D1, D2, D3.
      rewrite Rplus_0_r, Rplus_0_r, Rplus_0_r. f_equal.
      * apply dot_ext. intros i j m s V. rewrite Fa by exact V. f_equal. destruct V as (Vx & Vy & Vm & Vs).
        rewrite fn_tab by (repeat split; cbn; auto; lia). unfold G. now rewrite (proj2 (Nat.ltb_lt _ _) Vm).
      * rewrite <- D1, <- D2, <- D3. apply dot_ext. intros i j m s V. rewrite Fb by exact V. f_equal. destruct V as (Vx & Vy & Vm & Vs).
        rewrite fn_tab by (unfold in_range; cbn; repeat split; try congruence; lia). unfold G. rewrite (proj2 (Nat.ltb_ge _ _)) by lia.
        now replace (d_maps da + m - d_maps da) with m by lia.
    + intros [|[|i]] Hi; [| |destruct i; discriminate]; (eexists; split; [reflexivity|]); cbn [nth]; [rewrite Sa', L0|rewrite Sb', L1]; reflexivity.
    + intros [|[|i]] Hi; [injection Hi as Hi; contradiction|injection Hi as Hi; contradiction|destruct i; discriminate].
Qed.

(** ** The loss *)
Lemma derive_positions d (F : R -> nat -> nat -> nat -> nat -> R) G v0 :
  (forall i j m s, in_range d i j m s -> derivable_pt_lim (fun v => F v i j m s) v0 (G i j m s)) ->
  derivable_pt_lim (fun v => tensor_sum R_num (d_samples d) (d_width d) (d_height d) (d_maps d) (F v)) v0
    (tensor_sum R_num (d_samples d) (d_width d) (d_height d) (d_maps d) G).
Proof.
  intros H. unfold tensor_sum. apply derive_sum. intros s Hs. apply derive_sum. intros m Hm. apply derive_sum. intros y Hy. apply derive_sum. intros x Hx.
  apply H. now repeat split.
Qed.
Theorem C75_loss d lw old_delta enabled u x0 label weight :
  0 < size d -> shaped d old_delta -> shaped d x0 -> shaped d label -> shaped (weight_dims d) weight -> u <> Observed ->
  differentiates (error_behaviour R_num Rdiv 2%R d lw old_delta) enabled 0 [u; Constant; Constant] [x0; label; weight] [].
Proof.
  intros P Lo L0 L1 L2 Hu x p v0 dx dp Ex Ep Mx Mp Hc. apply (no_params p v0 dp Ep) in Mp as ->.
  pose proof (proj1 Mx v0) as Lx. rewrite Ex in Lx. destruct dx as [|d0 [|d1 [|d2 [|? ?]]]]; try discriminate. clear Lx.
  assert (M0 : moves (fun v => nth 0 (x v) []) v0 d0) by (apply (proj2 Mx 0); cbn; lia).
  assert (M1 : moves (fun _ => label) v0 d1).
  { apply (moves_ext (fun v => nth 1 (x v) [])); [intros v; apply (Hc 1 v eq_refl)|]. apply (proj2 Mx 1); cbn; lia. }
  assert (M2 : moves (fun _ => weight) v0 d2).
  { apply (moves_ext (fun v => nth 2 (x v) [])); [intros v; apply (Hc 2 v eq_refl)|]. apply (proj2 Mx 2); cbn; lia. }
  destruct (moves_shaped d _ v0 d0 M0) as [S0 V0]; [now rewrite Ex|].
  assert (Pw : 0 < size (weight_dims d)). { unfold size in *. cbn. nia. }
  set (wf_ := fun i j s => fn (weight_dims d) weight i j 0 s).
  assert (Cw : contents (tensor_of (weight_dims d) weight) (fun i j _ s => wf_ i j s)).
  { intros i j m s V. rewrite (tensor_contents (weight_dims d) weight L2 i j m s V). unfold wf_. destruct V as (_ & _ & Vm & _). cbn in Vm. now replace m with 0 by lia. }
  set (B := error_behaviour _ _ _ _ _ _).
  assert (El : forall v, b_loss B (x v) (p v) = weighted_loss lw (d_samples d) (d_width d) (d_height d) (d_maps d) (fn d (nth 0 (x v) [])) (fn d label) wf_).
  { intros v. cbn [b_loss B error_behaviour]. rewrite (Hc 1 v eq_refl), (Hc 2 v eq_refl). cbn [nth].
    rewrite (error_loss_spec lw _ _ _ (fn d (nth 0 (x v) [])) (fn d label) wf_ (d_samples d) (d_width d) (d_height d) (d_maps d));
      auto using tensor_wf, tensor_shape, tensor_contents. }
  destruct (error_ff_spec lw (tensor_of d x0) (tensor_of d label) (tensor_of (weight_dims d) weight) (tensor_of d old_delta) (fn d x0) (fn d label) wf_
    (d_samples d) (d_width d) (d_height d) (d_maps d)) as (t & Et & Wt & St & Ct); auto using tensor_wf, tensor_shape, tensor_contents.
  destruct (written_at d t _ Wt (same_has _ _ _ _ _ _ St (tensor_shape d old_delta)) Ct P) as [Se Fe].
  exists [], (dot (elements_of t) d0). split; [reflexivity|]. split; [exact (all_move_none v0)|]. split.
  - apply (derive_ext (fun v => weighted_loss lw (d_samples d) (d_width d) (d_height d) (d_maps d) (fn d (nth 0 (x v) [])) (fn d label) wf_)); [intros v; symmetry; apply El|].
    rewrite (dot_fn d _ d0 S0). unfold weighted_loss, Math_Spec.dot, Rdiv.
    set (F := fun v i j m s => ((fn d (nth 0 (x v) []) i j m s - fn d label i j m s) ^ 2 * wf_ i j s * lw)%R).
    set (G := fun i j m s => (2 * (fn d x0 i j m s - fn d label i j m s) * fn d d0 i j m s * wf_ i j s * lw)%R).
    replace (tensor_sum R_num (d_samples d) (d_width d) (d_height d) (d_maps d) (fun i j m s => nmul R_num (fn d (elements_of t) i j m s) (fn d d0 i j m s)))
      with (tensor_sum R_num (d_samples d) (d_width d) (d_height d) (d_maps d) G * / 2)%R.
    + assert (Dt := derive_positions d F G v0). apply (derive_ext (fun v => / 2 * tensor_sum R_num (d_samples d) (d_width d) (d_height d) (d_maps d) (F v))%R); [intros v; apply Rmult_comm|].
      rewrite Rmult_comm. apply (derivable_pt_lim_scal (fun v => tensor_sum R_num (d_samples d) (d_width d) (d_height d) (d_maps d) (F v))). apply Dt.
      intros i j m s V. unfold F, G.
      assert (Dm := moves_fn d _ v0 d0 M0 S0 i j m s V). cbv beta in Dm.
      assert (Ds := derivable_pt_lim_minus _ _ v0 _ _ Dm (derive_const (fn d label i j m s) v0)).
      assert (Dp := derivable_pt_lim_mult _ _ v0 _ _ Ds Ds). unfold minus_fct, mult_fct in Dp.
      assert (Dq := derivable_pt_lim_scal _ (wf_ i j s * lw) v0 _ Dp). unfold mult_real_fct in Dq.
      rewrite Ex in Dq. cbn [nth] in Dq.
      eapply derive_ext; [|eapply (derive_value _ _ _ _ Dq)]; [intros v; cbn; ring|]. ring.
    + assert (Hs : forall c f, (tensor_sum R_num (d_samples d) (d_width d) (d_height d) (d_maps d) f * c)%R =
        tensor_sum R_num (d_samples d) (d_width d) (d_height d) (d_maps d) (fun i j m s => f i j m s * c)%R).
      { intros c f. unfold tensor_sum.
        assert (Hr : forall n g, (nsum R_num n g * c)%R = nsum R_num n (fun i => g i * c)%R) by (intros; symmetry; apply (nsum_mul_r R_num R_ring_laws)).
        rewrite Hr. apply nsum_ext. intros. rewrite Hr. apply nsum_ext. intros. rewrite Hr. apply nsum_ext. intros. apply Hr. }
      rewrite Hs. apply tensor_sum_ext. intros i j m s V1 V2 V3 V4. unfold G. cbn. rewrite Fe by (now repeat split). field.
  - intros delta Hd. destruct delta; [|discriminate]. cbn [b_backward b_early B error_behaviour fst snd length seq rsum nth].
    rewrite Et. cbn [written_delta]. unfold handed. cbn [nth or_nothing]. split; [|split].
    + rewrite !dots_nil, !dot_zero_l. ring.
    + intros [|[|[|i]]] Hi; try discriminate; [|destruct i; discriminate]. eexists. split; [reflexivity|]. cbn [nth]. now rewrite Se, L0.
    + intros [|[|[|i]]] Hi; try discriminate; [injection Hi as Hi; contradiction|destruct i; discriminate].
Qed.

(** ** Convolution *)
Lemma group_index omaps group m o i : 0 < group -> omaps mod group = 0 -> m mod group = 0 -> o < omaps -> i < m / group ->
  o / (omaps / group) * (m / group) + i < m.
Proof.
  intros Hg Ho Hm Lo Li. pose proof (Nat.div_mod omaps group ltac:(lia)) as Eo. pose proof (Nat.div_mod m group ltac:(lia)) as Em.
  rewrite Ho in Eo. rewrite Hm in Em. set (og := omaps / group) in *. set (mg := m / group) in *.
  assert (0 < og) by (destruct og; nia). assert (Hq : o / og < group) by (apply Nat.div_lt_upper_bound; [lia|]; nia).
  set (q := o / og) in *. clearbody q og mg. nia.
Qed.

Lemma derive_window c d (wt img : R -> list R) v0 dwt dimg i j o s :
  moves wt v0 dwt -> moves img v0 dimg -> shaped (weights_dims c d) dwt -> shaped d dimg ->
  0 < cv_group c -> cv_omaps c mod cv_group c = 0 -> d_maps d mod cv_group c = 0 -> o < cv_omaps c -> s < d_samples d ->
  derivable_pt_lim (fun v => window R_num c (d_width d) (d_height d) (d_maps d) (fn (weights_dims c d) (wt v)) (fn d (img v)) i j o s) v0
    (window R_num c (d_width d) (d_height d) (d_maps d) (fn (weights_dims c d) dwt) (fn d (img v0)) i j o s +
     window R_num c (d_width d) (d_height d) (d_maps d) (fn (weights_dims c d) (wt v0)) (fn d dimg) i j o s)%R.
Proof.
  intros Mw Mi Sw Si Hg Ho Hm Lo Ls. unfold window. cbv zeta.
  assert (Ha : forall n (a b : nat -> R), (nsum R_num n a + nsum R_num n b)%R = nsum R_num n (fun i => (a i + b i)%R)) by (intros; symmetry; apply (nsum_add R_num R_ring_laws)).
  rewrite Ha. apply derive_sum. intros k Hk. rewrite Ha. apply derive_sum. intros ky Hky. rewrite Ha. apply derive_sum. intros kx Hkx.
  set (X := (Z.of_nat (i * cv_sw c + kx) - Z.of_nat (cv_pw c))%Z). set (Y := (Z.of_nat (j * cv_sh c + ky) - Z.of_nat (cv_ph c))%Z).
  assert (Dw : derivable_pt_lim (fun v => fn (weights_dims c d) (wt v) kx ky k o) v0 (fn (weights_dims c d) dwt kx ky k o)) by (apply moves_fn; auto; now repeat split).
  assert (Dp : derivable_pt_lim (fun v => padded R_num (d_width d) (d_height d) (fn d (img v)) X Y (o / (cv_omaps c / cv_group c) * (d_maps d / cv_group c) + k) s) v0
    (padded R_num (d_width d) (d_height d) (fn d dimg) X Y (o / (cv_omaps c / cv_group c) * (d_maps d / cv_group c) + k) s)).
  { unfold padded. destruct ((0 <=? X) && (X <? Z.of_nat (d_width d)) && (0 <=? Y) && (Y <? Z.of_nat (d_height d)))%Z eqn:E; [|exact (derive_const 0 v0)].
    rewrite !andb_true_iff in E. destruct E as [[[E1 E2] E3] E4]. apply moves_fn; [exact Mi|exact Si|].
    repeat split; [lia|lia|now apply group_index|exact Ls]. }
  exact (derivable_pt_lim_mult _ _ v0 _ _ Dw Dp).
Qed.

Theorem C75_convolution c d st old_out old_delta enabled u x0 weights bias wt0 b0 :
  conv_ready R_num c st (d_width d) (d_height d) (d_maps d) (d_samples d) wt0 b0 -> 0 < d_maps d / cv_group c ->
  0 < size d -> 0 < size (out_dims c d) -> 0 < size (weights_dims c d) ->
  shaped (out_dims c d) old_out -> shaped d old_delta -> shaped d x0 -> shaped (weights_dims c d) weights -> shaped (bias_dims c) bias ->
  u <> Observed -> (u = Asked -> enabled = true) -> (enabled = true -> cv_pw c = 0 /\ d_height d <= d_width d) ->
  differentiates (conv_behaviour R_num c d st old_out old_delta) enabled 1 [u] [x0] [weights; bias].
Proof.
  intros Rd Hmg P Po Pw Lo Ld L0 Lw Lb Hu Hue Hsafe x p v0 dx dp Ex Ep Mx Mp Hc.
  pose proof (cr_ow _ _ _ _ _ _ _ _ _ Rd) as Eow. pose proof (cr_oh _ _ _ _ _ _ _ _ _ Rd) as Eoh.
  pose proof (cr_group _ _ _ _ _ _ _ _ _ Rd) as Hg. pose proof (cr_in_groups _ _ _ _ _ _ _ _ _ Rd) as Hig. pose proof (cr_out_groups _ _ _ _ _ _ _ _ _ Rd) as Hog.
  assert (Eo : mkDims (d_samples d) (cs_ow st) (cs_oh st) (cv_omaps c) = out_dims c d) by (unfold out_dims; rewrite Eow, Eoh; reflexivity).
  set (o := out_dims c d) in *. set (dw := weights_dims c d) in *. set (db := bias_dims c) in *.
  assert (Pb : 0 < size db). { unfold size in *. cbn in *. nia. }
  pose proof (proj1 Mx v0) as Lx. rewrite Ex in Lx. destruct dx as [|d0 [|? ?]]; try discriminate. clear Lx.
  assert (M0 : moves (fun v => nth 0 (x v) []) v0 d0) by (apply (proj2 Mx 0); cbn; lia).
  destruct (moves_shaped d _ v0 d0 M0) as [S0 V0]; [now rewrite Ex|].
  destruct (two_inputs p v0 dp weights bias dw db Ep Mp Lw Lb) as (d1 & d2 & -> & S1 & S2 & V1 & V2 & M1 & M2).
  set (bf := fun l q => fn db l q 0 0 0).
  assert (Cb : forall l, shaped db l -> contents (tensor_of db l) (fun q _ _ _ => bf l q)).
  { intros l L q y m s V. rewrite (tensor_contents db l L q y m s V). destruct V as (_ & V2' & V3 & V4). cbn in V2', V3, V4. unfold bf.
    replace y with 0 by lia. replace m with 0 by lia. now replace s with 0 by lia. }
  assert (Ry : forall ps, shaped dw (nth 0 ps []) -> shaped db (nth 1 ps []) ->
    conv_ready R_num c (with_params c d st ps) (d_width d) (d_height d) (d_maps d) (d_samples d) (fn dw (nth 0 ps [])) (bf (nth 1 ps []))).
  { intros ps A1 A2. apply (conv_ready_set_params R_num c st _ _ _ _ wt0 b0 (tensor_of dw (nth 0 ps [])) (tensor_of db (nth 1 ps [])) _ _ Rd);
      auto using tensor_wf, tensor_shape, tensor_contents; apply tensor_shape. }
  assert (Fw : forall ins ps, shaped d (nth 0 ins []) -> shaped dw (nth 0 ps []) -> shaped db (nth 1 ps []) ->
    exists st' t, conv_ff R_num c false 0%R (with_params c d st ps) (tensor_of d (nth 0 ins [])) (tensor_of o old_out) = Ok (st', t) /\ wf t /\
      has_shape t (d_samples o) (d_width o) (d_height o) (d_maps o) /\
      contents t (fun i j q s => bf (nth 1 ps []) q + window R_num c (d_width d) (d_height d) (d_maps d) (fn dw (nth 0 ps [])) (fn d (nth 0 ins [])) i j q s)%R).
  { intros ins ps A0 A1 A2. destruct (C35_forward R_num R_ring_laws c (with_params c d st ps) _ _ _ _ _ _ false 0%R (tensor_of d (nth 0 ins [])) (tensor_of o old_out)
      (fn d (nth 0 ins [])) (Ry ps A1 A2)) as (st' & t & E & W & Sh & C & _); auto using tensor_wf, tensor_shape, tensor_contents.
    { cbn [with_params cs_ow cs_oh]. rewrite Eow, Eoh. exact (tensor_shape o old_out). }
    exists st', t. split; [exact E|]. split; [exact W|]. split; [exact (same_has _ _ _ _ _ _ Sh (tensor_shape o old_out))|].
    intros i j q s V. rewrite (C i j q s V). f_equal. cbn. ring. }
  set (G := fun i j q s => (bf d2 q + (window R_num c (d_width d) (d_height d) (d_maps d) (fn dw d1) (fn d x0) i j q s +
     window R_num c (d_width d) (d_height d) (d_maps d) (fn dw weights) (fn d d0) i j q s))%R).
  exists [tab o G], 0%R. split; [reflexivity|]. split; [|split].
  - apply (one_output _ x p v0 o (fun v i j q s => bf (nth 1 (p v) []) q +
      window R_num c (d_width d) (d_height d) (d_maps d) (fn dw (nth 0 (p v) [])) (fn d (nth 0 (x v) [])) i j q s)%R _ Po).
    + intros v. destruct (Fw (x v) (p v) (V0 v) (V1 v) (V2 v)) as (st' & t & E & W & Sh & C). exists t. cbn [b_outputs conv_behaviour]. rewrite Eo.
      change (n0 R_num) with 0%R. rewrite E. auto.
    + intros i j q s (Vx & Vy & Vq & Vs). unfold G. cbn in Vq, Vs.
      apply (derivable_pt_lim_plus (fun v => bf (nth 1 (p v) []) q)).
      * unfold bf. apply moves_fn; [exact M2|exact S2|]. repeat split; cbn; lia.
      * assert (H := derive_window c d (fun v => nth 0 (p v) []) (fun v => nth 0 (x v) []) v0 d1 d0 i j q s M1 M0 S1 S0 Hg Hog Hig Vq Vs).
        cbv beta in H. rewrite Ex, Ep in H. exact H.
  - exact (derive_const 0 v0).
  - intros delta Hd. apply shape_one in Hd as (a & -> & Sa). rewrite tab_shaped in Sa.
    destruct (Fw [x0] [weights; bias] L0 Lw Lb) as (st1 & t & E & W & Sh & C). cbn [nth] in E, C.
    destruct (C64_backward R_num R_ring_laws c (with_params c d st [weights; bias]) (d_width d) (d_height d) (d_maps d) (d_samples d) (fn dw weights) (bf bias)
      (tensor_of d x0) (tensor_of o old_out) (tensor_of o a) (tensor_of d old_delta) (fn d x0) (fn o a) enabled st1 t) as (st2 & id & Eb & Cw & Cbi & Ci & Ci' & Wid & Sid & R2);
      auto using tensor_wf, tensor_shape, tensor_contents, tensor_same.
    { exact (Ry [weights; bias] Lw Lb). }
    { cbn [with_params cs_ow cs_oh]. rewrite Eow, Eoh. exact (tensor_shape o old_out). }
    cbn [with_params cs_ow cs_oh] in Cw, Cbi, Ci.
    destruct (cr_weights_delta _ _ _ _ _ _ _ _ _ R2) as [Ww Sw]. destruct (cr_bias_delta _ _ _ _ _ _ _ _ _ R2) as [Wb Sb].
    destruct (written_at dw _ _ Ww Sw Cw Pw) as [Hw Fwt]. destruct (written_at db _ _ Wb Sb Cbi Pb) as [Hb Fb].
    assert (Ebk : b_backward (conv_behaviour R_num c d st old_out old_delta) enabled [x0] [weights; bias] [a] =
      ([if enabled then Some (elements_of id) else None], [elements_of (cs_weights_delta st2); elements_of (cs_bias_delta st2)])).
    { cbn [b_backward conv_behaviour nth]. rewrite Eo. change (n0 R_num) with 0%R. rewrite E. cbn [bind fst]. rewrite Eb. reflexivity. }
    rewrite Ebk. cbn [fst snd length seq rsum b_early conv_behaviour]. unfold handed. cbn [nth].
    assert (Sid' := same_has _ _ _ _ _ _ Sid (tensor_shape d old_delta)).
    split; [|split].
    + rewrite dots_one, dots_two, (dot_fn o a) by apply tab_shaped. rewrite (dot_fn dw _ d1 S1), (dot_fn db _ d2 S2).
      destruct (C64_transpose R_num R_ring_laws c (d_width d) (d_height d) (d_maps d) (d_samples d) (fn dw weights) (fn d d0) (fn o a) Hg Hig Hog Hmg) as [T1 _].
      destruct (C64_transpose R_num R_ring_laws c (d_width d) (d_height d) (d_maps d) (d_samples d) (fn dw d1) (fn d x0) (fn o a) Hg Hig Hog Hmg) as [_ T2].
      cbv zeta in T1, T2.
      rewrite (dot_ext o (fn o a) (fn o a) (fn o (tab o G)) G) by (intros i j m s V; now rewrite fn_tab). unfold G. rewrite dot_plus, dot_plus.
      rewrite (dot_comm _ _ _ _ (fn o a) (fun x y m s => window R_num c (d_width d) (d_height d) (d_maps d) (fn dw d1) (fn d x0) x y m s)).
      rewrite (dot_comm _ _ _ _ (fn o a) (fun x y m s => window R_num c (d_width d) (d_height d) (d_maps d) (fn dw weights) (fn d d0) x y m s)).
      assert (B1 : Math_Spec.dot R_num (d_samples o) (d_width o) (d_height o) (d_maps o) (fun x y m s => window R_num c (d_width d) (d_height d) (d_maps d) (fn dw d1) (fn d x0) x y m s) (fn o a) =
        Math_Spec.dot R_num (d_samples dw) (d_width dw) (d_height dw) (d_maps dw) (fn dw (elements_of (cs_weights_delta st2))) (fn dw d1)).
      { etransitivity; [exact T2|]. rewrite dot_comm. apply (dot_ext dw). intros i j m s V. rewrite Fwt by exact V. rewrite Eow, Eoh. reflexivity. }
      assert (B2 : Math_Spec.dot R_num (d_samples o) (d_width o) (d_height o) (d_maps o) (fun x y m s => window R_num c (d_width d) (d_height d) (d_maps d) (fn dw weights) (fn d d0) x y m s) (fn o a) =
        dot (or_nothing (match (if enabled then Some (elements_of id) else None) with Some d => Some d | None => None end)) d0).
      { etransitivity; [exact T1|]. destruct enabled.
        - destruct (written_at d id _ Wid Sid' (Ci eq_refl) P) as [Hl Fi]. cbn [or_nothing]. rewrite (dot_fn d _ d0 S0), dot_comm. apply (dot_ext d).
          intros i j m s V. rewrite Fi by exact V. rewrite Eow, Eoh. reflexivity.
        - cbn [or_nothing]. assert (Eu : u = Constant) by (destruct u; [specialize (Hue eq_refl); discriminate|reflexivity|contradiction]). subst u.
          assert (Z : forall e, e < length d0 -> nth e d0 0%R = 0%R).
          { apply (moves_still x0 v0). apply (moves_ext (fun v => nth 0 (x v) [])); [intros v; apply (Hc 0 v eq_refl)|exact M0]. }
          rewrite dot_zero_l, dot_comm, (dot_ext d _ (fn d (tab d (input_gradient R_num c (d_maps d) (d_width o) (d_height o) (fn dw weights) (fn o a)))) _ (fn d d0)).
          + rewrite <- (dot_fn d _ d0 S0). apply dot_zeros. exact Z.
          + intros i j m s V. now rewrite fn_tab. }
      assert (B3 : Math_Spec.dot R_num (d_samples o) (d_width o) (d_height o) (d_maps o) (fn o a) (fun _ _ q _ => bf d2 q) =
        Math_Spec.dot R_num (d_samples db) (d_width db) (d_height db) (d_maps db) (fn db (elements_of (cs_bias_delta st2))) (fn db d2)).
      { rewrite (dot_ext db _ (fun q _ _ _ => nsum R_num (d_samples o) (fun s => nsum R_num (d_height o) (fun y => nsum R_num (d_width o) (fun x => fn o a x y q s)))) _ (fun q _ _ _ => bf d2 q)).
        - unfold Math_Spec.dot, tensor_sum. cbn [db bias_dims d_samples d_width d_height d_maps].
          assert (One : forall f, nsum R_num 1 f = f 0) by (intros f; cbn; ring). rewrite !One.
          rewrite (nsum_swap R_num R_ring_laws). apply nsum_ext. intros q _. cbn [nmul R_num].
          assert (Hr : forall n g cc, (nsum R_num n g * cc)%R = nsum R_num n (fun i => g i * cc)%R) by (intros; symmetry; apply (nsum_mul_r R_num R_ring_laws)).
          rewrite Hr. apply nsum_ext. intros s _. rewrite Hr. apply nsum_ext. intros y _. now rewrite Hr.
        - intros q j m s V. rewrite Fb by exact V. rewrite Eow, Eoh. destruct V as (_ & A2 & A3 & A4). cbn in A2, A3, A4. unfold bf.
          replace j with 0 by lia. replace m with 0 by lia. replace s with 0 by lia. reflexivity. }
      rewrite B1, B2, B3. ring.
    + intros [|i] Hi; [|destruct i; discriminate]. injection Hi as Hi. rewrite (Hue Hi).
      destruct (written_at d id _ Wid Sid' (Ci (Hue Hi)) P) as [Hl _]. eexists. split; [reflexivity|]. now rewrite Hl, L0.
    + intros [|i] Hi; [injection Hi as Hi; contradiction|destruct i; discriminate].
Qed.

Print Assumptions C75_sigmoid.
Print Assumptions C75_tanh.
Print Assumptions C75_rectifier.
Print Assumptions C75_sum.
Print Assumptions C75_concat.
Print Assumptions C75_loss.
Print Assumptions C75_convolution.

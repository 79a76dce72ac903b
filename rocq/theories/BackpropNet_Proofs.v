(** Lemmas for C75: layers by their shapes, and the connections of a built network. *)
From Coq Require Import Reals Relations Permutation Lra.
From Verif Require Import Base BaseFacts LoopFacts Tensor_Model Tensor_Spec Tensor_Proofs Num RealNum Math_Model Math_Spec Math_Proofs
  Conv_Proofs ConvLayer_Model ConvLayer_Spec ConvReady_Proofs Conv_Props Layers_Model Layers_Proofs Layers_Props Act_Model Act_Spec Act_Proofs Act_Props
  Float32 Pool_Model Pool_Spec Pool_Proofs LRN_Model LRN_Spec LRN_Proofs Conv2_Proofs
  Graph_Model Graph_Spec Dfs_Proofs Graph_Proofs GraphAdd_Proofs Graph_Props Accumulate_Model
  Backprop_Model Backprop_Spec Backprop_Proofs BackpropForward_Proofs BackpropBackward_Proofs BackpropBuilt_Proofs
  BackpropLayers_Model BackpropLayers_Spec BackpropLayers_Proofs BackpropLayers_Props BackpropMap_Proofs BackpropMap_Props BackpropNet_Spec.
Local Open Scope nat_scope.
Local Open Scope list_scope.

Lemma forall2_one {A B} (P : A -> B -> Prop) a l : Forall2 P [a] l -> exists b, l = [b] /\ P a b.
Proof. intros H. inversion H as [|? b ? l' H1 H2]; subst. inversion H2; subst. eauto. Qed.
Lemma forall2_two {A B} (P : A -> B -> Prop) a1 a2 l : Forall2 P [a1; a2] l -> exists b1 b2, l = [b1; b2] /\ P a1 b1 /\ P a2 b2.
Proof. intros H. inversion H as [|? b ? l' H1 H2]; subst. apply forall2_one in H2 as (b2 & -> & H2). eauto. Qed.
Lemma forall2_three {A B} (P : A -> B -> Prop) a1 a2 a3 l : Forall2 P [a1; a2; a3] l -> exists b1 b2 b3, l = [b1; b2; b3] /\ P a1 b1 /\ P a2 b2 /\ P a3 b3.
Proof. intros H. inversion H as [|? b ? l' H1 H2]; subst. apply forall2_two in H2 as (b2 & b3 & -> & H2 & H3). eauto 8. Qed.
Lemma forall2_nil {A B} (P : A -> B -> Prop) l : Forall2 P [] l -> l = [].
Proof. intros H. now inversion H. Qed.
Lemma length_one {A} (l : list A) : length l = 1 -> exists a, l = [a].
Proof. destruct l as [|a [|? ?]]; try discriminate. eauto. Qed.
Lemma length_two {A} (l : list A) : length l = 2 -> exists a b, l = [a; b].
Proof. destruct l as [|a [|b [|? ?]]]; try discriminate. eauto. Qed.

Lemma observer_differentiates enabled uses x0 : ~ In Asked uses -> length x0 = length uses ->
  differentiates (observer_behaviour R_num) enabled 0 uses x0 [].
Proof.
  intros Hu Lu x p v0 dx dp Ex Ep Mx Mp _. apply (no_params p v0 dp Ep) in Mp as ->.
  exists [], 0%R. split; [reflexivity|]. split; [exact (all_move_none v0)|]. split; [exact (derive_const 0 v0)|].
  intros delta Hd. destruct delta; [|discriminate]. cbn [b_early b_backward observer_behaviour fst snd]. unfold handed.
  assert (Hn : forall i, @nth (option (list R)) i [] None = None) by (intros [|i]; reflexivity).
  split; [|split].
  - rewrite rsum_zero; [rewrite !dots_nil; ring|]. intros i _. rewrite Hn. cbn [or_nothing]. apply dot_zero_l.
  - intros i Hi. apply nth_error_In in Hi. contradiction.
  - intros i _. now rewrite Hn.
Qed.

Lemma mapping_differentiates q enabled u x : maps_well q -> maps_smoothly q x -> shaped (maps_from q) x -> u <> Observed -> (u = Asked -> enabled = true) ->
  differentiates (maps_as q) enabled 1 [u] [x] [].
Proof.
  intros W S L Hu He. destruct q; cbn [maps_well maps_smoothly maps_from maps_to maps_as] in *; decompose [and] W; clear W.
  - now apply C75_border.
  - now apply C75_prior.
  - now apply C75_upscale.
  - now apply C75_pooling.
  - now apply C75_strided_pooling.
  - now apply C75_normalization.
Qed.

(** A layer that is used well does its part of the chain rule. *)
Lemma part_differentiates p enabled uses xs ps :
  fits p -> used_well p uses -> smooth p xs -> Forall2 shaped (takes p) xs -> Forall2 shaped (tunes p) ps ->
  length uses = length (takes p) -> (In Asked uses <-> enabled = true) ->
  differentiates (acts p) enabled (length (makes p)) uses xs ps.
Proof.
  assert (No : forall u, ~ In Observed [u] -> u <> Observed) by (intros u H ->; apply H; now left).
  assert (No2 : forall u v, ~ In Observed [u; v] -> u <> Observed /\ v <> Observed) by (intros u v H; split; intros ->; apply H; cbn; auto).
  intros F U Sm T P L Ea. destruct p as [ds loaded|d out delta|d out delta|d out delta|d out a b|d1 d2 out a b|d w delta|c d st out delta|q|ds|d n delta];
    cbn [fits used_well smooth takes makes tunes acts length] in *.
  - apply forall2_nil in T as ->. apply forall2_nil in P as ->. destruct uses; [|discriminate]. rewrite (Forall2_length F). apply input_differentiates.
  - apply forall2_one in T as (x & -> & T). apply forall2_nil in P as ->. apply length_one in L as (u & ->). destruct F as (F1 & F2 & F3). apply C75_sigmoid; auto.
  - apply forall2_one in T as (x & -> & T). apply forall2_nil in P as ->. apply length_one in L as (u & ->). destruct F as (F1 & F2 & F3). apply C75_tanh; auto.
  - apply forall2_one in T as (x & -> & T). apply forall2_nil in P as ->. apply length_one in L as (u & ->). destruct F as (F1 & F2 & F3). apply C75_rectifier; auto.
    intros e He Hz. cbn [nth] in Sm. apply Sm. rewrite <- Hz. apply nth_In. now rewrite T.
  - apply forall2_two in T as (x & y & -> & T1 & T2). apply forall2_nil in P as ->. apply length_two in L as (u & v & ->). destruct (No2 u v U). destruct F as (F1 & F2 & F3 & F4). apply C75_sum; auto.
  - apply forall2_two in T as (x & y & -> & T1 & T2). apply forall2_nil in P as ->. apply length_two in L as (u & v & ->). destruct (No2 u v U).
    destruct F as (F1 & F2 & F3 & F4 & F5 & F6 & F7 & F8). apply C75_concat; auto.
  - apply forall2_three in T as (x & y & z & -> & T1 & T2 & T3). apply forall2_nil in P as ->.
    destruct uses as [|u [|u1 [|u2 [|? ?]]]]; try discriminate. destruct U as (U1 & U2 & U3). cbn [nth] in U2, U3. subst u1 u2. destruct F as (F1 & F2). apply C75_loss; auto.
    intros ->. apply U1. now left.
  - apply forall2_one in T as (x & -> & T). apply forall2_two in P as (w & b & -> & P1 & P2). apply length_one in L as (u & ->).
    destruct F as ((wt & bb & F1) & F2 & F3 & F4 & F5 & F6 & F7). destruct U as [U1 U2]. apply (C75_convolution c d st out delta enabled u x w b wt bb); auto.
    + intros ->. apply Ea. now left.
    + intros He. apply U2, Ea, He.
  - apply forall2_one in T as (x & -> & T). apply forall2_nil in P as ->. apply length_one in L as (u & ->). apply mapping_differentiates; auto.
    intros ->. apply Ea. now left.
  - apply forall2_nil in P as ->. apply observer_differentiates; [exact U|]. rewrite L. symmetry. apply (Forall2_length T).
  - apply forall2_one in T as (x & -> & T). apply forall2_nil in P as ->. subst uses. rewrite (proj1 Ea) by now left. rewrite repeat_length.
    unfold shaped, size in *. apply accumulation_differentiates; [rewrite F|rewrite T]; ring.
Qed.

Lemma forall2_repeat {A B} (P : A -> B -> Prop) a b n : P a b -> Forall2 P (repeat a n) (repeat b n).
Proof. intros H. induction n; cbn; constructor; auto. Qed.
Lemma shaped_out d (r : res (tensor R)) (t old : tensor R) : r = Ok t -> wf t -> same_shape t old -> has_shape old (d_samples d) (d_width d) (d_height d) (d_maps d) ->
  0 < size d -> Forall2 shaped [d] [written r].
Proof.
  intros -> W S H P. constructor; [|constructor]. cbn [written].
  destruct W as [We Wd]. apply (same_has _ _ _ _ _ _ S) in H as (S1 & S2 & S3 & S4). unfold elements_of. destruct (data t) as [l|] eqn:E.
  - destruct Wd as [Wd _]. unfold shaped, size. rewrite Wd, We, S1, S2, S3, S4. reflexivity.
  - exfalso. destruct Wd as (A & _). unfold size in P. rewrite <- S1, A in P. cbn in P. lia.
Qed.

Lemma mapping_outputs q x ps : maps_well q -> shaped (maps_from q) x -> Forall2 shaped [maps_to q] (b_outputs (maps_as q) [x] ps).
Proof.
  intros W L. destruct q as [bx by_ d out delta|ratio d out delta|rw rh d out delta|rw rh d ix iy out delta|rw rh sw sh d mask out delta|alpha beta method n d sums out delta];
    cbn [maps_well maps_from maps_to maps_as] in *; cbn [b_outputs map_behaviour nth border_behaviour prior_behaviour upscale_behaviour pool_behaviour strided_behaviour normalization_behaviour].
  - destruct W as (P & Lo & Ld). set (o := border_dims bx by_ d) in *. assert (Po : 0 < size o) by (unfold size, o in *; cbn in *; nia).
    destruct (C41_border_forward R_num bx by_ (tensor_of d x) (tensor_of o out) (fn d x) (d_samples d) (d_width d) (d_height d) (d_maps d))
      as (t & E & Wt & S & C); auto using tensor_wf, tensor_shape, tensor_contents.
    apply (shaped_out o _ t (tensor_of o out)); auto. exact (tensor_shape o out).
  - destruct W as (P & Lo & Ld). set (o := prior_dims d) in *. assert (Po : 0 < size o) by (unfold size, o in *; cbn in *; nia).
    destruct (prior_ff_correct R_num ratio (tensor_of d x) (tensor_of o out) (fn d x) (d_samples d) (d_width d) (d_height d) (d_maps d))
      as (t & E & Wt & S & C); auto using tensor_wf, tensor_shape, tensor_contents; [exact (tensor_shape o out)|].
    apply (shaped_out o _ t (tensor_of o out)); auto. exact (tensor_shape o out).
  - destruct W as (Hw & Hh & P & Lo & Ld). set (o := upscale_dims rw rh d) in *. assert (Po : 0 < size o).
    { unfold size, o in *. cbn in *. destruct (d_samples d * d_maps d); [cbn in P; lia|]. destruct (d_height d); [rewrite Nat.mul_0_r in P; cbn in P; lia|].
      destruct (d_width d); [lia|]. destruct rw; [lia|]. destruct rh; [lia|]. cbn. lia. }
    destruct (C38_upscale R_num (tensor_of d x) (tensor_of o out) rw rh (n1 R_num) (fn d x)) as (t & E & Wt & S & _); auto using tensor_wf, tensor_contents.
    { repeat split; cbn; lia. }
    apply (shaped_out o _ t (tensor_of o out)); auto. exact (tensor_shape o out).
  - destruct W as (Hw & Hh & Ew & Eh & Bw & Bh & P & Lx & Ly & Lo & Ld). set (o := pool_dims rw rh d) in *.
    set (w := d_width d / rw) in *. set (h := d_height d / rh) in *.
    assert (Dw : d_width d = w * rw) by (pose proof (Nat.div_mod (d_width d) rw); lia).
    assert (Dh : d_height d = h * rh) by (pose proof (Nat.div_mod (d_height d) rh); lia).
    assert (Po : 0 < size o).
    { unfold size in *. cbn. fold w h. rewrite Dw, Dh in P. destruct w; [rewrite Nat.mul_0_r in P; lia|]. destruct h; [rewrite Nat.mul_0_r in P; cbn in P; lia|].
      destruct (d_samples d * d_maps d); [cbn in P; lia|]. cbn. lia. }
    assert (Si : has_shape (tensor_of d x) (d_samples d) (w * rw) (h * rh) (d_maps d)) by (rewrite <- Dw, <- Dh; apply tensor_shape).
    assert (Wf : forall l : list f32, length l = size o -> wf (tensor_of o l)) by (intros l Ll; unfold wf; cbn; auto).
    destruct (pool_ff_scan R_order rw rh w h (d_maps d) (d_samples d) (tensor_of d x) (tensor_of o out) (tensor_of o ix) (tensor_of o iy) (fn d x))
      as (mix' & miy' & t & E & Wt & S & C); auto using tensor_wf, tensor_contents; try (exact (tensor_shape o _)).
    apply (shaped_out o _ t (tensor_of o out)); auto; [rewrite E; reflexivity|exact (tensor_shape o out)].
  - destruct W as (Hw & Hh & B & P & Po & Lm & Lo & Ld). set (o := strided_dims rw rh sw sh d) in *.
    assert (Wf : wf (tensor_of o mask)) by (unfold wf; cbn; auto).
    destruct (apool_ff_scan R_order rw rh sw sh (d_width d) (d_height d) (d_maps d) (d_samples d) (tensor_of d x) (tensor_of o out) (tensor_of o mask) (fn d x))
      as (mask' & t & E & Wt & S & C); auto using tensor_wf, tensor_contents, tensor_shape; try (exact (tensor_shape o _)).
    apply (shaped_out o _ t (tensor_of o out)); auto; [rewrite E; reflexivity|exact (tensor_shape o out)].
  - destruct W as (Ha & Hn & Sq & P & Ls & Lo & Ld).
    destruct (lrn_ff_spec R_num (fun n => alpha / INR n)%R (fun z => Rpower z beta) Rdiv method n (tensor_of d x) (tensor_of d sums) (tensor_of d out) (fn d x))
      as (sums' & t & E & _ & _ & Wt & S & _); auto using tensor_wf, tensor_contents; try (repeat split; reflexivity).
    { cbn. lia. }
    apply (shaped_out d _ t (tensor_of d out)); auto; [rewrite E; reflexivity|exact (tensor_shape d out)].
Qed.

(** The outputs of a layer have the shapes it makes. *)
Lemma part_outputs p xs ps : fits p -> Forall2 shaped (takes p) xs -> Forall2 shaped (tunes p) ps -> Forall2 shaped (makes p) (b_outputs (acts p) xs ps).
Proof.
  intros F T P.
  assert (Act : forall fwd bp d out delta, 0 < size d -> shaped d out -> Forall2 shaped [d] xs ->
    Forall2 shaped [d] (b_outputs (activation_behaviour R_num d (act_ff fwd) bp out delta) xs ps)).
  { intros fwd bp d out delta Pd Lo Tx. apply forall2_one in Tx as (x & -> & Tx). cbn [b_outputs activation_behaviour nth].
    destruct (act_ff_spec fwd (tensor_of d x) (tensor_of d out) (fn d x)) as (t & E & W & S & C); auto using tensor_wf, tensor_same, tensor_contents.
    exact (shaped_out d _ t (tensor_of d out) E W S (tensor_shape d out) Pd). }
  destruct p as [ds loaded|d out delta|d out delta|d out delta|d out a b|d1 d2 out a b|d w delta|c d st out delta|q|ds|d n delta];
    cbn [fits takes makes tunes acts] in *.
  - exact F.
  - apply Act; intuition auto.
  - apply Act; intuition auto.
  - apply Act; intuition auto.
  - apply forall2_two in T as (x & y & -> & T1 & T2). destruct F as (Pd & F1 & F2 & F3). cbn [b_outputs sum_behaviour nth].
    destruct (C41_sum_forward R_num (tensor_of d x) (tensor_of d y) (tensor_of d out) (fn d x) (fn d y) (d_samples d) (d_width d) (d_height d) (d_maps d)) as (t & E & W & S & C);
      auto using tensor_wf, tensor_shape, tensor_contents. exact (shaped_out d _ t (tensor_of d out) E W S (tensor_shape d out) Pd).
  - apply forall2_two in T as (x & y & -> & T1 & T2). destruct F as (D1 & D2 & D3 & P1 & P2 & F1 & F2 & F3). cbn [b_outputs concat_behaviour nth].
    set (o := concat_dims d1 d2) in *. assert (Po : 0 < size o). { unfold size in *. cbn. nia. }
    destruct (concat_ff_correct R_num (tensor_of d1 x) (tensor_of d2 y) (tensor_of o out) (fn d1 x) (fn d2 y) (d_samples d1) (d_width d1) (d_height d1) (d_maps d1) (d_maps d2)) as (t & E & W & S & C);
      auto using tensor_wf, tensor_shape, tensor_contents; try (repeat split; auto; fail). exact (shaped_out o _ t (tensor_of o out) E W S (tensor_shape o out) Po).
  - constructor.
  - apply forall2_one in T as (x & -> & T). apply forall2_two in P as (w & b & -> & P1 & P2).
    destruct F as ((wt & bb & Rd) & F2 & F3 & F4 & F5 & F6 & F7). cbn [b_outputs conv_behaviour].
    pose proof (cr_ow _ _ _ _ _ _ _ _ _ Rd) as Eow. pose proof (cr_oh _ _ _ _ _ _ _ _ _ Rd) as Eoh.
    assert (Eo : mkDims (d_samples d) (cs_ow st) (cs_oh st) (cv_omaps c) = out_dims c d) by (unfold out_dims; rewrite Eow, Eoh; reflexivity).
    rewrite Eo. set (o := out_dims c d) in *. set (dw := weights_dims c d) in *. set (db := bias_dims c) in *.
    assert (Pb : 0 < size db). { unfold size in *. cbn in *. nia. }
    set (bf := fun l q => fn db l q 0 0 0).
    assert (Cb : forall l, shaped db l -> contents (tensor_of db l) (fun q _ _ _ => bf l q)).
    { intros l L q y m s V. rewrite (tensor_contents db l L q y m s V). destruct V as (_ & V2' & V3 & V4). cbn in V2', V3, V4. unfold bf.
      replace y with 0 by lia. replace m with 0 by lia. now replace s with 0 by lia. }
    assert (Ry : conv_ready R_num c (with_params c d st [w; b]) (d_width d) (d_height d) (d_maps d) (d_samples d) (fn dw w) (bf b)).
    { apply (conv_ready_set_params R_num c st _ _ _ _ wt bb (tensor_of dw w) (tensor_of db b) _ _ Rd); auto using tensor_wf, tensor_shape, tensor_contents; apply tensor_shape. }
    destruct (C35_forward R_num R_ring_laws c (with_params c d st [w; b]) _ _ _ _ _ _ false 0%R (tensor_of d x) (tensor_of o out) (fn d x) Ry)
      as (st' & t & E & W & Sh & C & _); auto using tensor_wf, tensor_shape, tensor_contents.
    { cbn [with_params cs_ow cs_oh]. rewrite Eow, Eoh. exact (tensor_shape o out). }
    apply (shaped_out o _ t (tensor_of o out)); auto; [|exact (tensor_shape o out)].
    cbn [nth]. change (n0 R_num) with 0%R. rewrite E. reflexivity.
  - apply forall2_one in T as (x & -> & T). now apply mapping_outputs.
  - constructor.
  - apply forall2_one in T as (x & -> & T). cbn [b_outputs accumulation_behaviour nth]. now apply forall2_repeat.
Qed.

(** ** Shapes in a network *)
Definition typed (h : list node) (l : list nat) (P : nat -> part) : Prop :=
  forall n, In n l -> buffers_of h n = length (makes (P n)) /\
    Forall2 (fun c d => exists q, In q l /\ c_node c = Some q /\ nth_error (makes (P q)) (c_buffer c) = Some d) (inputs_of h n) (takes (P n)).

Lemma forall2_nth_error {A B} (P : A -> B -> Prop) l l' i a : Forall2 P l l' -> nth_error l i = Some a -> exists b, nth_error l' i = Some b /\ P a b.
Proof.
  intros H. revert i. induction H as [|x y l l' Hp H IH]; intros [|i] E; try discriminate; cbn in *; [injection E as ->; eauto|now apply IH].
Qed.

Lemma typed_inputs h l P theta m :
  ordered h l -> typed h l P -> (forall n, In n l -> fits (P n)) -> (forall n, In n l -> Forall2 shaped (tunes (P n)) (theta n)) ->
  forall n, In n l -> Forall2 shaped (takes (P n)) (input_data h (fold_left (forward_node (fun n => acts (P n)) theta h) l m) n).
Proof.
  intros Or Ty Fi Th. set (layer := fun n => acts (P n)). set (m' := fold_left (forward_node layer theta h) l m).
  assert (Out : forall n b d, In n l -> Forall2 shaped (takes (P n)) (input_data h m' n) -> nth_error (makes (P n)) b = Some d -> shaped d (m_data m' n b)).
  { intros n b d Hn Hi Eb. pose proof (forward_equations layer h theta l m n Or Hn b) as F. cbv zeta in F. fold m' in F. rewrite F.
    pose proof (part_outputs (P n) _ (theta n) (Fi n Hn) Hi (Th n Hn)) as O. fold (layer n) in O.
    destruct (forall2_nth_error _ _ _ _ _ O Eb) as (y & Ey & Sy). assert (Hb : b < length (b_outputs (layer n) (input_data h m' n) (theta n))) by (apply nth_error_Some; congruence).
    rewrite (proj2 (Nat.ltb_lt _ _) Hb). rewrite (nth_error_nth _ _ [] Ey). exact Sy. }
  assert (Pre : forall pre post, l = pre ++ post -> forall n, In n pre -> Forall2 shaped (takes (P n)) (input_data h m' n)).
  { induction pre as [|x pre IH] using rev_ind; intros post El n Hn; [destruct Hn|].
    rewrite <- app_assoc in El. cbn [app] in El. apply in_app_or in Hn as [Hn|[<-|[]]]; [now apply (IH (x :: post))|].
    assert (Hx : In x l) by (rewrite El; apply in_or_app; right; now left). destruct (Ty x Hx) as [_ Tx]. unfold input_data.
    assert (Hq : forall c q, In c (inputs_of h x) -> c_node c = Some q -> In q pre).
    { intros c q Hc Eq. apply (before_nodup q x l pre post (proj1 Or) (proj2 Or x c q Hx Hc Eq) El). }
    clear - Tx Hq IH Out El. induction Tx as [|c d cs ds Hc Tx IH']; cbn [map]; constructor.
    - destruct Hc as (q & Hl & Eq & Ed). rewrite Eq. apply Out; auto. apply (IH (x :: post) El). apply (Hq c q); [now left|exact Eq].
    - apply IH'. intros c' q Hc'. apply Hq. now right. }
  intros n Hn. apply (Pre l [] (eq_sym (app_nil_r l)) n Hn).
Qed.

(** ** The connections of a built network *)
Definition delivers (h : list node) (extra : list nat) (c0 c : connection) : Prop :=
  exists q, c_node c0 = Some q /\
    ((c_node c = Some q /\ c_buffer c = c_buffer c0) \/
     exists x nd, In x extra /\ nth_error h x = Some nd /\ c_node c = Some x /\ c_buffer c < n_buffers nd /\ n_inputs nd = [mkConn (Some q) 0 true] /\ c_buffer c0 = 0).

Lemma forall2_nth {A B} (P : A -> B -> Prop) l l' : length l = length l' ->
  (forall i a, nth_error l i = Some a -> exists b, nth_error l' i = Some b /\ P a b) -> Forall2 P l l'.
Proof.
  revert l'. induction l as [|a l IH]; intros [|b l'] L H; try discriminate; constructor.
  - destruct (H 0 a eq_refl) as (b' & E & Hp). injection E as ->. exact Hp.
  - apply IH; [now injection L|]. intros i x Ex. exact (H (S i) x Ex).
Qed.
Lemma settled_node h c : c_node (settled h c) = c_node c /\ c_buffer (settled h c) = c_buffer c.
Proof. unfold settled. destruct (c_node c) as [q|] eqn:E; [|auto]. destruct (_ && _); cbn; auto. Qed.

Lemma built_connections h0 history :
  NoDup history -> closed h0 history -> (forall n nd, In n history -> nth_error h0 n = Some nd -> n_layer nd <> None) ->
  (forall n nd, nth_error h0 n = Some nd -> n_backprop nd = []) -> acyclic (reads h0) history -> well_used h0 history ->
  exists g0 g extra, add_nodes (new_graph h0) (map Some history) = Ok g0 /\ insert_sweeps 2 g0 = Ok g /\
    nodes g = history ++ extra /\
    (forall n nd0, In n history -> nth_error h0 n = Some nd0 -> exists nd, nth_error (heap g) n = Some nd /\
       n_layer nd = n_layer nd0 /\ n_is_input nd = n_is_input nd0 /\ n_buffers nd = n_buffers nd0 /\
       Forall2 (fun c0 c => use_of (heap g) c = use_of h0 (settled h0 c0) /\ delivers (heap g) extra c0 c) (n_inputs nd0) (n_inputs nd)) /\
    (forall x, In x extra -> ~ In x history /\ exists nd q, In q history /\ nth_error (heap g) x = Some nd /\ n_layer nd = Some accumulation_kind /\
       n_is_input nd = false /\ n_inputs nd = [mkConn (Some q) 0 true] /\ is_input_at h0 q = false).
Proof.
  intros Nd Cl Ly Bp Ac [Wo Wi Wu]. destruct (history_run h0 history) as (g0 & E0 & I).
  { apply Forall_forall. intros p Hp. destruct (Cl p Hp) as (nd & En & Hc). exists nd. split; [exact En|].
    split; [now apply (Ly p)|]. intros c Hi _. destruct (Hc c Hi) as (q & Eq & Hq). exists q. split; [exact Eq|].
    destruct (Cl q Hq) as (m & Em & _). apply nth_error_Some. congruence. }
  destruct (C21_built h0 history Nd Cl Ly Bp) as (g0' & E0' & En0 & S0 & A0). assert (g0' = g0) by congruence. subst g0'.
  destruct (C19_accumulation_nodes g0 2 S0 (le_n 2)) as (g & E & _ & A & C & (extra & En & Hx) & Kp & _ & S & A1).
  exists g0, g, extra. rewrite En0 in *. split; [exact E0|]. split; [exact E|]. split; [exact En|].
  assert (Ei : forall q, In q history -> is_input_at (heap g) q = is_input_at h0 q).
  { intros q Hq. apply (kinds_kept h0 history g0 g q Nd Cl Ly Bp E0 E Hq). }
  assert (Ns : forall q, In q history -> shared (heap g0) q = true -> is_input_at h0 q = false).
  { intros q Hq Hs. destruct (Cl q Hq) as (nd & End & _). unfold is_input_at. rewrite End. destruct (n_is_input nd) eqn:Ein; [|reflexivity]. exfalso.
    destruct (hi_heap _ _ _ I q nd End) as (m & Em & _ & _ & _ & F4 & _). pose proof (sound_inputs _ S0 q m Em) as Hb. rewrite F4 in Hb. specialize (Hb Ein).
    unfold shared, backprop_count in Hs. rewrite Em, Hb in Hs. discriminate. }
  split.
  - intros n nd0 Hn Ed0. destruct (hi_heap _ _ _ I n nd0 Ed0) as (nd1 & Ed1 & F1 & F2 & _ & F4 & F5 & _).
    assert (Eh : existsb (Nat.eqb n) history = true) by now apply existsb_nat. rewrite Eh in F5.
    destruct (Kp n nd1 Hn Ed1) as (nd & Ed & K1 & _ & K3 & K4 & K5 & _). exists nd. split; [exact Ed|]. split; [congruence|]. split; [congruence|]. split; [congruence|].
    apply forall2_nth; [rewrite K3, F5, map_length; reflexivity|]. intros i c0 Ec0.
    assert (Hc0 : In c0 (n_inputs nd0)) by now apply nth_error_In in Ec0.
    destruct (Cl n Hn) as (nd0' & Ed0' & Hcl). assert (nd0' = nd0) by congruence. subst nd0'. destruct (Hcl c0 Hc0) as (q & Eq & Hq).
    assert (Ec1 : connection_at (heap g0) n i = Some (settled h0 c0)).
    { unfold connection_at. rewrite Ed1, F5. now apply map_nth_error. }
    destruct (settled_node h0 c0) as [T1 T2].
    destruct (c_backprop (settled h0 c0)) eqn:Eb; [destruct (shared (heap g0) q) eqn:Es|].
    + destruct (A q Hq Es) as (ga & G1 & G2 & (ndg & G3 & G4 & G5 & G6 & G7 & _) & _ & G9 & _). rewrite En0 in G2, G9.
      destruct (G9 n i (settled h0 c0) Hn Ec1) as (b & Hb & Ecg); [congruence|exact Eb|].
      unfold connection_at in Ecg. rewrite Ed in Ecg. exists (mkConn (Some ga) b true). split; [exact Ecg|]. split.
      * unfold use_of. cbn [c_backprop]. now rewrite Eb.
      * exists q. split; [exact Eq|]. right. exists ga, ndg. split.
        { rewrite En in G1. apply in_app_or in G1 as [G1|G1]; [contradiction|exact G1]. }
        split; [exact G3|]. split; [reflexivity|]. split; [cbn [c_buffer]; congruence|]. split; [exact G5|].
        destruct (Cl q Hq) as (ndq & Edq & _). pose proof (Wo n nd0 c0 q ndq Hn Ed0 Hc0 Eq Edq) as Hlt.
        pose proof (Ns q Hq Es) as Hni. unfold is_input_at in Hni. rewrite Edq in Hni. destruct (Wu q ndq Hq Edq Hni) as (_ & Hle & _). lia.
    + assert (Ecg : connection_at (heap g) n i = Some (settled h0 c0)).
      { apply C; [exact Hn|exact Ec1|]. intros q' Eq' _. rewrite T1, Eq in Eq'. injection Eq' as <-. exact Es. }
      unfold connection_at in Ecg. rewrite Ed in Ecg. exists (settled h0 c0). split; [exact Ecg|]. split.
      * unfold use_of. now rewrite Eb.
      * exists q. split; [exact Eq|]. left. split; congruence.
    + assert (Ecg : connection_at (heap g) n i = Some (settled h0 c0)).
      { apply C; [exact Hn|exact Ec1|]. intros q' _ Hb. congruence. }
      unfold connection_at in Ecg. rewrite Ed in Ecg. exists (settled h0 c0). split; [exact Ecg|]. split.
      * unfold use_of. rewrite Eb, T1, Eq. now rewrite (Ei q Hq).
      * exists q. split; [exact Eq|]. left. split; congruence.
  - intros x Hxx. destruct (Hx x Hxx) as (_ & n & Hn & Hs & _ & Nh & (nd & Ed & K1 & K2 & _ & K4 & _) & _). rewrite En0 in Nh. split; [exact Nh|].
    exists nd, n. do 5 (split; [assumption|]). apply (Ns n Hn Hs).
Qed.

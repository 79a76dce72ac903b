(** C75: borders, spatial priors, upscaling, pooling and normalization do their part of the
    chain rule. *)
From Coq Require Import Reals Lra.
From Verif Require Import Base BaseFacts LoopFacts Tensor_Model Tensor_Spec Tensor_Proofs Num RealNum Math_Model Math_Spec Math_Proofs
  Conv_Proofs Conv2_Proofs Conv_Props Layers_Model Layers_Proofs Layers_Props Float32 Pool_Model Pool_Spec Pool_Proofs LRN_Model LRN_Spec LRN_Proofs LRN_Grad Graph_Model Backprop_Model Backprop_Spec
  Backprop_Proofs BackpropBackward_Proofs BackpropLayers_Model BackpropLayers_Spec BackpropLayers_Proofs BackpropLayers_Props BackpropMap_Proofs BackpropNorm_Proofs.
Local Open Scope nat_scope.
Local Open Scope list_scope.

Theorem C75_border bx by_ d old_out old_delta enabled u x0 :
  0 < size d -> shaped (border_dims bx by_ d) old_out -> shaped d old_delta -> shaped d x0 -> u <> Observed -> (u = Asked -> enabled = true) ->
  differentiates (border_behaviour R_num bx by_ d old_out old_delta) enabled 1 [u] [x0] [].
Proof.
  intros P Lo Ld L0 Hu Hue. set (o := border_dims bx by_ d) in *.
  assert (Po : 0 < size o) by (unfold size, o in *; cbn in *; nia).
  set (F := fun (l : list R) x y m s => if (bx / 2 <=? x) && (x <? bx / 2 + d_width d) && (by_ / 2 <=? y) && (y <? by_ / 2 + d_height d) then fn d l (x - bx / 2) (y - by_ / 2) m s else 0%R).
  apply (map_differentiates _ _ enabled u d o x0 F F (fun delta x y m s => fn o delta (x + bx / 2) (y + by_ / 2) m s) enabled); auto.
  - intros l Ll. destruct (C41_border_forward R_num bx by_ (tensor_of d l) (tensor_of o old_out) (fn d l) (d_samples d) (d_width d) (d_height d) (d_maps d))
      as (t & E & W & S & C); auto using tensor_wf, tensor_shape, tensor_contents.
    exists t. split; [exact E|]. split; [exact W|]. split; [exact (same_has _ _ _ _ _ _ S (tensor_shape o old_out))|exact C].
  - intros x v0 dx i j m s M Ex S (V1 & V2 & V3 & V4). cbn in V1, V2, V3, V4. unfold F.
    destruct ((bx / 2 <=? i) && (i <? bx / 2 + d_width d) && (by_ / 2 <=? j) && (j <? by_ / 2 + d_height d)) eqn:E; [|exact (derive_const 0 v0)].
    rewrite !andb_true_iff, !Nat.leb_le, !Nat.ltb_lt in E. apply moves_fn; auto. repeat split; auto; lia.
  - intros delta Sd. destruct (C41_border_backward R_num bx by_ (tensor_of o delta) (tensor_of d old_delta) (fn o delta) (d_samples d) (d_width d) (d_height d) (d_maps d))
      as (t & E & W & S & C); auto using tensor_wf, tensor_shape, tensor_contents; [exact (tensor_shape o delta)|].
    exists t. cbv beta zeta. fold o. rewrite E. split; [reflexivity|]. split; [exact W|]. split; [exact (same_has _ _ _ _ _ _ S (tensor_shape d old_delta))|exact C].
  - intros delta dx Sd Sx. apply border_transpose.
Qed.
Print Assumptions C75_border.

Theorem C75_prior ratio d old_out old_delta enabled u x0 :
  0 < size d -> shaped (prior_dims d) old_out -> shaped d old_delta -> shaped d x0 -> u <> Observed ->
  differentiates (prior_behaviour R_num ratio d old_out old_delta) enabled 1 [u] [x0] [].
Proof.
  intros P Lo Ld L0 Hu. set (o := prior_dims d) in *.
  assert (Po : 0 < size o) by (unfold size, o in *; cbn in *; nia).
  set (F := fun (l : list R) x y m s => if m =? 0 then ratio x (d_width d) else if m =? 1 then ratio y (d_height d) else fn d l x y (m - 2) s).
  apply (map_differentiates _ _ enabled u d o x0 F (fun dx x y m s => if m <? 2 then 0%R else fn d dx x y (m - 2) s)
    (fun delta x y m s => fn o delta x y (m + 2) s) true); auto.
  - intros l Ll. destruct (prior_ff_correct R_num ratio (tensor_of d l) (tensor_of o old_out) (fn d l) (d_samples d) (d_width d) (d_height d) (d_maps d))
      as (t & E & W & S & C); auto using tensor_wf, tensor_shape, tensor_contents; [exact (tensor_shape o old_out)|].
    exists t. split; [exact E|]. split; [exact W|]. split; [exact (same_has _ _ _ _ _ _ S (tensor_shape o old_out))|exact C].
  - intros x v0 dx i j m s M Ex S (V1 & V2 & V3 & V4). cbn in V1, V2, V3, V4. unfold F.
    destruct m as [|[|m]]; [exact (derive_const _ v0)|exact (derive_const _ v0)|]. cbn [Nat.eqb Nat.ltb Nat.leb].
    apply moves_fn; auto. repeat split; auto; lia.
  - intros delta Sd. destruct (C41_prior_backward R_num (tensor_of o delta) (tensor_of d old_delta) (fn o delta) (d_samples d) (d_width d) (d_height d) (d_maps d))
      as (t & E & W & S & C); auto using tensor_wf, tensor_shape, tensor_contents; [exact (tensor_shape o delta)|].
    exists t. cbv beta zeta. fold o. rewrite E. split; [reflexivity|]. split; [exact W|]. split; [exact (same_has _ _ _ _ _ _ S (tensor_shape d old_delta))|exact C].
  - intros delta dx Sd Sx. apply prior_transpose.
    + intros x y m s Hm. now rewrite (proj2 (Nat.ltb_lt m 2) Hm).
    + intros x y m s. rewrite (proj2 (Nat.ltb_ge (m + 2) 2)) by lia. now replace (m + 2 - 2) with m by lia.
Qed.
Print Assumptions C75_prior.

Theorem C75_upscale rw rh d old_out old_delta enabled u x0 :
  0 < rw -> 0 < rh -> 0 < size d -> shaped (upscale_dims rw rh d) old_out -> shaped d old_delta -> shaped d x0 -> u <> Observed ->
  differentiates (upscale_behaviour R_num rw rh d old_out old_delta) enabled 1 [u] [x0] [].
Proof.
  intros Hw Hh P Lo Ld L0 Hu. set (o := upscale_dims rw rh d) in *.
  assert (Po : 0 < size o).
  { unfold size, o in *. cbn in *. destruct (d_samples d * d_maps d); [cbn in P; lia|]. destruct (d_height d); [rewrite Nat.mul_0_r in P; cbn in P; lia|].
    destruct (d_width d); [lia|]. destruct rw; [lia|]. destruct rh; [lia|]. cbn. lia. }
  set (F := fun (l : list R) x y m s => fn d l (x / rw) (y / rh) m s).
  set (T := fun (delta : list R) x y m s => nsum R_num rh (fun ry => nsum R_num rw (fun rx => fn o delta (rw * x + rx) (rh * y + ry) m s))).
  assert (Both : forall l delta, shaped d l -> shaped o delta -> exists output' input',
    upscale_ff R_num rw rh (tensor_of d l) (tensor_of o old_out) = Ok output' /\ upscale_bp R_num rw rh (tensor_of o delta) (tensor_of d old_delta) = Ok input' /\
    (wf output' /\ same_shape output' (tensor_of o old_out) /\ contents output' (F l)) /\ (wf input' /\ same_shape input' (tensor_of d old_delta) /\ contents input' (T delta))).
  { intros l delta Ll Ldl.
    destruct (C38_upscale_layer R_num R_ring_laws rw rh (tensor_of d l) (tensor_of o old_out) (tensor_of o delta) (tensor_of d old_delta) (fn d l) (fn o delta))
      as (output' & input' & E1 & E2 & S1 & C1 & S2 & C2); auto using tensor_wf, tensor_contents; try (repeat split; fail).
    exists output', input'. split; [exact E1|]. split; [exact E2|]. split; (split; [|split; assumption]).
    - destruct (C38_upscale R_num (tensor_of d l) (tensor_of o old_out) rw rh (n1 R_num) (fn d l)) as (t & E & W & _); auto using tensor_wf, tensor_contents.
      { repeat split; cbn; lia. }
      unfold upscale_ff in E1. rewrite E in E1. injection E1 as <-. exact W.
    - destruct (C38_downsample R_num R_ring_laws (tensor_of o delta) (tensor_of d old_delta) rw rh (n1 R_num) (fn o delta)) as (t & E & W & _); auto using tensor_wf, tensor_contents.
      { repeat split; cbn; lia. }
      unfold upscale_bp in E2. rewrite E in E2. injection E2 as <-. exact W. }
  apply (map_differentiates _ _ enabled u d o x0 F F T true); auto.
  - intros l Ll. destruct (Both l old_out Ll Lo) as (t & _ & E & _ & (W & S & C) & _).
    exists t. split; [exact E|]. split; [exact W|]. split; [exact (same_has _ _ _ _ _ _ S (tensor_shape o old_out))|exact C].
  - intros x v0 dx i j m s M Ex S (V1 & V2 & V3 & V4). cbn in V1, V2, V3, V4. unfold F.
    apply moves_fn; auto. repeat split; auto; apply Nat.div_lt_upper_bound; lia.
  - intros delta Sd. destruct (Both x0 delta L0 Sd) as (_ & t & _ & E & _ & (W & S & C)).
    exists t. cbv beta zeta. fold o. rewrite E. split; [reflexivity|]. split; [exact W|]. split; [exact (same_has _ _ _ _ _ _ S (tensor_shape d old_delta))|exact C].
  - intros delta dx Sd Sx. unfold dot_on, F, T, o. cbn [upscale_dims d_samples d_width d_height d_maps]. 
    rewrite dot_comm, (dot_comm _ (d_width d)).
    pose proof (up_down_adjoint R_num R_ring_laws (d_samples d) (d_width d) (d_height d) (d_maps d) rw rh 1%R (fn d dx) (fn (upscale_dims rw rh d) delta) Hw Hh) as A.
    rewrite (Nat.mul_comm _ rw), (Nat.mul_comm _ rh). etransitivity; [|etransitivity; [exact A|]];
      unfold Math_Spec.dot, tensor_sum; apply nsum_ext; intros s _; apply nsum_ext; intros m _; apply nsum_ext; intros y _; apply nsum_ext; intros x _;
      cbn [nmul R_num]; rewrite Rmult_1_r; reflexivity.
Qed.
Print Assumptions C75_upscale.

(** Pooling has a derivative where every region has one largest element. *)
Theorem C75_pooling rw rh d old_ix old_iy old_out old_delta enabled u x0 :
  0 < rw -> 0 < rh -> d_width d mod rw = 0 -> d_height d mod rh = 0 -> (Z.of_nat (d_width d) <= 2 ^ 24)%Z -> (Z.of_nat (d_height d) <= 2 ^ 24)%Z ->
  0 < size d -> length old_ix = size (pool_dims rw rh d) -> length old_iy = size (pool_dims rw rh d) -> shaped (pool_dims rw rh d) old_out -> shaped d old_delta ->
  shaped d x0 -> u <> Observed ->
  (forall ox oy m s, in_range (pool_dims rw rh d) ox oy m s -> clear_maximum (columns (ox * rw) (oy * rh) rw rh) (fun p => fn d x0 (fst p) (snd p) m s)) ->
  differentiates (pool_behaviour R_num R_order rw rh d old_ix old_iy old_out old_delta) enabled 1 [u] [x0] [].
Proof.
  intros Hw Hh Ew Eh Bw Bh P Lx Ly Lo Ld L0 Hu Hm. set (o := pool_dims rw rh d) in *.
  set (w := d_width d / rw) in *. set (h := d_height d / rh) in *.
  assert (Dw : d_width d = w * rw) by (pose proof (Nat.div_mod (d_width d) rw); lia).
  assert (Dh : d_height d = h * rh) by (pose proof (Nat.div_mod (d_height d) rh); lia).
  assert (Po : 0 < size o).
  { unfold size in *. cbn. fold w h. rewrite Dw, Dh in P. destruct w; [rewrite Nat.mul_0_r in P; lia|]. destruct h; [rewrite Nat.mul_0_r in P; cbn in P; lia|].
    destruct (d_samples d * d_maps d); [cbn in P; lia|]. cbn. lia. }
  destruct (choose_positions (0, 0) (fun ox oy m s p => clearest (columns (ox * rw) (oy * rh) rw rh) (fun p => fn d x0 (fst p) (snd p) m s) p)
    w h (d_maps d) (d_samples d)) as [sel Hsel].
  { intros ox oy m s H1 H2 H3 H4. destruct (Hm ox oy m s) as [p Hp]; [repeat split; auto|]. exists p. exact Hp. }
  assert (Hin : forall ox oy m s, ox < w -> oy < h -> m < d_maps d -> s < d_samples d ->
    ox * rw <= fst (sel ox oy m s) < ox * rw + rw /\ oy * rh <= snd (sel ox oy m s) < oy * rh + rh).
  { intros ox oy m s H1 H2 H3 H4. apply in_columns. exact (proj1 (Hsel ox oy m s H1 H2 H3 H4)). }
  assert (Si : has_shape (tensor_of d x0) (d_samples d) (w * rw) (h * rh) (d_maps d)) by (rewrite <- Dw, <- Dh; apply tensor_shape).
  assert (Wf : forall l : list f32, length l = size o -> wf (tensor_of o l)) by (intros l Ll; unfold wf; cbn; auto).
  set (F := fun (l : list R) ox oy m s => fst (scan R_order (fun c => fn d l (fst c) (snd c) m s) (columns (ox * rw) (oy * rh) rw rh))).
  apply (map_differentiates _ _ enabled u d o x0 F (fun dx ox oy m s => fn d dx (fst (sel ox oy m s)) (snd (sel ox oy m s)) m s)
    (fun delta x y m s => if same_cell (sel (x / rw) (y / rh) m s) (x, y) then fn o delta (x / rw) (y / rh) m s else 0%R) true); auto.
  - intros l Ll. destruct (pool_ff_scan R_order rw rh w h (d_maps d) (d_samples d) (tensor_of d l) (tensor_of o old_out) (tensor_of o old_ix) (tensor_of o old_iy) (fn d l))
      as (mix' & miy' & t & E & W & S & C); auto using tensor_wf, tensor_contents; try (exact (tensor_shape o _)).
    exists t. cbv beta zeta. fold o. rewrite E. split; [reflexivity|]. split; [exact W|]. split; [exact (same_has _ _ _ _ _ _ S (tensor_shape o old_out))|exact C].
  - intros x v0 dx i j m s M Ex S (V1 & V2 & V3 & V4). cbn in V1, V2, V3, V4. fold w in V1. fold h in V2.
    apply (scan_derive (fun v c => fn d (x v) (fst c) (snd c) m s) (fun c => fn d dx (fst c) (snd c) m s)).
    + intros c Hc. apply in_columns in Hc as [C1 C2]. apply moves_fn; auto.
      assert ((i + 1) * rw <= w * rw) by (apply Nat.mul_le_mono_r; lia). assert ((j + 1) * rh <= h * rh) by (apply Nat.mul_le_mono_r; lia).
      repeat split; auto; lia.
    + rewrite Ex. now apply Hsel.
  - intros delta Sd.
    destruct (pool_ff_spec R_order R_order_laws rw rh w h (d_maps d) (d_samples d) (tensor_of d x0) (tensor_of o old_out) (tensor_of o old_ix) (tensor_of o old_iy) (fn d x0))
      as (sel' & mix' & miy' & t & E & (A1 & A2 & A3) & (B1 & B2 & B3) & _ & Hs'); auto.
    { split; [now apply tensor_wf|]. split; [exact Si|now apply tensor_contents]. }
    { split; [now apply Wf|exact (tensor_shape o old_ix)]. }
    { split; [now apply Wf|exact (tensor_shape o old_iy)]. }
    { split; [now apply tensor_wf|exact (tensor_shape o old_out)]. }
    { intros ox oy m s H1 H2 H3 H4. destruct (Hsel ox oy m s H1 H2 H3 H4) as (Q1 & Q2 & _). apply in_columns in Q1 as [Q1 Q3].
      exists (fst (sel ox oy m s)), (snd (sel ox oy m s)). split; [exact Q1|]. split; [exact Q3|]. cbn. destruct (Rlt_dec _ _); [reflexivity|contradiction]. }
    assert (Es : forall ox oy m s, ox < w -> oy < h -> m < d_maps d -> s < d_samples d -> sel' ox oy m s = sel ox oy m s).
    { intros ox oy m s H1 H2 H3 H4. exact (first_max_clearest _ _ _ _ (Hs' ox oy m s H1 H2 H3 H4) (Hsel ox oy m s H1 H2 H3 H4)). }
    assert (X1 : has_shape mix' (d_samples d) w h (d_maps d)) by exact (same_has _ _ _ _ _ _ A2 (tensor_shape o old_ix)).
    assert (X2 : has_shape miy' (d_samples d) w h (d_maps d)) by exact (same_has _ _ _ _ _ _ B2 (tensor_shape o old_iy)).
    assert (X3 : has_shape (tensor_of o delta) (d_samples d) w h (d_maps d)) by exact (tensor_shape o delta).
    assert (X4 : has_shape (tensor_of d old_delta) (d_samples d) (w * rw) (h * rh) (d_maps d)) by (rewrite <- Dw, <- Dh; apply tensor_shape).
    destruct (pool_bp_spec R_num rw rh w h (d_maps d) (d_samples d) mix' miy' (tensor_of o delta) (tensor_of d old_delta) sel' (fn o delta))
      as (t' & Eb & Wb & Sb & Cb); auto using tensor_wf, tensor_contents; [lia|lia| |].
    { intros ox oy m s H1 H2 H3 H4. rewrite Es by assumption. auto. }
    exists t'. cbv beta zeta. fold o. rewrite E. cbn [bind fst snd]. rewrite Eb. split; [reflexivity|]. split; [exact Wb|].
    split; [exact (same_has _ _ _ _ _ _ Sb (tensor_shape d old_delta))|]. intros x y m s V. rewrite (Cb x y m s V).
    apply (same_shape_valid _ _ _ _ _ _ Sb) in V. destruct V as (V1 & V2 & V3 & V4). cbn in V1, V2, V3, V4. 
    rewrite Es; [reflexivity|apply Nat.div_lt_upper_bound; lia|apply Nat.div_lt_upper_bound; lia|exact V3|exact V4].
  - intros delta dx Sd Sx. rewrite (select_transpose d o sel (fn o delta) (fn d dx)); [|reflexivity|reflexivity|].
    + apply dot_ext. intros x y m s (V1 & V2 & V3 & V4). f_equal. cbn [d_width d_height pool_dims o]. fold w h.
      assert (Qx : x / rw < w) by (apply Nat.div_lt_upper_bound; lia). assert (Qy : y / rh < h) by (apply Nat.div_lt_upper_bound; lia).
      assert (Only : forall ox oy, ox < w -> oy < h -> same_cell (sel ox oy m s) (x, y) = true -> ox = x / rw /\ oy = y / rh).
      { intros ox oy H1 H2 Hc. apply andb_true_iff in Hc as [C1 C2]. apply Nat.eqb_eq in C1, C2. cbn in C1, C2.
        destruct (Hin ox oy m s H1 H2 V3 V4) as [R1 R2]. rewrite C1 in R1. rewrite C2 in R2. split.
        - apply (Nat.div_unique x rw ox (x - ox * rw)); lia.
        - apply (Nat.div_unique y rh oy (y - oy * rh)); lia. }
      rewrite (nsum_single R_num R_ring_laws h (y / rh)); [|exact Qy|].
      * rewrite (nsum_single R_num R_ring_laws w (x / rw)); [reflexivity|exact Qx|].
        intros ox H1 Hne. destruct (same_cell (sel ox (y / rh) m s) (x, y)) eqn:Ec; [|reflexivity]. destruct (Only ox (y / rh) H1 Qy Ec). contradiction.
      * intros oy H2 Hne. apply (nsum_zero_ext R_num R_ring_laws). intros ox H1. destruct (same_cell (sel ox oy m s) (x, y)) eqn:Ec; [|reflexivity].
        destruct (Only ox oy H1 H2 Ec). contradiction.
    + intros x y m s (V1 & V2 & V3 & V4). cbn in V1, V2, V3, V4. fold w in V1. fold h in V2. destruct (Hin x y m s V1 V2 V3 V4) as [R1 R2].
      assert ((x + 1) * rw <= w * rw) by (apply Nat.mul_le_mono_r; lia). assert ((y + 1) * rh <= h * rh) by (apply Nat.mul_le_mono_r; lia). lia.
Qed.
Print Assumptions C75_pooling.

(** The same for overlapping windows. *)
Theorem C75_strided_pooling rw rh sw sh d old_mask old_out old_delta enabled u x0 :
  0 < sw -> 0 < sh -> (Z.of_nat (d_width d * d_height d) <= 2 ^ 24)%Z -> 0 < size d ->
  let o := strided_dims rw rh sw sh d in
  0 < size o -> length old_mask = size o -> shaped o old_out -> shaped d old_delta -> shaped d x0 -> u <> Observed ->
  (forall ox oy m s, in_range o ox oy m s -> clear_maximum (rows (ox * sw) (oy * sh) rw rh) (fun p => fn d x0 (fst p) (snd p) m s)) ->
  differentiates (strided_behaviour R_num R_order rw rh sw sh d o old_mask old_out old_delta) enabled 1 [u] [x0] [].
Proof.
  intros Hw Hh B P o Po Lm Lo Ld L0 Hu Hm.
  set (w := positions (d_width d) rw sw) in *. set (h := positions (d_height d) rh sh) in *.
  destruct (choose_positions (0, 0) (fun ox oy m s p => clearest (rows (ox * sw) (oy * sh) rw rh) (fun p => fn d x0 (fst p) (snd p) m s) p)
    w h (d_maps d) (d_samples d)) as [sel Hsel].
  { intros ox oy m s H1 H2 H3 H4. destruct (Hm ox oy m s) as [p Hp]; [repeat split; auto|]. exists p. exact Hp. }
  assert (Hin : forall ox oy m s, ox < w -> oy < h -> m < d_maps d -> s < d_samples d ->
    ox * sw <= fst (sel ox oy m s) < ox * sw + rw /\ oy * sh <= snd (sel ox oy m s) < oy * sh + rh).
  { intros ox oy m s H1 H2 H3 H4. apply in_rows. exact (proj1 (Hsel ox oy m s H1 H2 H3 H4)). }
  assert (Wf : wf (tensor_of o old_mask)) by (unfold wf; cbn; auto).
  set (F := fun (l : list R) ox oy m s => fst (scan R_order (fun c => fn d l (fst c) (snd c) m s) (rows (ox * sw) (oy * sh) rw rh))).
  set (T := fun (delta : list R) x y m s => fold_left Rplus (map (fun p => fn o delta (fst p) (snd p) m s) (filter (fun p => same_cell (sel (fst p) (snd p) m s) (x, y)) (rows 0 0 w h))) 0%R).
  apply (map_differentiates _ _ enabled u d o x0 F (fun dx ox oy m s => fn d dx (fst (sel ox oy m s)) (snd (sel ox oy m s)) m s) T true); auto.
  - intros l Ll. destruct (apool_ff_scan R_order rw rh sw sh (d_width d) (d_height d) (d_maps d) (d_samples d) (tensor_of d l) (tensor_of o old_out) (tensor_of o old_mask) (fn d l))
      as (mask' & t & E & W & S & C); auto using tensor_wf, tensor_contents, tensor_shape; try (exact (tensor_shape o _)).
    exists t. cbv beta zeta. fold o. rewrite E. split; [reflexivity|]. split; [exact W|]. split; [exact (same_has _ _ _ _ _ _ S (tensor_shape o old_out))|exact C].
  - intros x v0 dx i j m s M Ex S (V1 & V2 & V3 & V4). cbn in V1, V2, V3, V4. fold w in V1. fold h in V2.
    apply (scan_derive (fun v c => fn d (x v) (fst c) (snd c) m s) (fun c => fn d dx (fst c) (snd c) m s)).
    + intros c Hc. apply in_rows in Hc as [C1 C2]. apply moves_fn; auto.
      apply (positions_fit _ _ _ _ Hw) in V1. apply (positions_fit _ _ _ _ Hh) in V2. repeat split; auto; lia.
    + rewrite Ex. now apply Hsel.
  - intros delta Sd.
    destruct (apool_ff_spec R_order R_order_laws rw rh sw sh (d_width d) (d_height d) (d_maps d) (d_samples d) (tensor_of d x0) (tensor_of o old_out) (tensor_of o old_mask) (fn d x0))
      as (sel' & mask' & t & E & (A1 & A2 & A3) & _ & Hs'); auto.
    { split; [now apply tensor_wf|]. split; [apply tensor_shape|now apply tensor_contents]. }
    { split; [exact Wf|exact (tensor_shape o old_mask)]. }
    { split; [now apply tensor_wf|exact (tensor_shape o old_out)]. }
    { intros ox oy m s H1 H2 H3 H4. destruct (Hsel ox oy m s H1 H2 H3 H4) as (Q1 & Q2 & _). apply in_rows in Q1 as [Q1 Q3].
      exists (fst (sel ox oy m s)), (snd (sel ox oy m s)). split; [exact Q1|]. split; [exact Q3|]. cbn. destruct (Rlt_dec _ _); [reflexivity|contradiction]. }
    assert (Es : forall ox oy m s, ox < w -> oy < h -> m < d_maps d -> s < d_samples d -> sel' ox oy m s = sel ox oy m s).
    { intros ox oy m s H1 H2 H3 H4. exact (first_max_clearest _ _ _ _ (Hs' ox oy m s H1 H2 H3 H4) (Hsel ox oy m s H1 H2 H3 H4)). }
    assert (X1 : has_shape mask' (d_samples d) w h (d_maps d)) by exact (same_has _ _ _ _ _ _ A2 (tensor_shape o old_mask)).
    assert (X2 : has_shape (tensor_of o delta) (d_samples d) w h (d_maps d)) by exact (tensor_shape o delta).
    assert (X3 : has_shape (tensor_of d old_delta) (d_samples d) (d_width d) (d_height d) (d_maps d)) by apply tensor_shape.
    destruct (apool_bp_spec R_num rw rh sw sh (d_width d) (d_height d) (d_maps d) (d_samples d) mask' (tensor_of o delta) (tensor_of d old_delta) sel' (fn o delta))
      as (t' & Eb & Wb & Sb & Cb); auto using tensor_wf, tensor_contents.
    { intros ox oy m s H1 H2 H3 H4. rewrite Es by assumption. auto. }
    exists t'. cbv beta zeta. fold o. rewrite E. cbn [bind fst snd]. rewrite Eb. split; [reflexivity|]. split; [exact Wb|].
    split; [exact (same_has _ _ _ _ _ _ Sb (tensor_shape d old_delta))|]. intros x y m s V. rewrite (Cb x y m s V).
    apply (same_shape_valid _ _ _ _ _ _ Sb) in V. destruct V as (V1 & V2 & V3 & V4). cbn in V1, V2, V3, V4. f_equal. unfold T. f_equal. f_equal.
    fold w. fold h. apply filter_ext_in. intros [ox oy] Hc. apply in_rows in Hc as [C1 C2]. cbn in C1, C2. cbn [fst snd]. now rewrite Es by lia.
  - intros delta dx Sd Sx. rewrite (select_transpose d o sel (fn o delta) (fn d dx)); [|reflexivity|reflexivity|].
    + apply dot_ext. intros x y m s _. f_equal. unfold T. rewrite fold_rows. reflexivity.
    + intros x y m s (V1 & V2 & V3 & V4). cbn in V1, V2, V3, V4. fold w in V1. fold h in V2. destruct (Hin x y m s V1 V2 V3 V4) as [R1 R2].
      apply (positions_fit _ _ _ _ Hw) in V1. apply (positions_fit _ _ _ _ Hh) in V2. lia.
Qed.
Print Assumptions C75_strided_pooling.

(** Local response normalization of square images. *)
Theorem C75_normalization alpha beta method n d old_sums old_out old_delta enabled u x0 :
  (0 <= alpha)%R -> 0 < n -> d_width d = d_height d -> 0 < size d -> shaped d old_sums -> shaped d old_out -> shaped d old_delta -> shaped d x0 -> u <> Observed ->
  differentiates (normalization_behaviour R_num Rdiv 2%R (fun n => alpha / INR n)%R (fun z => Rpower z beta) (fun z => Rpower z (beta - 1)) beta
    method n d old_sums old_out old_delta) enabled 1 [u] [x0] [].
Proof.
  intros Ha Hn Sq P Ls Lo Ld L0 Hu. set (scale := fun n => (alpha / INR n)%R). set (power := fun z => Rpower z beta). set (power1 := fun z => Rpower z (beta - 1)).
  set (w := d_height d) in *. set (mm := d_maps d).
  assert (Hsh : forall l : list R, has_shape (tensor_of d l) (d_samples d) w w mm) by (intros l; unfold has_shape; cbn; repeat split; auto).
  set (F := fun (l : list R) x y m s => normalized R_num scale power Rdiv (fn d l) (lrn_region method n w w mm x y m) x y m s).
  assert (FF : forall l, shaped d l -> exists sums' t, lrn_ff R_num scale power Rdiv method n (tensor_of d l) (tensor_of d old_sums) (tensor_of d old_out) = Ok (sums', t) /\
    wf sums' /\ same_shape sums' (tensor_of d old_sums) /\ wf t /\ same_shape t (tensor_of d old_out) /\ contents t (F l) /\
    contents sums' (fun x y m s => squares R_num (map (fun p => fn d l (fst (fst p)) (snd (fst p)) (snd p) s) (lrn_region method n w w mm x y m)))).
  { intros l Ll. destruct (lrn_ff_spec R_num scale power Rdiv method n (tensor_of d l) (tensor_of d old_sums) (tensor_of d old_out) (fn d l))
      as (sums' & t & E & W1 & S1 & W2 & S2 & A & _); auto using tensor_wf, tensor_contents; try (repeat split; reflexivity).
    { cbn. fold w. lia. }
    cbn [width height maps tensor_of] in A. fold w in A. rewrite Sq in A.
    assert (V' : forall x y m s, x < d_width d /\ y < d_height d /\ m < d_maps d /\ s < d_samples d -> x < w) by (intros x y m s (V & _); lia).
    exists sums', t. repeat (split; [assumption|]). split; intros x y m s V;
      [apply (same_shape_valid _ _ _ _ _ _ S2) in V|apply (same_shape_valid _ _ _ _ _ _ S1) in V]; apply (A x y m s V); exact (V' x y m s V). }
  apply (map_differentiates _ _ enabled u d d x0 F
    (fun dx x y m s => cell_sum w mm (fun p => partial_at alpha beta method n w mm (fn d x0) x y m s p * of_cell (fn d dx) s p)%R)
    (fun delta jx jy jm s => nsum R_num mm (fun m => nsum R_num w (fun y => nsum R_num w (fun x =>
       passed R_num scale power power1 Rdiv 2%R beta method n w mm (fn d x0) (fn d delta) s x y m (jx, jy, jm))))) true); auto.
  - intros l Ll. destruct (FF l Ll) as (sums' & t & E & _ & _ & W & S & C & _). exists t. cbv beta zeta. rewrite E. split; [reflexivity|]. split; [exact W|].
    split; [exact (same_has _ _ _ _ _ _ S (tensor_shape d old_out))|exact C].
  - intros x v0 dx i j m s M Ex S (V1 & V2 & V3 & V4). rewrite <- Ex.
    apply (normalized_along alpha beta Ha method n w mm Hn (fun v => fn d (x v)) (fn d dx)); auto; [lia|].
    intros a b c H1 H2 H3. apply moves_fn; auto. repeat split; auto; lia.
  - intros delta Sd. destruct (FF x0 L0) as (sums' & t & E & W1 & S1 & _ & _ & _ & C1).
    destruct (lrn_bp_spec R_num R_ring_laws scale power power1 Rdiv 2%R beta method n (tensor_of d x0) sums' (tensor_of d delta) (tensor_of d old_delta)
      (fn d x0) (fn d delta) w mm (d_samples d)) as (t' & Eb & Wb & Sb & Cb); auto using tensor_wf, tensor_contents; try (repeat split; reflexivity).
    exists t'. cbv beta zeta. rewrite E. cbn [bind fst snd]. rewrite Eb. split; [reflexivity|]. split; [exact Wb|].
    split; [exact (same_has _ _ _ _ _ _ Sb (tensor_shape d old_delta))|exact Cb].
  - intros delta dx Sd Sx.
    assert (D : forall f g, dot_on d f g = nsum R_num (d_samples d) (fun s => cell_sum w mm (fun p => of_cell f s p * of_cell g s p)%R)).
    { intros f g. unfold dot_on, Math_Spec.dot, tensor_sum. rewrite Sq. reflexivity. }
    rewrite !D. apply nsum_ext. intros s _.
    transitivity (cell_sum w mm (fun p => cell_sum w mm (fun q => of_cell (fn d delta) s p *
      (partial_at alpha beta method n w mm (fn d x0) (fst (fst p)) (snd (fst p)) (snd p) s q * of_cell (fn d dx) s q))%R)).
    + apply cell_sum_ext. intros x y m _ _ _. rewrite cell_sum_scale. reflexivity.
    + rewrite cell_sum_swap. apply cell_sum_ext. intros jx jy jm _ _ _.
      transitivity (of_cell (fn d dx) s (jx, jy, jm) * cell_sum w mm (fun p => passed R_num scale power power1 Rdiv 2%R beta method n w mm (fn d x0) (fn d delta) s
        (fst (fst p)) (snd (fst p)) (snd p) (jx, jy, jm)))%R; [|rewrite Rmult_comm; reflexivity].
      rewrite <- cell_sum_scale. apply cell_sum_ext. intros x y m _ _ _. cbn [fst snd]. unfold scale, power, power1. rewrite passed_partial. unfold of_cell. cbn [fst snd]. ring.
Qed.
Print Assumptions C75_normalization.

(** ** Cases that meet the hypotheses *)
(** One 2 x 2 region with the largest element at (1, 0); a window of two pixels that visits
    a row of three. *)
Example C75_pooling_hypotheses : exists d x0, 0 < size d /\ d_width d mod 2 = 0 /\ d_height d mod 2 = 0 /\ shaped d x0 /\
  (forall ox oy m s, in_range (pool_dims 2 2 d) ox oy m s -> clear_maximum (columns (ox * 2) (oy * 2) 2 2) (fun p => fn d x0 (fst p) (snd p) m s)).
Proof.
  assert (L : (R_lowest < 4)%R) by (unfold R_lowest; apply (IZR_lt _ 4); reflexivity).
  exists (mkDims 1 2 2 1), [1; 4; 3; 2]%R. split; [cbn; lia|]. split; [reflexivity|]. split; [reflexivity|]. split; [reflexivity|].
  intros ox oy m s (V1 & V2 & V3 & V4). cbn in V1, V2, V3, V4. replace ox with 0 by lia. replace oy with 0 by lia. replace m with 0 by lia. replace s with 0 by lia.
  exists (1, 0). split; [cbn; auto|]. split; [exact L|]. intros q Hq Hne. cbn in Hq. decompose [or] Hq; subst; try contradiction; unfold fn; cbn; lra.
Qed.
Example C75_strided_pooling_hypotheses : exists d x0, 0 < size d /\ 0 < size (strided_dims 2 1 1 1 d) /\ shaped d x0 /\
  (forall ox oy m s, in_range (strided_dims 2 1 1 1 d) ox oy m s -> clear_maximum (rows (ox * 1) (oy * 1) 2 1) (fun p => fn d x0 (fst p) (snd p) m s)).
Proof.
  assert (L : (R_lowest < 3)%R) by (unfold R_lowest; apply (IZR_lt _ 3); reflexivity).
  exists (mkDims 1 3 1 1), [1; 3; 2]%R. split; [cbn; lia|]. split; [cbn; lia|]. split; [reflexivity|].
  intros ox oy m s (V1 & V2 & V3 & V4). cbn in V1, V2, V3, V4. replace oy with 0 by lia. replace m with 0 by lia. replace s with 0 by lia.
  exists (1, 0). destruct ox as [|[|ox]]; [| |lia]; (split; [cbn; auto|]); (split; [exact L|]);
    intros q Hq Hne; cbn in Hq; decompose [or] Hq; subst; try contradiction; unfold fn; cbn; lra.
Qed.

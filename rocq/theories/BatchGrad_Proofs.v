(** Lemmas for C83. *)
From Coq Require Import Reals Relations Permutation Lra FunctionalExtensionality.
From Verif Require Conv_Props.
From Verif Require Import Base BaseFacts LoopFacts Tensor_Model Tensor_Spec Tensor_Proofs Num RealNum Math_Spec Math_Proofs Act_Model Act_Spec Act_Proofs ConvLayer_Model ConvLayer_Spec
  Graph_Model Graph_Spec Dfs_Proofs Graph_Proofs Graph_Props Backprop_Model Backprop_Spec Backprop_Proofs BackpropLayers_Model BackpropLayers_Spec BackpropLayers_Proofs BackpropLayers_Props
  Pool_Spec Pool_Proofs BackpropNet_Spec BackpropNet_Proofs BackpropReady_Proofs Batch_Model Batch_Spec Batch_Proofs Batch_Props TrainNet_Spec TrainNet_Proofs BatchGrad_Spec.
Local Open Scope nat_scope.
Local Open Scope list_scope.

Lemma sample_pos b d : 0 < size (at_batch b d) -> 0 < sample_size d.
Proof. rewrite size_batch. nia. Qed.

Section Layers.
Variables b s : nat.
Hypothesis Hs : s < b.
Notation Ha := (Nat.lt_succ_diag_r 0).
Notation samplewise := (samplewise b 1 s 0).

Lemma alike_at (ds : list (option dims)) (x1 x2 : list (list R)) :
  all_alike b 1 s 0 (map (option_map (at_batch b)) ds) x1 x2 <-> all_alike b 1 s 0 ds x1 x2.
Proof.
  split.
  - revert x1 x2. induction ds as [|[d|] ds IH]; intros x1 x2 H; inversion H; subst; constructor; auto.
  - induction 1 as [|[d|] ds l1 l2 ls1 ls2 A _ IH]; cbn [map option_map]; constructor; auto.
Qed.
Lemma samplewise_at (L L1 : behaviour R) ps ins outs : samplewise L L1 ps ins outs ->
  samplewise L L1 ps (map (option_map (at_batch b)) ins) (map (option_map (at_batch b)) outs).
Proof. intros H x1 x2 A. apply (proj2 (alike_at _ _ _)), H, (proj1 (alike_at _ _ _)), A. Qed.

Lemma mapping_samplewise q q1 ps : same_mapping b q q1 -> maps_well q -> maps_well q1 ->
  samplewise (maps_as q) (maps_as q1) ps [Some (maps_from q)] [Some (maps_to q)].
Proof.
  intros [] W W1; cbn [maps_as maps_from maps_to maps_well] in *.
  - destruct W as (P & O & _), W1 as (_ & O1 & _). apply sample_pos in P. exact (samplewise_at _ _ ps [Some d] [Some _] (border_alike b 1 s 0 Hs Ha R_num bx by_ d _ _ _ _ ps P O O1)).
  - destruct W as (P & O & _), W1 as (_ & O1 & _). apply sample_pos in P. exact (samplewise_at _ _ ps [Some d] [Some _] (prior_alike b 1 s 0 Hs Ha R_num ratio d _ _ _ _ ps P O O1)).
  - destruct W as (P1 & P2 & P & O & _), W1 as (_ & _ & _ & O1 & _). apply sample_pos in P. exact (samplewise_at _ _ ps [Some d] [Some _] (upscale_alike b 1 s 0 Hs Ha R_num rw rh d _ _ _ _ ps P1 P2 P O O1)).
  - destruct W as (P1 & P2 & P3 & P4 & _ & _ & P & X & Y & O & _), W1 as (_ & _ & _ & _ & _ & _ & _ & X1 & Y1 & O1 & _). apply sample_pos in P.
    exact (samplewise_at _ _ ps [Some d] [Some _] (pool_alike b 1 s 0 Hs Ha R_num R_order rw rh d _ _ _ _ _ _ _ _ ps P1 P2 P3 P4 P X Y O X1 Y1 O1)).
  - destruct W as (P1 & P2 & _ & P & Po & X & O & _), W1 as (_ & _ & _ & _ & _ & X1 & O1 & _). apply sample_pos in P.
    assert (Po' : 0 < sample_size (strided_dims rw rh sw sh d)) by (apply (sample_pos b); exact Po).
    exact (samplewise_at _ _ ps [Some d] [Some _] (strided_alike b 1 s 0 Hs Ha R_num R_order rw rh sw sh d (strided_dims rw rh sw sh d) _ _ _ _ _ _ ps P1 P2 eq_refl P Po' X O X1 O1)).
  - destruct W as (_ & P1 & P2 & P & X & O & _), W1 as (_ & _ & _ & _ & X1 & O1 & _). apply sample_pos in P.
    exact (samplewise_at _ _ ps [Some d] [Some _] (lrn_alike b 1 s 0 Hs Ha R_num _ _ _ _ _ _ method n d _ _ _ _ _ _ ps P1 P2 P X O X1 O1)).
Qed.

Lemma part_samplewise a a1 ps : one_sample b s a a1 -> fits a -> fits a1 -> Forall2 shaped (tunes a) ps ->
  samplewise (acts a) (acts a1) ps (map Some (takes a)) (map Some (makes a)).
Proof.
  intros [] F F1 T; cbn [acts takes makes tunes fits map] in *.
  - rewrite map_map. rewrite <- (map_map Some (option_map (at_batch b))). apply (samplewise_at _ _ ps []). now apply (input_alike b 1 s 0).
  - destruct F as (P & O & _), F1 as (_ & O1 & _). apply sample_pos in P. exact (samplewise_at _ _ ps [Some d] [Some d] (act_alike b 1 s 0 Hs Ha R_num _ _ _ d _ _ _ _ ps P O O1)).
  - destruct F as (P & O & _), F1 as (_ & O1 & _). apply sample_pos in P. exact (samplewise_at _ _ ps [Some d] [Some d] (act_alike b 1 s 0 Hs Ha R_num _ _ _ d _ _ _ _ ps P O O1)).
  - destruct F as (P & O & _), F1 as (_ & O1 & _). apply sample_pos in P. exact (samplewise_at _ _ ps [Some d] [Some d] (act_alike b 1 s 0 Hs Ha R_num _ _ _ d _ _ _ _ ps P O O1)).
  - destruct F as (P & O & _), F1 as (_ & O1 & _). apply sample_pos in P. exact (samplewise_at _ _ ps [Some d; Some d] [Some d] (sum_alike b 1 s 0 Hs Ha R_num d _ _ _ _ _ _ ps P O O1)).
  - destruct F as (_ & Ew & Eh & P & P' & O & _), F1 as (_ & _ & _ & _ & _ & O1 & _). apply sample_pos in P, P'.
    exact (samplewise_at _ _ ps [Some d; Some e] [Some _] (concat_alike b 1 s 0 Hs Ha R_num d e _ _ _ _ _ _ ps P P' (eq_sym Ew) (eq_sym Eh) O O1)).
  - intros x1 x2 _. constructor.
  - destruct F as ((wt & bb & Rd) & _ & P & Po & Pw & O & _), F1 as ((wt1 & bb1 & Rd1) & _ & _ & _ & _ & O1 & _). apply sample_pos in P.
    assert (Eo : forall st' wt' bb' k, conv_ready R_num c st' (d_width d) (d_height d) (d_maps d) k wt' bb' -> mkDims 1 (cs_ow st') (cs_oh st') (cv_omaps c) = out_dims c (at_batch 1 d)).
    { intros st' wt' bb' k H. unfold out_dims. cbn [at_batch d_samples d_width d_height]. now rewrite (cr_ow _ _ _ _ _ _ _ _ _ H), (cr_oh _ _ _ _ _ _ _ _ _ H). }
    pose proof (Eo _ _ _ _ Rd) as Eo0. pose proof (Eo _ _ _ _ Rd1) as Eo1.
    apply (samplewise_at _ _ ps [Some d] [Some (out_dims c (at_batch 1 d))]).
    inversion T as [|? w ? ps' L1 T']; subst. inversion T' as [|? bi ? ps'' L2 T'']; subst. inversion T''; subst.
    apply (C82_convolution R_num b 1 s 0 Hs Ha c d (out_dims c (at_batch 1 d)) st st1).
    + cbn. unfold R_zerob. destruct (Req_EM_T 0 0) as [_|E]; [reflexivity|contradiction].
    + cbn. unfold R_zerob. destruct (Req_EM_T 1 0) as [E|_]; [exfalso; lra|reflexivity].
    + exact P.
    + apply (sample_pos b). exact Po.
    + split; [now exists wt, bb|]. split; [now symmetry|exact O].
    + split; [now exists wt1, bb1|]. split; [now symmetry|exact O1].
    + split; [exact L1|]. split; [exact L2|]. split; [exact Pw|]. unfold size in Pw. cbn in Pw. nia.
  - exact (mapping_samplewise q q1 ps H F F1).
  - intros x1 x2 _. constructor.
Qed.
End Layers.

(** ** Losses *)
Definition lossless (a : part) : Prop := match a with PLoss _ _ _ => False | _ => True end.
Lemma no_loss a xs ps : lossless a -> b_loss (acts a) xs ps = 0%R.
Proof. destruct a as [| | | | | | | | [] | |]; intros H; try reflexivity. destruct H. Qed.

Lemma loss_of d lw delta x label weight ps : 0 < size d -> shaped d x -> shaped d label -> shaped (weight_dims d) weight ->
  b_loss (error_behaviour R_num Rdiv 2%R d lw delta) [x; label; weight] ps =
  weighted_loss lw (d_samples d) (d_width d) (d_height d) (d_maps d) (fn d x) (fn d label) (fun i j s => fn (weight_dims d) weight i j 0 s).
Proof.
  intros P L0 L1 L2. assert (Pw : 0 < size (weight_dims d)) by (unfold size in *; cbn; nia).
  assert (Cw : contents (tensor_of (weight_dims d) weight) (fun i j _ s => fn (weight_dims d) weight i j 0 s)).
  { intros i j m s V. rewrite (tensor_contents (weight_dims d) weight L2 i j m s V). destruct V as (_ & _ & Vm & _). cbn in Vm. now replace m with 0 by lia. }
  cbn [b_loss error_behaviour nth].
  rewrite (error_loss_spec lw _ _ _ (fn d x) (fn d label) (fun i j s => fn (weight_dims d) weight i j 0 s) (d_samples d) (d_width d) (d_height d) (d_maps d));
    auto using tensor_wf, tensor_shape, tensor_contents.
Qed.

Lemma fn_alike b s d (l1 l2 : list R) x y m : s < b -> alike b 1 s 0 d l1 l2 -> x < d_width d -> y < d_height d -> m < d_maps d ->
  fn (at_batch b d) l1 x y m s = fn (at_batch 1 d) l2 x y m 0.
Proof.
  intros Hs A Hx Hy Hm. pose proof (val_alike b 1 s 0 Hs (Nat.lt_succ_diag_r 0) 0%R d l1 l2 x y m A) as E.
  rewrite !val_in in E by (repeat split; cbn; lia). exact E.
Qed.

Lemma alike_three b s d e f (x1 x2 : list (list R)) : all_alike b 1 s 0 [Some d; Some e; Some f] x1 x2 ->
  exists l1 l2 k1 k2 j1 j2, x1 = [l1; k1; j1] /\ x2 = [l2; k2; j2] /\ alike b 1 s 0 d l1 l2 /\ alike b 1 s 0 e k1 k2 /\ alike b 1 s 0 f j1 j2.
Proof.
  intros H. inversion H as [|? ? l1 l2 ? ? A H']; subst. inversion H' as [|? ? k1 k2 ? ? B H'']; subst. inversion H'' as [|? ? j1 j2 ? ? C H3]; subst. inversion H3; subst.
  exists l1, l2, k1, k2, j1, j2. auto.
Qed.

Lemma part_loss b a (ones : nat -> part) xs (ys : nat -> list (list R)) ps : 0 < b -> fits a ->
  (forall s, s < b -> one_sample b s a (ones s)) -> (forall s, s < b -> all_alike b 1 s 0 (map Some (takes a)) xs (ys s)) ->
  b_loss (acts a) xs ps = rsum (fun s => b_loss (acts (ones s)) (ys s) ps) (seq 0 b).
Proof.
  intros Hb F One Al.
  assert (Nl : lossless a -> b_loss (acts a) xs ps = rsum (fun s => b_loss (acts (ones s)) (ys s) ps) (seq 0 b)).
  { intros H. rewrite (no_loss a xs ps H). symmetry. apply rsum_zero. intros s Hs. apply in_seq in Hs. apply no_loss. specialize (One s ltac:(lia)).
    destruct a; try destruct H; inversion One; exact I. }
  destruct a as [| | | | | |d lw delta| | | |]; try (apply Nl; exact I). clear Nl.
  assert (Ed : exists d0, d = at_batch b d0).
  { specialize (One 0 Hb). inversion One; subst. eauto. }
  destruct Ed as (d0 & ->). cbn [takes map] in Al. destruct F as [P _].
  assert (Ps : 0 < sample_size d0) by (apply (sample_pos b); exact P).
  destruct (alike_three _ _ _ _ _ _ _ (Al 0 Hb)) as (x & _ & l & _ & w & _ & -> & _ & (Lx & _) & (Ll & _) & (Lw & _)).
  cbn [acts]. rewrite (loss_of (at_batch b d0) lw delta x l w ps P Lx Ll Lw).
  unfold weighted_loss, tensor_sum. cbn [at_batch d_samples d_width d_height d_maps]. unfold Rdiv. rewrite <- rsum_nsum, Rmult_comm, <- rsum_scale. apply rsum_ext.
  intros s Hs. apply in_seq in Hs. assert (Hs' : s < b) by lia. specialize (One s Hs'). specialize (Al s Hs').
  assert (E1 : exists delta1, ones s = PLoss (at_batch 1 d0) lw delta1).
  { remember (PLoss (at_batch b d0) lw delta) as q eqn:Eq. destruct One; try discriminate Eq. assert (Ed : at_batch b d = at_batch b d0) by congruence.
    assert (Ew : weight = lw) by congruence. exists delta1. rewrite Ew. f_equal. exact (f_equal (at_batch 1) Ed). }
  destruct E1 as (delta1 & ->). destruct (alike_three _ _ _ _ _ _ _ Al) as (x' & x1 & l' & l1 & w' & w1 & E & E' & Ax & All & Aw). injection E as <- <- <-. rewrite E'.
  pose proof Ax as (_ & Lx1 & _). pose proof All as (_ & Ll1 & _). pose proof Aw as (_ & Lw1 & _).
  cbn [acts]. rewrite (loss_of (at_batch 1 d0) lw delta1 x1 l1 w1 ps); [|rewrite size_batch; lia|exact Lx1|exact Ll1|exact Lw1].
  unfold weighted_loss, tensor_sum. cbn [at_batch d_samples d_width d_height d_maps].
  rewrite <- (rsum_nsum 1). cbn [seq rsum]. rewrite Rplus_0_r. unfold Rdiv. rewrite Rmult_comm. f_equal.
  apply nsum_ext. intros m Hm. apply nsum_ext. intros y Hy. apply nsum_ext. intros x0 Hx0.
  pose proof (fn_alike b s (at_batch b d0) x x1 x0 y m Hs' Ax Hx0 Hy Hm) as F1. pose proof (fn_alike b s (at_batch b d0) l l1 x0 y m Hs' All Hx0 Hy Hm) as F2.
  pose proof (fn_alike b s (weight_dims (at_batch b d0)) w w1 x0 y 0 Hs' Aw Hx0 Hy ltac:(cbn; lia)) as F3.
  change (at_batch b (at_batch b d0)) with (at_batch b d0) in *. change (at_batch 1 (at_batch b d0)) with (at_batch 1 d0) in *.
  change (at_batch b (weight_dims (at_batch b d0))) with (weight_dims (at_batch b d0)) in F3. change (at_batch 1 (weight_dims (at_batch b d0))) with (weight_dims (at_batch 1 d0)) in F3.
  rewrite F1, F2, F3. reflexivity.
Qed.

(** ** Kinks *)
Lemma sample_in b s d (l1 l2 : list R) : s < b -> alike b 1 s 0 d l1 l2 -> incl (sample_of d s l1) l2.
Proof.
  intros Hs (_ & L2 & E) x Hx. rewrite E in Hx. unfold sample_of in Hx. cbn [Nat.mul skipn] in Hx.
  rewrite <- (firstn_skipn (sample_size d) l2). apply in_or_app. now left.
Qed.
Lemma in_some_sample b d (l : list R) x : length l = size (at_batch b d) -> In x l -> exists s, s < b /\ In x (sample_of d s l).
Proof.
  intros L Hx. apply (In_nth l x 0%R) in Hx as (i & Hi & E). rewrite L, size_batch in Hi. assert (Hz : sample_size d <> 0) by nia.
  exists (i / sample_size d). split; [apply Nat.div_lt_upper_bound; nia|]. rewrite <- E.
  assert (Hm : i mod sample_size d < sample_size d) by (apply Nat.mod_upper_bound; exact Hz).
  replace (nth i l 0%R) with (nth (i mod sample_size d) (sample_of d (i / sample_size d) l) 0%R).
  2:{ rewrite nth_sample by exact Hm. f_equal. rewrite Nat.mul_comm. symmetry. now apply Nat.div_mod. }
  apply nth_In. rewrite (length_sample b); [exact Hm|exact L|]. apply Nat.div_lt_upper_bound; nia.
Qed.
Lemma clear_ext cells (f f' : nat * nat -> R) : (forall c, In c cells -> f c = f' c) -> clear_maximum cells f -> clear_maximum cells f'.
Proof.
  intros H (p & Hp & Lo & M). exists p. split; [exact Hp|]. rewrite <- (H p Hp). split; [exact Lo|]. intros q Hq Hne. rewrite <- (H q Hq). now apply M.
Qed.

Lemma mapping_smooth b q (ones : nat -> mapping) x (ys : nat -> list R) : 0 < b -> maps_well q -> (forall s, s < b -> same_mapping b q (ones s)) ->
  (forall s, s < b -> alike b 1 s 0 (maps_from q) x (ys s)) -> (forall s, s < b -> maps_smoothly (ones s) (ys s)) -> maps_smoothly q x.
Proof.
  intros Hb W Same Al Sm. destruct q as [| | |rw rh d ix iy out delta|rw rh sw sh d mask out delta|]; try exact I.
  - assert (Ed : exists d0, d = at_batch b d0) by (specialize (Same 0 Hb); inversion Same; eauto). destruct Ed as (d0 & ->).
    intros ox oy m s (Rx & Ry & Rm & Rs). cbn in Rx, Ry, Rm, Rs. specialize (Same s Rs). specialize (Al s Rs). specialize (Sm s Rs). cbn [maps_from] in Al.
    destruct W as (P1 & P2 & P3 & P4 & _). cbn [at_batch d_width d_height] in P3, P4.
    remember (MPool rw rh (at_batch b d0) ix iy out delta) as q eqn:Eq. destruct Same; try discriminate Eq.
    assert (E1 : rw0 = rw) by congruence. assert (E2 : rh0 = rh) by congruence. assert (E3 : at_batch b d = at_batch b d0) by congruence. clear Eq. subst rw0 rh0.
    apply (f_equal (at_batch 1)) in E3. change (at_batch 1 d = at_batch 1 d0) in E3. rewrite E3 in Sm. cbn [maps_smoothly] in Sm.
    specialize (Sm ox oy m 0 ltac:(repeat split; cbn; lia)). eapply clear_ext; [|exact Sm]. intros [cx cy] Hc. apply in_columns in Hc. cbn [fst snd] in *.
    symmetry. apply (fn_alike b s (at_batch b d0) x (ys s) cx cy m Rs Al); cbn.
    + pose proof (Nat.div_mod (d_width d0) rw ltac:(lia)). nia.
    + pose proof (Nat.div_mod (d_height d0) rh ltac:(lia)). nia.
    + exact Rm.
  - assert (Ed : exists d0, d = at_batch b d0) by (specialize (Same 0 Hb); inversion Same; eauto). destruct Ed as (d0 & ->).
    intros ox oy m s (Rx & Ry & Rm & Rs). cbn in Rx, Ry, Rm, Rs. specialize (Same s Rs). specialize (Al s Rs). specialize (Sm s Rs). cbn [maps_from] in Al.
    destruct W as (P1 & P2 & _).
    remember (MStrided rw rh sw sh (at_batch b d0) mask out delta) as q eqn:Eq. destruct Same; try discriminate Eq.
    assert (E1 : rw0 = rw) by congruence. assert (E2 : rh0 = rh) by congruence. assert (E4 : sw0 = sw) by congruence. assert (E5 : sh0 = sh) by congruence.
    assert (E3 : at_batch b d = at_batch b d0) by congruence. clear Eq. subst rw0 rh0 sw0 sh0.
    apply (f_equal (at_batch 1)) in E3. change (at_batch 1 d = at_batch 1 d0) in E3. rewrite E3 in Sm. cbn [maps_smoothly] in Sm.
    specialize (Sm ox oy m 0 ltac:(repeat split; cbn; lia)). eapply clear_ext; [|exact Sm]. intros [cx cy] Hc. apply in_rows in Hc. cbn [fst snd] in *.
    apply Conv_Props.C44_window_inside in Rx, Ry; [|assumption..].
    symmetry. apply (fn_alike b s (at_batch b d0) x (ys s) cx cy m Rs Al); cbn; lia.
Qed.

Lemma part_smooth b a (ones : nat -> part) xs (ys : nat -> list (list R)) : 0 < b -> fits a -> (forall s, s < b -> one_sample b s a (ones s)) ->
  (forall s, s < b -> all_alike b 1 s 0 (map Some (takes a)) xs (ys s)) -> (forall s, s < b -> smooth (ones s) (ys s)) -> smooth a xs.
Proof.
  intros Hb F One Al Sm. destruct a as [| | |d out delta| | | | |q| |]; try exact I.
  - cbn [takes map] in Al. cbn [smooth]. intros Hin. destruct (alike_one _ _ _ _ _ _ _ (Al 0 Hb)) as (l & _ & -> & _ & L & _). cbn [nth] in Hin.
    destruct (in_some_sample b d l 0%R L Hin) as (s & Hs & Hx). destruct (alike_one _ _ _ _ _ _ _ (Al s Hs)) as (l' & l1 & E & E1 & A). injection E as <-.
    apply (sample_in b s d l l1 Hs A) in Hx. specialize (Sm s Hs). specialize (One s Hs). inversion One as [| | |d0 o0 de0 o1 de1 E2 E3| | | | | |]; subst. rewrite <- E3, E1 in Sm. exact (Sm Hx).
  - cbn [takes map] in Al. cbn [smooth]. destruct (alike_one _ _ _ _ _ _ _ (Al 0 Hb)) as (l & _ & -> & _ & _). cbn [nth].
    apply (mapping_smooth b q (fun s => match ones s with PMapping q1 => q1 | _ => q end) l (fun s => nth 0 (ys s) []) Hb F).
    + intros s Hs. specialize (One s Hs). inversion One as [| | | | | | | |q0 q1 Sq E2 E3|]; subst. exact Sq.
    + intros s Hs. destruct (alike_one _ _ _ _ _ _ _ (Al s Hs)) as (l' & l1 & E & -> & A). injection E as <-. exact A.
    + intros s Hs. specialize (One s Hs). specialize (Sm s Hs). inversion One as [| | | | | | | |q0 q1 Sq E2 E3|]; subst. rewrite <- E3 in Sm. exact Sm.
Qed.

(** ** Networks *)
Lemma one_sample_tunes b s a a1 : one_sample b s a a1 -> tunes a1 = tunes a.
Proof. now intros []. Qed.
Lemma one_sample_accumulation b s d n delta a1 : ~ one_sample b s (PAccumulation d n delta) a1.
Proof. intros H. inversion H. Qed.
Lemma fold_rsum (f : nat -> R) l a : fold_left (fun acc n => acc + f n)%R l a = (a + rsum f l)%R.
Proof. revert a. induction l as [|n l IH]; intros a; cbn [fold_left rsum]; [lra|]. rewrite IH. lra. Qed.

Section Network.
Variables (h0 : list node) (history : list nat) (g : graph) (fuel b : nat) (parts : nat -> part) (olds : nat -> list R)
  (ones : nat -> nat -> part) (olds1 : nat -> nat -> list R) (theta : nat -> list (list R)).
Hypothesis ready : network_ready h0 history g parts olds.
Hypothesis ready1 : forall s, network_ready h0 history g (ones s) (olds1 s).
Notation network := (stack history parts olds (heap g)).
Notation network1 s := (stack history (ones s) (olds1 s) (heap g)).
Hypothesis all_fit : forall x, In x (nodes g) -> fits (network x).
Hypothesis all_fit1 : forall s x, In x (nodes g) -> fits (network1 s x).
Hypothesis shaped_params : forall n, In n history -> Forall2 shaped (tunes (parts n)) (theta n).
Hypothesis no_params : forall n, ~ In n history -> theta n = [].
Hypothesis enough : length (nodes g) < fuel.
Hypothesis Hb : 0 < b.
Hypothesis same : forall s n, s < b -> In n history -> one_sample b s (parts n) (ones s n).

Lemma extra_same s k : In k (nodes g) -> ~ In k history ->
  exists d d1 n, network k = PAccumulation d n (olds k) /\ network1 s k = PAccumulation d1 n (olds1 s k).
Proof.
  intros Hk Hn. destruct (nr_extra _ _ _ _ _ ready k Hk Hn) as (d & n & E). destruct (nr_extra _ _ _ _ _ (ready1 s) k Hk Hn) as (d1 & n1 & E1).
  exists d, d1, n. split; [exact E|]. rewrite E1. f_equal. unfold stack in E, E1. destruct (existsb (Nat.eqb k) history) eqn:Eb; [apply existsb_nat in Eb; contradiction|].
  destruct (inputs_of (heap g) k) as [|[[q|] bb ?] [|? ?]]; try discriminate. congruence.
Qed.

Lemma node_samplewise s k : s < b -> In k (nodes g) ->
  samplewise b 1 s 0 (acts (network k)) (acts (network1 s k)) (theta k) (map Some (takes (network k))) (map Some (makes (network k))).
Proof.
  intros Hs Hk. destruct (in_dec Nat.eq_dec k history) as [Hn|Hn].
  - pose proof (all_fit k Hk) as F. pose proof (all_fit1 s k Hk) as F1. rewrite (nr_own _ _ _ _ _ ready k Hn) in *. rewrite (nr_own _ _ _ _ _ (ready1 s) k Hn) in *.
    apply part_samplewise; auto.
  - destruct (extra_same s k Hk Hn) as (d & d1 & n & -> & ->). cbn [takes makes map acts]. replace (map Some (repeat d n)) with (repeat (Some d) n) by (induction n as [|n IH]; [reflexivity|cbn; now rewrite IH]). apply acc_alike.
Qed.

Lemma network_connected : connected g (fun k => map Some (takes (network k))) (fun k => map Some (makes (network k))).
Proof.
  intros n Hn. destruct (nr_typed _ _ _ _ _ ready n Hn) as [_ T]. induction T as [|c d cs ds (q & _ & Eq & Em) _ IH]; cbn [map]; constructor; [|exact IH].
  exists q. split; [exact Eq|]. now apply map_nth_error.
Qed.

Lemma inputs_alike l l' m m' s n : ordered (heap g) l -> (forall n, In n l <-> In n (nodes g)) -> ordered (heap g) l' -> (forall n, In n l' <-> In n (nodes g)) ->
  s < b -> In n (nodes g) ->
  all_alike b 1 s 0 (map Some (takes (network n)))
    (input_data (heap g) (fold_left (forward_node (fun k => acts (network k)) theta (heap g)) l m) n)
    (input_data (heap g) (fold_left (forward_node (fun k => acts (network1 s k)) theta (heap g)) l' m') n).
Proof.
  intros Ho Hl Ho' Hl' Hs Hn. unfold input_data.
  assert (A : forall q i d, In q (nodes g) -> nth_error (map Some (makes (network q))) i = Some (Some d) ->
    alike b 1 s 0 d (m_data (fold_left (forward_node (fun k => acts (network k)) theta (heap g)) l m) q i)
      (m_data (fold_left (forward_node (fun k => acts (network1 s k)) theta (heap g)) l' m') q i)).
  { intros q i d Hq E. apply (network_alike b 1 s 0 Hs (Nat.lt_succ_diag_r 0) g _ _ theta (fun k => map Some (takes (network k))) (fun k => map Some (makes (network k))) l l' m m' Ho Ho'); auto.
    - intros k Hk. split; [now apply Hl|now apply Hl', Hl].
    - exact network_connected.
    - intros k Hk. now apply node_samplewise.
    - now apply Hl. }
  destruct (nr_typed _ _ _ _ _ ready n Hn) as [_ T]. induction T as [|c d cs ds (q & Hq & Eq & Em) _ IH]; cbn [map]; constructor; [|exact IH].
  rewrite Eq. apply A; [exact Hq|]. now apply map_nth_error.
Qed.

Lemma node_loss n xs (ys : nat -> list (list R)) : In n (nodes g) -> (forall s, s < b -> all_alike b 1 s 0 (map Some (takes (network n))) xs (ys s)) ->
  b_loss (acts (network n)) xs (theta n) = rsum (fun s => b_loss (acts (network1 s n)) (ys s) (theta n)) (seq 0 b).
Proof.
  intros Hn A. destruct (in_dec Nat.eq_dec n history) as [Hh|Hh].
  - apply part_loss; auto. intros s Hs. rewrite (nr_own _ _ _ _ _ ready n Hh), (nr_own _ _ _ _ _ (ready1 s) n Hh). now apply same.
  - destruct (extra_same 0 n Hn Hh) as (d & d1 & k & -> & _). rewrite no_loss by exact I. symmetry. apply rsum_zero. intros s _.
    destruct (extra_same s n Hn Hh) as (d' & d1' & k' & _ & ->). now apply no_loss.
Qed.

Lemma reported_sum L (l : nat -> R) : reports (fun k => acts (network k)) fuel g theta L ->
  (forall s, s < b -> reports (fun k => acts (network1 s k)) fuel g theta (l s)) -> L = rsum l (seq 0 b).
Proof.
  intros H H1. set (m := mkMemory (fun _ _ => []) (fun _ _ => []) (fun _ => []) : memory R).
  destruct (order_of g fuel [] (nr_sound _ _ _ _ _ ready) (nr_acyclic _ _ _ _ _ ready) enough) as (ff1 & order & Ef & Ho & Hl).
  set (after := fun layer : nat -> behaviour R => fold_left (forward_node layer theta (heap g)) order m).
  assert (Val : forall layer l0, reports layer fuel g theta l0 -> l0 = rsum (fun n => b_loss (layer n) (input_data (heap g) (after layer) n) (theta n)) (loss_nodes g)).
  { intros layer l0 Hr. destruct (Hr [] [] m) as (st & E). unfold gradient_pass, feed_forward_memory in E. rewrite Ef in E. cbn [bind snd fst] in E.
    fold (after layer) in E. destruct (back_propagate_memory layer theta fuel g [] (after layer)) as [r| |]; cbn [bind] in E; try discriminate. injection E as <- _.
    unfold aggregate_loss. cbn [nadd n0 R_num]. now rewrite (fold_rsum (fun n => b_loss (layer n) (input_data (heap g) (after layer) n) (theta n))), Rplus_0_l. }
  rewrite (Val _ _ H).
  rewrite (rsum_ext _ (fun n => rsum (fun s => b_loss (acts (network1 s n)) (input_data (heap g) (after (fun k => acts (network1 s k))) n) (theta n)) (seq 0 b))).
  - rewrite rsum_swap. apply rsum_ext. intros s Hs. apply in_seq in Hs. symmetry. apply Val, H1. lia.
  - intros n Hn. apply (loss_node h0 history g parts olds ready) in Hn. apply node_loss; [exact Hn|]. intros s Hs. now apply inputs_alike.
Qed.
Lemma no_kink_batch : (forall s, s < b -> meets_no_kink (fun k => acts (network1 s k)) fuel g theta history (ones s)) ->
  meets_no_kink (fun k => acts (network k)) fuel g theta history parts.
Proof.
  intros Sm ff m ff1 m1 E n Hn.
  destruct (order_of g fuel ff (nr_sound _ _ _ _ _ ready) (nr_acyclic _ _ _ _ _ ready) enough) as (ff2 & order & Ef & Ho & Hl).
  unfold feed_forward_memory in E. rewrite Ef in E. cbn [bind fst snd] in E. injection E as _ <-.
  assert (Hg : In n (nodes g)) by (destruct (nr_nodes _ _ _ _ _ ready) as (extra & ->); apply in_or_app; now left).
  pose proof (all_fit n Hg) as F. pose proof (fun s Hs => inputs_alike order order m m s n Ho Hl Ho Hl Hs Hg) as A. rewrite (nr_own _ _ _ _ _ ready n Hn) in F, A.
  apply (part_smooth b (parts n) (fun s => ones s n) _ _ Hb F (fun s Hs => same s n Hs Hn) A). intros s Hs.
  apply (Sm s Hs ff m ff2); [|exact Hn]. unfold feed_forward_memory. rewrite Ef. reflexivity.
Qed.
End Network.

(** Old contents of the inserted nodes that fit. *)
Definition blank (g : graph) (parts : nat -> part) (n : nat) : list R :=
  match inputs_of (heap g) n with [mkConn (Some q) i _] => repeat 0%R (size (nth i (makes (parts q)) (mkDims 0 0 0 0))) | _ => [] end.
Lemma blank_fits h0 history g parts : network_ready h0 history g parts (blank g parts) -> composed h0 history parts ->
  forall n, In n (nodes g) -> fits (stack history parts (blank g parts) (heap g) n).
Proof.
  intros Rd Co n Hn. destruct (in_dec Nat.eq_dec n history) as [Hh|Hh].
  - rewrite (nr_own _ _ _ _ _ Rd n Hh). now apply (co_fits _ _ _ Co).
  - destruct (nr_extra _ _ _ _ _ Rd n Hn Hh) as (d & k & E). rewrite E. cbn [fits]. unfold stack in E.
    destruct (existsb (Nat.eqb n) history) eqn:Eb; [apply existsb_nat in Eb; contradiction|]. unfold blank in *.
    destruct (inputs_of (heap g) n) as [|[[q|] i ?] [|? ?]]; try discriminate. injection E as <- _. unfold shaped. apply repeat_length.
Qed.

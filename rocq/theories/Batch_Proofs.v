(** Lemmas for C82. *)
From Verif Require Import Base BaseFacts LoopFacts Tensor_Model Tensor_Spec Tensor_Proofs Num Float32 Math_Model Math_Spec Math_Proofs Conv_Proofs Conv2_Proofs
  Act_Model Act_Proofs Layers_Model Layers_Proofs Pool_Model LRN_Model LRN_Spec LRN_Proofs ConvLayer_Model ConvLayer_Spec ConvLayer_Proofs ConvReady_Proofs
  Graph_Model Graph_Spec Graph_Proofs Graph_Props DatasetInput_Model DatasetInput_Spec Evaluate_Spec Backprop_Model Backprop_Spec Backprop_Proofs BackpropLayers_Model BackpropLayers_Spec BackpropLayers_Proofs BackpropMap_Proofs
  Batch_Model Batch_Spec.
Local Open Scope list_scope.
Local Open Scope nat_scope.

(** The element at a position; [z] outside. *)
Definition val {D} (z : D) (d : dims) (l : list D) (x y m s : nat) : D :=
  if (x <? d_width d) && (y <? d_height d) && (m <? d_maps d) && (s <? d_samples d) then nth (place d x y m s) l z else z.
Lemma val_in {D} (z : D) d l x y m s : in_range d x y m s -> val z d l x y m s = nth (place d x y m s) l z.
Proof. intros (A & B & C & E). unfold val. now rewrite (proj2 (Nat.ltb_lt _ _) A), (proj2 (Nat.ltb_lt _ _) B), (proj2 (Nat.ltb_lt _ _) C), (proj2 (Nat.ltb_lt _ _) E). Qed.
Lemma wf_of {D} d (l : list D) : length l = size d -> 0 < size d -> wf (tensor_of d l).
Proof. intros L H. split; [reflexivity|]. cbn. now split. Qed.
Lemma contents_val {D} (z : D) d l : length l = size d -> contents (tensor_of d l) (val z d l).
Proof.
  intros L x y m s V. rewrite at_pos_raw by exact V. rewrite place_offset, val_in by exact V. unfold raw. cbn.
  apply nth_error_nth'. rewrite L. now apply place_lt.
Qed.
Lemma elements_val {D} (z : D) d (t : tensor D) f : wf t -> has_shape t (d_samples d) (d_width d) (d_height d) (d_maps d) -> contents t f -> 0 < size d ->
  length (elements_of t) = size d /\ forall x y m s, in_range d x y m s -> nth (place d x y m s) (elements_of t) z = f x y m s.
Proof.
  intros W (S1 & S2 & S3 & S4) C P. destruct W as [We Wd]. unfold elements_of. destruct (data t) as [l|] eqn:E.
  - destruct Wd as [Wd _]. assert (L : length l = size d) by (unfold size; rewrite Wd, We, S1, S2, S3, S4; reflexivity).
    split; [exact L|]. intros x y m s V. assert (Vt : valid_pos t x y m s) by (unfold valid_pos; rewrite S1, S2, S3, S4; exact V).
    pose proof (C x y m s Vt) as H. rewrite at_pos_raw in H by exact Vt. unfold raw in H. rewrite E in H.
    rewrite offset_mix, S2, S3, S4 in H. unfold place. now apply nth_error_nth.
  - exfalso. destruct Wd as (A & _). unfold size in P. rewrite <- S1, A in P. cbn in P. lia.
Qed.

Lemma nth_skip {D} (z : D) n i l : nth i (skipn n l) z = nth (n + i) l z.
Proof. revert l. induction n as [|n IH]; intros [|x l]; cbn [skipn nth plus]; auto. now destruct i. Qed.
Lemma nth_first {D} (z : D) n i l : i < n -> nth i (firstn n l) z = nth i l z.
Proof. revert i l. induction n as [|n IH]; intros i [|x l] H; cbn [firstn]; try lia; [reflexivity|]. destruct i; cbn [nth]; [reflexivity|]. apply IH. lia. Qed.
Lemma nth_sample {D} (z : D) d s l i : i < sample_size d -> nth i (sample_of d s l) z = nth (s * sample_size d + i) l z.
Proof. intros H. unfold sample_of. now rewrite nth_first, nth_skip. Qed.
Lemma size_batch b d : size (at_batch b d) = b * sample_size d.
Proof. unfold size, at_batch, sample_size. cbn. ring. Qed.
Lemma length_sample {D} b d s (l : list D) : length l = size (at_batch b d) -> s < b -> length (sample_of d s l) = sample_size d.
Proof. intros L H. unfold sample_of. rewrite firstn_length, skipn_length, L, size_batch. apply Nat.min_l. assert (A : S s * sample_size d <= b * sample_size d) by (apply Nat.mul_le_mono_r; lia). cbn in A. lia. Qed.
Lemma place_batch b d x y m s : place (at_batch b d) x y m s = s * sample_size d + place (at_batch 1 d) x y m 0.
Proof. unfold place, sample_size, at_batch. cbn. ring. Qed.
Lemma place_sample b d x y m s : in_range (at_batch b d) x y m s -> place (at_batch 1 d) x y m 0 < sample_size d.
Proof.
  intros (A & B & C & E). cbn in A, B, C, E. pose proof (place_lt (at_batch 1 d) x y m 0) as P. rewrite size_batch in P.
  assert (in_range (at_batch 1 d) x y m 0) by (repeat split; cbn; auto; lia). specialize (P H). lia.
Qed.

Section Kit.
Context {D : Type}.
Variables b1 b2 s1 s2 : nat.
Hypotheses (Hs1 : s1 < b1) (Hs2 : s2 < b2).
Notation alike := (@alike D b1 b2 s1 s2).
Notation all_alike := (@all_alike D b1 b2 s1 s2).

Lemma val_alike (z : D) d l1 l2 x y m : alike d l1 l2 -> val z (at_batch b1 d) l1 x y m s1 = val z (at_batch b2 d) l2 x y m s2.
Proof.
  intros (L1 & L2 & E). unfold val. cbn [at_batch d_width d_height d_maps d_samples]. rewrite (proj2 (Nat.ltb_lt _ _) Hs1), (proj2 (Nat.ltb_lt _ _) Hs2), !andb_true_r.
  destruct (Nat.ltb_spec x (d_width d)), (Nat.ltb_spec y (d_height d)), (Nat.ltb_spec m (d_maps d)); cbn [andb]; try reflexivity.
  rewrite (place_batch b1), (place_batch b2). assert (P : place (at_batch 1 d) x y m 0 < sample_size d) by (apply (place_sample b1 d x y m s1); unfold in_range; cbn; lia).
  rewrite <- !nth_sample by exact P. now rewrite E.
Qed.
Lemma alike_intro (z : D) d l1 l2 : length l1 = size (at_batch b1 d) -> length l2 = size (at_batch b2 d) ->
  (forall x y m, x < d_width d -> y < d_height d -> m < d_maps d -> nth (place (at_batch b1 d) x y m s1) l1 z = nth (place (at_batch b2 d) x y m s2) l2 z) ->
  alike d l1 l2.
Proof.
  intros L1 L2 H. split; [exact L1|]. split; [exact L2|]. apply (nth_ext _ _ z z).
  - now rewrite (length_sample b1), (length_sample b2).
  - rewrite (length_sample b1) by assumption. intros i Hi. rewrite !nth_sample by exact Hi.
    destruct (place_surj (at_batch 1 d) i) as (x & y & m & s & (A & B & C & F) & E); [rewrite size_batch; lia|]. cbn in A, B, C, F. assert (s = 0) by lia. subst s.
    specialize (H x y m A B C). rewrite (place_batch b1), (place_batch b2), E in H. exact H.
Qed.
Lemma out_alike (z : D) d (t1 t2 : tensor D) f1 f2 : 0 < sample_size d ->
  wf t1 -> has_shape t1 b1 (d_width d) (d_height d) (d_maps d) -> contents t1 f1 ->
  wf t2 -> has_shape t2 b2 (d_width d) (d_height d) (d_maps d) -> contents t2 f2 ->
  (forall x y m, x < d_width d -> y < d_height d -> m < d_maps d -> f1 x y m s1 = f2 x y m s2) ->
  alike d (elements_of t1) (elements_of t2).
Proof.
  intros P W1 S1 C1 W2 S2 C2 H.
  destruct (elements_val z (at_batch b1 d) t1 f1 W1 S1 C1) as (L1 & E1); [rewrite size_batch; nia|].
  destruct (elements_val z (at_batch b2 d) t2 f2 W2 S2 C2) as (L2 & E2); [rewrite size_batch; nia|].
  apply (alike_intro z); auto. intros x y m A B C. rewrite E1, E2 by (unfold in_range; cbn; lia). now apply H.
Qed.
Lemma alike_one d x1 x2 : all_alike [Some d] x1 x2 -> exists l1 l2, x1 = [l1] /\ x2 = [l2] /\ alike d l1 l2.
Proof. intros H. inversion H as [|? ? l1 l2 ? ? A B]; subst. inversion B; subst. eauto. Qed.
Lemma alike_two d e x1 x2 : all_alike [Some d; Some e] x1 x2 -> exists l1 l2 k1 k2, x1 = [l1; k1] /\ x2 = [l2; k2] /\ alike d l1 l2 /\ alike e k1 k2.
Proof. intros H. inversion H as [|? ? l1 l2 ? ? A B]; subst. apply alike_one in B as (k1 & k2 & -> & -> & B). exists l1, l2, k1, k2. auto. Qed.
Lemma alike_single d l1 l2 : alike d l1 l2 -> all_alike [Some d] [l1] [l2].
Proof. intros H. constructor; [exact H|constructor]. Qed.
Lemma alike_nth ds ls1 ls2 b d : all_alike ds ls1 ls2 -> nth_error ds b = Some (Some d) -> alike d (nth b ls1 []) (nth b ls2 []) /\ b < length ls1 /\ b < length ls2.
Proof.
  intros H. revert b. induction H as [|d' ds l1 l2 ls1 ls2 A B IH]; intros [|b] E; cbn [nth_error] in E; try discriminate.
  - injection E as ->. cbn [nth length]. split; [exact A|lia].
  - cbn [nth length]. destruct (IH b E) as (H1 & H2 & H3). split; [exact H1|lia].
Qed.

(** ** Layers *)
Variable K : num D.
Notation z := (n0 K).
Ltac sized := first [assumption | rewrite size_batch; nia].

Lemma input_alike (loaded1 loaded2 : list (list D)) ps outs : all_alike outs loaded1 loaded2 ->
  samplewise b1 b2 s1 s2 (input_behaviour K loaded1) (input_behaviour K loaded2) ps [] outs.
Proof. intros H x1 x2 _. exact H. Qed.

Lemma act_alike fwd bp1 bp2 d old1 old2 od1 od2 ps : 0 < sample_size d -> length old1 = size (at_batch b1 d) -> length old2 = size (at_batch b2 d) ->
  samplewise b1 b2 s1 s2 (activation_behaviour K (at_batch b1 d) (act_ff fwd) bp1 old1 od1) (activation_behaviour K (at_batch b2 d) (act_ff fwd) bp2 old2 od2) ps [Some d] [Some d].
Proof.
  intros P O1 O2 x1 x2 H. apply alike_one in H as (l1 & l2 & -> & -> & H). pose proof H as (L1 & L2 & _). apply alike_single. cbn [activation_behaviour b_outputs nth].
  destruct (act_ff_spec fwd (tensor_of (at_batch b1 d) l1) (tensor_of (at_batch b1 d) old1) (val z (at_batch b1 d) l1)) as (t1 & E1 & W1 & S1 & C1);
    try (apply wf_of; sized); [apply tensor_same|now apply contents_val|].
  destruct (act_ff_spec fwd (tensor_of (at_batch b2 d) l2) (tensor_of (at_batch b2 d) old2) (val z (at_batch b2 d) l2)) as (t2 & E2 & W2 & S2 & C2);
    try (apply wf_of; sized); [apply tensor_same|now apply contents_val|].
  rewrite E1, E2. cbn [written]. apply (out_alike z d t1 t2 _ _ P W1 S1 C1 W2 S2 C2). intros x y m _ _ _. now rewrite (val_alike z d l1 l2 x y m H).
Qed.

Lemma sum_alike d old1 old2 a1 a2 c1 c2 ps : 0 < sample_size d -> length old1 = size (at_batch b1 d) -> length old2 = size (at_batch b2 d) ->
  samplewise b1 b2 s1 s2 (sum_behaviour K (at_batch b1 d) old1 a1 c1) (sum_behaviour K (at_batch b2 d) old2 a2 c2) ps [Some d; Some d] [Some d].
Proof.
  intros P O1 O2 x1 x2 H. apply alike_two in H as (l1 & l2 & k1 & k2 & -> & -> & H & G). pose proof H as (L1 & L2 & _). pose proof G as (M1 & M2 & _).
  apply alike_single. cbn [sum_behaviour b_outputs nth].
  destruct (sum_ff_correct K (tensor_of (at_batch b1 d) l1) (tensor_of (at_batch b1 d) k1) (tensor_of (at_batch b1 d) old1) (val z (at_batch b1 d) l1) (val z (at_batch b1 d) k1)
    b1 (d_width d) (d_height d) (d_maps d)) as (t1 & E1 & W1 & S1 & C1); try (apply wf_of; sized); try (now repeat split); try (now apply contents_val).
  destruct (sum_ff_correct K (tensor_of (at_batch b2 d) l2) (tensor_of (at_batch b2 d) k2) (tensor_of (at_batch b2 d) old2) (val z (at_batch b2 d) l2) (val z (at_batch b2 d) k2)
    b2 (d_width d) (d_height d) (d_maps d)) as (t2 & E2 & W2 & S2 & C2); try (apply wf_of; sized); try (now repeat split); try (now apply contents_val).
  rewrite E1, E2. cbn [written]. apply (out_alike z d t1 t2 _ _ P W1 S1 C1 W2 S2 C2). intros x y m _ _ _.
  now rewrite (val_alike z d l1 l2 x y m H), (val_alike z d k1 k2 x y m G).
Qed.

Lemma concat_alike da db old1 old2 a1 a2 c1 c2 ps : 0 < sample_size da -> 0 < sample_size db -> d_width da = d_width db -> d_height da = d_height db ->
  length old1 = size (at_batch b1 (concat_dims da db)) -> length old2 = size (at_batch b2 (concat_dims da db)) ->
  samplewise b1 b2 s1 s2 (concat_behaviour K (at_batch b1 da) (at_batch b1 db) old1 a1 c1) (concat_behaviour K (at_batch b2 da) (at_batch b2 db) old2 a2 c2) ps
    [Some da; Some db] [Some (concat_dims da db)].
Proof.
  intros P Q Ew Eh O1 O2 x1 x2 H. apply alike_two in H as (l1 & l2 & k1 & k2 & -> & -> & H & G). pose proof H as (L1 & L2 & _). pose proof G as (M1 & M2 & _).
  assert (P' : 0 < sample_size (concat_dims da db)) by (unfold sample_size, concat_dims in *; cbn; nia).
  apply alike_single. cbn [concat_behaviour b_outputs nth].
  change (concat_dims (at_batch b1 da) (at_batch b1 db)) with (at_batch b1 (concat_dims da db)).
  change (concat_dims (at_batch b2 da) (at_batch b2 db)) with (at_batch b2 (concat_dims da db)).
  destruct (concat_ff_correct K (tensor_of (at_batch b1 da) l1) (tensor_of (at_batch b1 db) k1) (tensor_of (at_batch b1 (concat_dims da db)) old1) (val z (at_batch b1 da) l1) (val z (at_batch b1 db) k1)
    b1 (d_width da) (d_height da) (d_maps da) (d_maps db)) as (t1 & E1 & W1 & S1 & C1); try (apply wf_of; sized); try (now repeat split); try (now apply contents_val).
  destruct (concat_ff_correct K (tensor_of (at_batch b2 da) l2) (tensor_of (at_batch b2 db) k2) (tensor_of (at_batch b2 (concat_dims da db)) old2) (val z (at_batch b2 da) l2) (val z (at_batch b2 db) k2)
    b2 (d_width da) (d_height da) (d_maps da) (d_maps db)) as (t2 & E2 & W2 & S2 & C2); try (apply wf_of; sized); try (now repeat split); try (now apply contents_val).
  rewrite E1, E2. cbn [written]. apply (out_alike z (concat_dims da db) t1 t2 _ _ P' W1 S1 C1 W2 S2 C2). intros x y m _ _ _. cbn beta.
  now rewrite (val_alike z da l1 l2 x y m H), (val_alike z db k1 k2 x y _ G).
Qed.

Lemma map_alike d o ff1 ff2 bp1 bp2 ps :
  (forall l1 l2, alike d l1 l2 -> alike o (written (ff1 l1)) (written (ff2 l2))) ->
  samplewise b1 b2 s1 s2 (map_behaviour K ff1 bp1) (map_behaviour K ff2 bp2) ps [Some d] [Some o].
Proof. intros F x1 x2 H. apply alike_one in H as (l1 & l2 & -> & -> & H). apply alike_single. now apply F. Qed.

Lemma border_alike bx by_ d old1 old2 od1 od2 ps : 0 < sample_size d ->
  length old1 = size (at_batch b1 (border_dims bx by_ d)) -> length old2 = size (at_batch b2 (border_dims bx by_ d)) ->
  samplewise b1 b2 s1 s2 (border_behaviour K bx by_ (at_batch b1 d) old1 od1) (border_behaviour K bx by_ (at_batch b2 d) old2 od2) ps [Some d] [Some (border_dims bx by_ d)].
Proof.
  intros P O1 O2. assert (P' : 0 < sample_size (border_dims bx by_ d)) by (unfold sample_size, border_dims in *; cbn; nia).
  apply map_alike. intros l1 l2 H. pose proof H as (L1 & L2 & _).
  change (border_dims bx by_ (at_batch b1 d)) with (at_batch b1 (border_dims bx by_ d)). change (border_dims bx by_ (at_batch b2 d)) with (at_batch b2 (border_dims bx by_ d)).
  destruct (resize_ff_correct K bx by_ (tensor_of (at_batch b1 d) l1) (tensor_of (at_batch b1 (border_dims bx by_ d)) old1) (val z (at_batch b1 d) l1)
    b1 (d_width d) (d_height d) (d_maps d)) as (t1 & E1 & W1 & S1 & C1); try (apply wf_of; sized); try (now repeat split); try (now apply contents_val).
  destruct (resize_ff_correct K bx by_ (tensor_of (at_batch b2 d) l2) (tensor_of (at_batch b2 (border_dims bx by_ d)) old2) (val z (at_batch b2 d) l2)
    b2 (d_width d) (d_height d) (d_maps d)) as (t2 & E2 & W2 & S2 & C2); try (apply wf_of; sized); try (now repeat split); try (now apply contents_val).
  rewrite E1, E2. cbn [written]. apply (out_alike z (border_dims bx by_ d) t1 t2 _ _ P' W1 S1 C1 W2 S2 C2). intros x y m _ _ _. cbn beta.
  now rewrite (val_alike z d l1 l2 _ _ m H).
Qed.

Lemma prior_alike ratio d old1 old2 od1 od2 ps : 0 < sample_size d ->
  length old1 = size (at_batch b1 (prior_dims d)) -> length old2 = size (at_batch b2 (prior_dims d)) ->
  samplewise b1 b2 s1 s2 (prior_behaviour K ratio (at_batch b1 d) old1 od1) (prior_behaviour K ratio (at_batch b2 d) old2 od2) ps [Some d] [Some (prior_dims d)].
Proof.
  intros P O1 O2. assert (P' : 0 < sample_size (prior_dims d)) by (unfold sample_size, prior_dims in *; cbn; nia).
  apply map_alike. intros l1 l2 H. pose proof H as (L1 & L2 & _).
  change (prior_dims (at_batch b1 d)) with (at_batch b1 (prior_dims d)). change (prior_dims (at_batch b2 d)) with (at_batch b2 (prior_dims d)).
  destruct (prior_ff_correct K ratio (tensor_of (at_batch b1 d) l1) (tensor_of (at_batch b1 (prior_dims d)) old1) (val z (at_batch b1 d) l1)
    b1 (d_width d) (d_height d) (d_maps d)) as (t1 & E1 & W1 & S1 & C1); try (apply wf_of; sized); try (now repeat split); try (now apply contents_val).
  destruct (prior_ff_correct K ratio (tensor_of (at_batch b2 d) l2) (tensor_of (at_batch b2 (prior_dims d)) old2) (val z (at_batch b2 d) l2)
    b2 (d_width d) (d_height d) (d_maps d)) as (t2 & E2 & W2 & S2 & C2); try (apply wf_of; sized); try (now repeat split); try (now apply contents_val).
  rewrite E1, E2. cbn [written]. apply (out_alike z (prior_dims d) t1 t2 _ _ P' W1 S1 C1 W2 S2 C2). intros x y m _ _ _. cbn beta.
  now rewrite (val_alike z d l1 l2 _ _ _ H).
Qed.

Lemma upscale_alike rw rh d old1 old2 od1 od2 ps : 0 < rw -> 0 < rh -> 0 < sample_size d ->
  length old1 = size (at_batch b1 (upscale_dims rw rh d)) -> length old2 = size (at_batch b2 (upscale_dims rw rh d)) ->
  samplewise b1 b2 s1 s2 (upscale_behaviour K rw rh (at_batch b1 d) old1 od1) (upscale_behaviour K rw rh (at_batch b2 d) old2 od2) ps [Some d] [Some (upscale_dims rw rh d)].
Proof.
  intros Hw Hh P O1 O2. assert (P' : 0 < sample_size (upscale_dims rw rh d)) by (unfold sample_size, upscale_dims in *; cbn; nia).
  apply map_alike. intros l1 l2 H. pose proof H as (L1 & L2 & _). unfold upscale_ff.
  change (upscale_dims rw rh (at_batch b1 d)) with (at_batch b1 (upscale_dims rw rh d)). change (upscale_dims rw rh (at_batch b2 d)) with (at_batch b2 (upscale_dims rw rh d)).
  destruct (up_spec K (tensor_of (at_batch b1 d) l1) (tensor_of (at_batch b1 (upscale_dims rw rh d)) old1) rw rh (n1 K) (val z (at_batch b1 d) l1))
    as (t1 & E1 & W1 & S1 & C1); try (apply wf_of; sized); [repeat split; cbn; ring|now apply contents_val|].
  destruct (up_spec K (tensor_of (at_batch b2 d) l2) (tensor_of (at_batch b2 (upscale_dims rw rh d)) old2) rw rh (n1 K) (val z (at_batch b2 d) l2))
    as (t2 & E2 & W2 & S2 & C2); try (apply wf_of; sized); [repeat split; cbn; ring|now apply contents_val|].
  rewrite E1, E2. cbn [written]. apply (out_alike z (upscale_dims rw rh d) t1 t2 _ _ P' W1 S1 C1 W2 S2 C2). intros x y m _ _ _. cbn beta.
  now rewrite (val_alike z d l1 l2 _ _ _ H).
Qed.

Lemma scan_same (O : order D) v1 v2 cells : (forall c, v1 c = v2 c) -> scan O v1 cells = scan O v2 cells.
Proof. intros H. unfold scan. generalize (o_lowest O, (0, 0)). induction cells as [|c cells IH]; intros b; cbn [fold_left]; [reflexivity|]. rewrite H. apply IH. Qed.

Lemma pool_alike (O : order D) rw rh d ix1 ix2 iy1 iy2 old1 old2 od1 od2 ps : 0 < rw -> 0 < rh -> d_width d mod rw = 0 -> d_height d mod rh = 0 -> 0 < sample_size d ->
  let o := pool_dims rw rh d in
  length ix1 = size (at_batch b1 o) -> length iy1 = size (at_batch b1 o) -> length old1 = size (at_batch b1 o) ->
  length ix2 = size (at_batch b2 o) -> length iy2 = size (at_batch b2 o) -> length old2 = size (at_batch b2 o) ->
  samplewise b1 b2 s1 s2 (pool_behaviour K O rw rh (at_batch b1 d) ix1 iy1 old1 od1) (pool_behaviour K O rw rh (at_batch b2 d) ix2 iy2 old2 od2) ps [Some d] [Some o].
Proof.
  intros Hw Hh Mw Mh P o I1 J1 O1 I2 J2 O2.
  assert (Ew : d_width d = d_width d / rw * rw) by (rewrite Nat.mul_comm; apply Nat.div_exact; lia).
  assert (Eh : d_height d = d_height d / rh * rh) by (rewrite Nat.mul_comm; apply Nat.div_exact; lia).
  assert (P' : 0 < sample_size o) by (unfold sample_size, o, pool_dims in *; cbn; rewrite Ew, Eh in P; nia).
  apply map_alike. intros l1 l2 H. pose proof H as (L1 & L2 & _).
  change (pool_dims rw rh (at_batch b1 d)) with (at_batch b1 o). change (pool_dims rw rh (at_batch b2 d)) with (at_batch b2 o).
  destruct (pool_ff_scan O rw rh (d_width d / rw) (d_height d / rh) (d_maps d) b1 (tensor_of (at_batch b1 d) l1) (tensor_of (at_batch b1 o) old1) (tensor_of (at_batch b1 o) ix1) (tensor_of (at_batch b1 o) iy1)
    (val z (at_batch b1 d) l1) Hw Hh) as (mx1 & my1 & t1 & E1 & W1 & S1 & C1); try (apply wf_of; sized); try (now repeat split); try (now apply contents_val).
  destruct (pool_ff_scan O rw rh (d_width d / rw) (d_height d / rh) (d_maps d) b2 (tensor_of (at_batch b2 d) l2) (tensor_of (at_batch b2 o) old2) (tensor_of (at_batch b2 o) ix2) (tensor_of (at_batch b2 o) iy2)
    (val z (at_batch b2 d) l2) Hw Hh) as (mx2 & my2 & t2 & E2 & W2 & S2 & C2); try (apply wf_of; sized); try (now repeat split); try (now apply contents_val).
  rewrite E1, E2. cbn [bind snd written]. apply (out_alike z o t1 t2 _ _ P' W1 S1 C1 W2 S2 C2). intros x y m _ _ _. cbn beta.
  f_equal. apply scan_same. intros c. apply (val_alike z d l1 l2 _ _ _ H).
Qed.

Lemma strided_alike (O : order D) rw rh sw sh d o mask1 mask2 old1 old2 od1 od2 ps : 0 < sw -> 0 < sh ->
  o = mkDims (d_samples d) (positions (d_width d) rw sw) (positions (d_height d) rh sh) (d_maps d) -> 0 < sample_size d -> 0 < sample_size o ->
  length mask1 = size (at_batch b1 o) -> length old1 = size (at_batch b1 o) -> length mask2 = size (at_batch b2 o) -> length old2 = size (at_batch b2 o) ->
  samplewise b1 b2 s1 s2 (strided_behaviour K O rw rh sw sh (at_batch b1 d) (at_batch b1 o) mask1 old1 od1)
    (strided_behaviour K O rw rh sw sh (at_batch b2 d) (at_batch b2 o) mask2 old2 od2) ps [Some d] [Some o].
Proof.
  intros Hw Hh Eo P P' I1 O1 I2 O2. apply map_alike. intros l1 l2 H. pose proof H as (L1 & L2 & _).
  destruct (apool_ff_scan O rw rh sw sh (d_width d) (d_height d) (d_maps d) b1 (tensor_of (at_batch b1 d) l1) (tensor_of (at_batch b1 o) old1) (tensor_of (at_batch b1 o) mask1)
    (val z (at_batch b1 d) l1) Hw Hh) as (mx1 & t1 & E1 & W1 & S1 & C1); try (apply wf_of; sized); try (now repeat split); try (now rewrite Eo; repeat split); try (now apply contents_val).
  destruct (apool_ff_scan O rw rh sw sh (d_width d) (d_height d) (d_maps d) b2 (tensor_of (at_batch b2 d) l2) (tensor_of (at_batch b2 o) old2) (tensor_of (at_batch b2 o) mask2)
    (val z (at_batch b2 d) l2) Hw Hh) as (mx2 & t2 & E2 & W2 & S2 & C2); try (apply wf_of; sized); try (now repeat split); try (now rewrite Eo; repeat split); try (now apply contents_val).
  rewrite E1, E2. cbn [bind snd written]. apply (out_alike z o t1 t2 _ _ P' W1 S1 C1 W2 S2 C2). intros x y m _ _ _. cbn beta.
  f_equal. apply scan_same. intros c. apply (val_alike z d l1 l2 _ _ _ H).
Qed.

Lemma normalized_same scale power ndiv f1 f2 region x y m r1 r2 : (forall x y m, f1 x y m r1 = f2 x y m r2) ->
  normalized K scale power ndiv f1 region x y m r1 = normalized K scale power ndiv f2 region x y m r2.
Proof. intros H. unfold normalized. rewrite H. do 5 f_equal. apply map_ext. intros p. apply H. Qed.

Lemma lrn_alike ndiv two scale power power1 beta method n d sums1 sums2 old1 old2 od1 od2 ps : 0 < n -> d_width d = d_height d -> 0 < sample_size d ->
  length sums1 = size (at_batch b1 d) -> length old1 = size (at_batch b1 d) -> length sums2 = size (at_batch b2 d) -> length old2 = size (at_batch b2 d) ->
  samplewise b1 b2 s1 s2 (normalization_behaviour K ndiv two scale power power1 beta method n (at_batch b1 d) sums1 old1 od1)
    (normalization_behaviour K ndiv two scale power power1 beta method n (at_batch b2 d) sums2 old2 od2) ps [Some d] [Some d].
Proof.
  intros Hn Sq P I1 O1 I2 O2. apply map_alike. intros l1 l2 H. pose proof H as (L1 & L2 & _).
  destruct (lrn_ff_spec K scale power ndiv method n (tensor_of (at_batch b1 d) l1) (tensor_of (at_batch b1 d) sums1) (tensor_of (at_batch b1 d) old1) (val z (at_batch b1 d) l1) Hn)
    as (q1 & t1 & E1 & _ & _ & W1 & S1 & C1 & _); try (apply wf_of; sized); try apply tensor_same; [now apply contents_val|cbn; lia|].
  destruct (lrn_ff_spec K scale power ndiv method n (tensor_of (at_batch b2 d) l2) (tensor_of (at_batch b2 d) sums2) (tensor_of (at_batch b2 d) old2) (val z (at_batch b2 d) l2) Hn)
    as (q2 & t2 & E2 & _ & _ & W2 & S2 & C2 & _); try (apply wf_of; sized); try apply tensor_same; [now apply contents_val|cbn; lia|].
  rewrite E1, E2. cbn [bind snd written].
  apply (out_alike z d t1 t2 (fun x y m s => normalized K scale power ndiv (val z (at_batch b1 d) l1) (lrn_region method n (d_width d) (d_height d) (d_maps d) x y m) x y m s)
    (fun x y m s => normalized K scale power ndiv (val z (at_batch b2 d) l2) (lrn_region method n (d_width d) (d_height d) (d_maps d) x y m) x y m s) P W1 S1).
  - intros x y m s V. assert (V' : in_range (at_batch b1 d) x y m s) by (destruct S1 as (A & B & C & E); unfold valid_pos in V; rewrite A, B, C, E in V; exact V).
    apply (C1 x y m s V'). cbn. rewrite <- Sq. apply V'.
  - exact W2.
  - exact S2.
  - intros x y m s V. assert (V' : in_range (at_batch b2 d) x y m s) by (destruct S2 as (A & B & C & E); unfold valid_pos in V; rewrite A, B, C, E in V; exact V).
    apply (C2 x y m s V'). cbn. rewrite <- Sq. apply V'.
  - intros x y m _ _ _. apply normalized_same. intros x' y' m'. apply (val_alike z d l1 l2 _ _ _ H).
Qed.

Lemma flat_window_same c w h m S1 S2 wt f1 f2 x y o r1 r2 : (forall x y m, f1 x y m r1 = f2 x y m r2) ->
  flat_window K c w h m S1 wt f1 x y o r1 = flat_window K c w h m S2 wt f2 x y o r2.
Proof.
  intros H. unfold flat_window. apply nsum_ext. intros k _. f_equal. unfold col_value, padded.
  change (col_ix (conv_geo c w h m S2)) with (col_ix (conv_geo c w h m S1)). change (col_iy (conv_geo c w h m S2)) with (col_iy (conv_geo c w h m S1)).
  change (col_imap (conv_geo c w h m S2)) with (col_imap (conv_geo c w h m S1)). cbn [conv_geo g_width g_height].
  match goal with |- (if ?a then _ else _) = _ => destruct a; [apply H|reflexivity] end.
Qed.

Lemma conv_alike (c : conv) (testing : bool) dropout d st1 st2 wt1 wt2 bb1 bb2 old1 old2 l1 l2 ps :
  nzerob K (n0 K) = true -> nzerob K (n1 K) = false -> nzerob K (if testing then n0 K else dropout) = true ->
  0 < sample_size d ->
  conv_ready K c st1 (d_width d) (d_height d) (d_maps d) b1 wt1 bb1 -> conv_ready K c st2 (d_width d) (d_height d) (d_maps d) b2 wt2 bb2 ->
  length (nth 0 ps []) = size (weights_dims c d) -> length (nth 1 ps []) = size (bias_dims c) -> 0 < size (weights_dims c d) -> 0 < cv_omaps c ->
  let o := mkDims 1 (cs_ow st1) (cs_oh st1) (cv_omaps c) in
  0 < sample_size o -> length old1 = size (at_batch b1 o) -> length old2 = size (at_batch b2 o) -> alike d l1 l2 ->
  alike o
    (written (r <- conv_ff K c testing dropout (with_params c (at_batch b1 d) st1 ps) (tensor_of (at_batch b1 d) l1) (tensor_of (mkDims b1 (cs_ow st1) (cs_oh st1) (cv_omaps c)) old1) ;; Ok (snd r)))
    (written (r <- conv_ff K c testing dropout (with_params c (at_batch b2 d) st2 ps) (tensor_of (at_batch b2 d) l2) (tensor_of (mkDims b2 (cs_ow st2) (cs_oh st2) (cv_omaps c)) old2) ;; Ok (snd r))).
Proof.
  intros Z0 Z1 Zp P R1 R2 Lw Lb Pw Po o P' O1 O2 H. pose proof H as (L1 & L2 & _).
  assert (Ew : cs_ow st2 = cs_ow st1) by (rewrite (cr_ow _ _ _ _ _ _ _ _ _ R1), (cr_ow _ _ _ _ _ _ _ _ _ R2); reflexivity).
  assert (Eh : cs_oh st2 = cs_oh st1) by (rewrite (cr_oh _ _ _ _ _ _ _ _ _ R1), (cr_oh _ _ _ _ _ _ _ _ _ R2); reflexivity).
  assert (Pb : 0 < size (bias_dims c)) by (unfold size, bias_dims; cbn; lia).
  set (W := val z (weights_dims c d) (nth 0 ps [])). set (B := fun q => val z (bias_dims c) (nth 1 ps []) q 0 0 0).
  assert (Rd1 : conv_ready K c (with_params c (at_batch b1 d) st1 ps) (d_width d) (d_height d) (d_maps d) b1 W B).
  { apply (conv_ready_set_params K c st1 _ _ _ _ wt1 bb1 (tensor_of (weights_dims c d) (nth 0 ps [])) (tensor_of (bias_dims c) (nth 1 ps [])) W B R1);
      try (apply wf_of; assumption); try apply tensor_shape; [now apply contents_val|].
    intros x y m s V. rewrite (contents_val z (bias_dims c) (nth 1 ps []) Lb x y m s V). destruct V as (_ & V2 & V3 & V4). cbn in V2, V3, V4.
    assert (y = 0 /\ m = 0 /\ s = 0) as (-> & -> & ->) by lia. reflexivity. }
  assert (Rd2 : conv_ready K c (with_params c (at_batch b2 d) st2 ps) (d_width d) (d_height d) (d_maps d) b2 W B).
  { apply (conv_ready_set_params K c st2 _ _ _ _ wt2 bb2 (tensor_of (weights_dims c d) (nth 0 ps [])) (tensor_of (bias_dims c) (nth 1 ps [])) W B R2);
      try (apply wf_of; assumption); try apply tensor_shape; [now apply contents_val|].
    intros x y m s V. rewrite (contents_val z (bias_dims c) (nth 1 ps []) Lb x y m s V). destruct V as (_ & V2 & V3 & V4). cbn in V2, V3, V4.
    assert (y = 0 /\ m = 0 /\ s = 0) as (-> & -> & ->) by lia. reflexivity. }
  rewrite Ew, Eh. change (mkDims b1 (cs_ow st1) (cs_oh st1) (cv_omaps c)) with (at_batch b1 o). change (mkDims b2 (cs_ow st1) (cs_oh st1) (cv_omaps c)) with (at_batch b2 o).
  destruct (conv_ff_spec K c _ (d_width d) (d_height d) (d_maps d) b1 W B testing dropout (tensor_of (at_batch b1 d) l1) (tensor_of (at_batch b1 o) old1) (val z (at_batch b1 d) l1) Z0 Z1 Rd1)
    as (st1' & t1 & E1 & W1 & S1 & C1 & _); try (apply wf_of; sized); try (now repeat split); try exact Zp; try (now apply contents_val).
  destruct (conv_ff_spec K c _ (d_width d) (d_height d) (d_maps d) b2 W B testing dropout (tensor_of (at_batch b2 d) l2) (tensor_of (at_batch b2 o) old2) (val z (at_batch b2 d) l2) Z0 Z1 Rd2)
    as (st2' & t2 & E2 & W2 & S2 & C2 & _); try (apply wf_of; sized); try (now repeat split); try exact Zp; try (now apply contents_val); try (repeat split; cbn; congruence).
  rewrite E1, E2. cbn [bind snd written]. apply (out_alike z o t1 t2 _ _ P' W1 S1 C1 W2 S2 C2). intros x y m _ _ _. cbn beta.
  do 3 f_equal. apply flat_window_same. intros x' y' m'. apply (val_alike z d l1 l2 _ _ _ H).
Qed.

(** ** Networks *)
Lemma network_alike g (layer1 layer2 : nat -> behaviour D) params takes makes l l' m1 m2 :
  ordered (heap g) l -> ordered (heap g) l' -> (forall n, In n l -> In n (nodes g) /\ In n l') -> connected g takes makes ->
  (forall n, In n (nodes g) -> samplewise b1 b2 s1 s2 (layer1 n) (layer2 n) (params n) (takes n) (makes n)) ->
  let r1 := fold_left (forward_node layer1 params (heap g)) l m1 in
  let r2 := fold_left (forward_node layer2 params (heap g)) l' m2 in
  forall n b d, In n l -> nth_error (makes n) b = Some (Some d) -> alike d (m_data r1 n b) (m_data r2 n b).
Proof.
  intros Ho Ho' Hl Hc Hs r1 r2 n b d Hn E. revert b d E.
  assert (Step : forall n, In n l -> (forall q, before q n l -> forall b d, nth_error (makes q) b = Some (Some d) -> alike d (m_data r1 q b) (m_data r2 q b)) ->
    forall b d, nth_error (makes n) b = Some (Some d) -> alike d (m_data r1 n b) (m_data r2 n b)).
  { clear n Hn. intros n Hn IH b d E.
    assert (Hi : all_alike (takes n) (input_data (heap g) r1 n) (input_data (heap g) r2 n)).
    { unfold input_data. specialize (Hc n (proj1 (Hl n Hn))). assert (Hb : forall c q, In c (inputs_of (heap g) n) -> c_node c = Some q -> before q n l) by (intros c q; apply Ho; exact Hn).
      revert Hb. induction Hc as [|c dd cs ds (q & Eq & Em) _ IHc]; intros Hb; cbn [map]; constructor.
      - rewrite Eq. destruct dd as [dd|]; [|exact I]. apply IH; [|exact Em]. apply (Hb c q); [now left|exact Eq].
      - apply IHc. intros c' q' H. apply Hb. now right. }
    destruct (alike_nth _ _ _ b d (Hs n (proj1 (Hl n Hn)) _ _ Hi) E) as (A & B1 & B2).
    pose proof (forward_equations layer1 (heap g) params l m1 n Ho Hn b) as F1. pose proof (forward_equations layer2 (heap g) params l' m2 n Ho' (proj2 (Hl n Hn)) b) as F2. cbv zeta in F1, F2.
    fold r1 in F1. fold r2 in F2. rewrite F1, F2, (proj2 (Nat.ltb_lt _ _) B1), (proj2 (Nat.ltb_lt _ _) B2). exact A. }
  assert (All : forall pre post, l = pre ++ post -> forall n, In n pre -> forall b d, nth_error (makes n) b = Some (Some d) -> alike d (m_data r1 n b) (m_data r2 n b)).
  { induction pre as [|k pre IH] using rev_ind; intros post El k' Hk; [destruct Hk|]. rewrite <- app_assoc in El. cbn in El.
    apply in_app_or in Hk as [Hk|[<-|[]]]; [now apply (IH (k :: post))|]. apply Step; [rewrite El; apply in_or_app; right; now left|].
    intros q Bq. apply (IH (k :: post) El). destruct Ho as [Nd _]. apply (before_nodup q k l pre post Nd Bq El). }
  exact (All l [] (eq_sym (app_nil_r l)) n Hn).
Qed.
End Kit.

Lemma acc_alike {D} b1 b2 s1 s2 (K : num D) n samples1 samples2 eps1 eps2 old1 old2 d ps :
  samplewise b1 b2 s1 s2 (accumulation_behaviour K n samples1 eps1 old1) (accumulation_behaviour K n samples2 eps2 old2) ps [Some d] (repeat (Some d) n).
Proof. intros x1 x2 H. apply alike_one in H as (l1 & l2 & -> & -> & H). cbn. induction n; cbn; constructor; auto. Qed.

(** ** Predicting *)
Lemma order_of g fuel ff : sound g -> acyclic (reads (heap g)) (nodes g) -> length (nodes g) < fuel ->
  exists ff1 l, Graph_Model.feed_forward fuel g ff = Ok (ff1, l) /\ ordered (heap g) l /\ forall n, In n l <-> In n (nodes g).
Proof.
  intros S Ac Hf. destruct (Graph_Props.C17_feed_forward g ff fuel (sound_closed g S) Ac Hf) as (ff1 & l & Ef & Nd & Hl & Bf). exists ff1, l.
  split; [exact Ef|]. split; [|exact Hl]. split; [exact Nd|]. intros n c q Hn Hc Eq. apply Bf; [now apply Hl|]. unfold inputs_of in Hc.
  destruct (nth_error (heap g) n) as [nd|] eqn:E; [|destruct Hc]. exists nd, c. auto.
Qed.

Lemma size_parts d : 0 < sample_size d -> 0 < d_width d /\ 0 < d_height d /\ 0 < d_maps d.
Proof. unfold sample_size. intros H. repeat split; apply Nat.neq_0_lt_0; intros E; rewrite E in H; lia. Qed.
Lemma paint_at z d p x y m : x < d_width d -> y < d_height d -> m < d_maps d ->
  nth (place (at_batch 1 d) x y m 0) (elements_of (paint d p)) z = p x y m.
Proof.
  intros Hx Hy Hm. unfold paint, elements_of. cbn [tensor_of data].
  assert (Ep : place (at_batch 1 d) x y m 0 = (m * d_height d + y) * d_width d + x) by reflexivity.
  assert (P : place (at_batch 1 d) x y m 0 < sample_size d) by (apply (place_sample 1 d x y m 0); unfold in_range; cbn; lia).
  rewrite (nth_indep _ z (p (0 mod d_width d) (0 / d_width d mod d_height d) (0 / (d_width d * d_height d)))) by (now rewrite map_length, seq_length).
  rewrite (map_nth (fun i => p (i mod d_width d) (i / d_width d mod d_height d) (i / (d_width d * d_height d)))), seq_nth by exact P. cbn [plus].
  rewrite Ep, <- Nat.div_div by lia.
  rewrite (Nat.add_comm _ x), Nat.mod_add, (Nat.mod_small x) by lia. rewrite Nat.div_add, (Nat.div_small x) by lia. cbn [plus].
  rewrite (Nat.add_comm _ y), Nat.mod_add, (Nat.mod_small y) by lia. rewrite Nat.div_add, (Nat.div_small y) by lia. reflexivity.
Qed.
Lemma paint_alike b s d (t : tensor f32) p : s < b -> 0 < sample_size d -> sized b d t -> slot_is t s p ->
  alike b 1 s 0 d (elements_of t) (elements_of (paint d p)).
Proof.
  intros Hs P (W & S1 & S2 & S3 & S4) Hp. destruct (contents_exists 0%Z t W) as (f & Cf).
  assert (Sh : has_shape t (d_samples (at_batch b d)) (d_width (at_batch b d)) (d_height (at_batch b d)) (d_maps (at_batch b d))) by (cbn; now repeat split).
  destruct (elements_val 0%Z (at_batch b d) t f W Sh Cf) as (L & E); [rewrite size_batch; nia|].
  apply (alike_intro b 1 s 0 Hs Nat.lt_0_1 0%Z); [exact L| |].
  - unfold paint, elements_of. cbn [tensor_of data]. rewrite map_length, seq_length, size_batch. lia.
  - intros x y m Hx Hy Hm. rewrite paint_at by assumption. rewrite E by (unfold in_range; cbn; lia).
    assert (V : valid_pos t x y m s) by (unfold valid_pos; rewrite S1, S2, S3, S4; auto). specialize (Hp x y m V). assert (Q : at_pos t x y m s = Some (f x y m s)) by exact (Cf x y m s V). unfold f32 in *. rewrite Q in Hp. congruence.
Qed.

(** Lemmas for C75: layers with one input and one output. *)
From Coq Require Import Reals Lra.
From Verif Require Import Base BaseFacts LoopFacts Tensor_Model Tensor_Spec Tensor_Proofs Num RealNum Math_Model Math_Spec Math_Proofs
  Conv_Proofs Conv2_Proofs Float32 Pool_Model Pool_Spec Pool_Proofs Graph_Model Backprop_Model Backprop_Spec Backprop_Proofs BackpropBackward_Proofs
  BackpropLayers_Model BackpropLayers_Spec BackpropLayers_Proofs BackpropLayers_Props.
Local Open Scope nat_scope.
Local Open Scope list_scope.

(** Inner product of two images of the shape [d]. *)
Definition dot_on (d : dims) := Math_Spec.dot R_num (d_samples d) (d_width d) (d_height d) (d_maps d).

(** A layer whose output is [F] of its input, with the derivative [J], and which stores the
    image [T] of the gradient, where T is the transpose of J.  [g]: it stores a gradient at all. *)
Lemma map_differentiates ff bp enabled u d o x0 (F J T : list R -> nat -> nat -> nat -> nat -> R) (g : bool) :
  0 < size d -> 0 < size o -> shaped d x0 -> u <> Observed -> (u = Asked -> g = true) ->
  (forall l, shaped d l -> exists t, ff l = Ok t /\ wf t /\ has_shape t (d_samples o) (d_width o) (d_height o) (d_maps o) /\ contents t (F l)) ->
  (forall x v0 dx i j m s, moves x v0 dx -> x v0 = x0 -> shaped d dx -> in_range o i j m s ->
     derivable_pt_lim (fun v => F (x v) i j m s) v0 (J dx i j m s)) ->
  (forall delta, shaped o delta -> exists t, bp enabled x0 delta = (if g then Some (elements_of t) else None) /\
     wf t /\ has_shape t (d_samples d) (d_width d) (d_height d) (d_maps d) /\ contents t (T delta)) ->
  (forall delta dx, shaped o delta -> shaped d dx -> dot_on o (fn o delta) (J dx) = dot_on d (T delta) (fn d dx)) ->
  differentiates (map_behaviour R_num ff bp) enabled 1 [u] [x0] [].
Proof.
  intros P Po L0 Hu Hg Hff Hd Hbp Ha x p v0 dx dp Ex Ep Mx Mp Hc. apply (no_params p v0 dp Ep) in Mp as ->.
  pose proof (proj1 Mx v0) as Lx. rewrite Ex in Lx. destruct dx as [|d0 [|? ?]]; try discriminate. clear Lx.
  assert (M0 : moves (fun v => nth 0 (x v) []) v0 d0) by (apply (proj2 Mx 0); cbn; lia).
  assert (E0 : nth 0 (x v0) [] = x0) by (now rewrite Ex).
  destruct (moves_shaped d _ v0 d0 M0) as [S0 V0]; [now rewrite E0|].
  exists [tab o (J d0)], 0%R. split; [reflexivity|]. split; [|split].
  - apply (one_output _ x p v0 o (fun v => F (nth 0 (x v) [])) _ Po).
    + intros v. destruct (Hff _ (V0 v)) as (t & E & W & S & C). exists t. cbn [b_outputs map_behaviour]. rewrite E. auto.
    + intros i j m s V. apply (Hd (fun v => nth 0 (x v) []) v0 d0 i j m s M0 E0 S0 V).
  - exact (derive_const 0 v0).
  - intros delta Hdl. apply shape_one in Hdl as (a & -> & Sa). rewrite tab_shaped in Sa.
    destruct (Hbp a Sa) as (t & E & W & S & C). destruct (written_at d t _ W S C P) as [St Ft].
    cbn [b_backward b_early map_behaviour fst snd nth length seq rsum]. rewrite E. unfold handed. cbn [nth].
    assert (Eo : dots [a] [tab o (J d0)] = dot_on o (fn o a) (J d0)).
    { rewrite dots_one, (dot_fn o a) by apply tab_shaped. apply dot_ext. intros i j m s V. now rewrite fn_tab. }
    rewrite Eo, dots_nil. split; [|split].
    + destruct g; cbn [or_nothing].
      * rewrite (Ha a d0 Sa S0), (dot_fn d _ d0 S0), !Rplus_0_r. apply dot_ext. intros i j m s V. now rewrite Ft.
      * assert (Hk : u = Constant) by (destruct u; [discriminate (Hg eq_refl)|reflexivity|contradiction]). subst u.
        rewrite dot_zero_l, !Rplus_0_r. unfold dot_on. rewrite (dot_ext o _ (fun _ _ _ _ => 0%R) _ (fun _ _ _ _ => 0%R)).
        -- unfold Math_Spec.dot, tensor_sum. apply (nsum_zero_ext R_num R_ring_laws). intros s _. apply (nsum_zero_ext R_num R_ring_laws). intros m _.
           apply (nsum_zero_ext R_num R_ring_laws). intros j _. apply (nsum_zero_ext R_num R_ring_laws). intros i _. cbn. ring.
        -- intros i j m s V. assert (J0 : J d0 i j m s = 0%R).
           { apply (uniqueness_limite (fun v => F (nth 0 (x v) []) i j m s) v0).
             - apply (Hd (fun v => nth 0 (x v) []) v0 d0 i j m s M0 E0 S0 V).
             - apply (derive_ext (fun _ => F x0 i j m s)); [|exact (derive_const _ v0)]. intros v. cbv beta. f_equal. symmetry. exact (Hc 0 v eq_refl). }
           rewrite J0. ring.
    + intros [|i] Hi; [|destruct i; discriminate]. injection Hi as ->. rewrite (Hg eq_refl). eexists. split; [reflexivity|]. cbn [nth]. now rewrite St, L0.
    + intros [|i] Hi; [injection Hi as Hi; contradiction|destruct i; discriminate].
Qed.

(** ** Transposes *)
Lemma nsum_inner w a n (g : nat -> R) : a + w <= n ->
  nsum R_num n (fun x => if (a <=? x) && (x <? a + w) then g (x - a) else 0%R) = nsum R_num w g.
Proof.
  intros H. replace n with (a + (w + (n - (a + w)))) by lia. rewrite (nsum_app R_num R_ring_laws), (nsum_app R_num R_ring_laws).
  rewrite (nsum_zero_ext R_num R_ring_laws a), (nsum_zero_ext R_num R_ring_laws (n - (a + w))).
  - cbn [nadd R_num n0]. rewrite Rplus_0_l, Rplus_0_r. apply nsum_ext. intros i Hi.
    rewrite (proj2 (Nat.leb_le a (a + i))), (proj2 (Nat.ltb_lt (a + i) (a + w))) by lia. cbn [andb]. f_equal. lia.
  - intros i Hi. rewrite (proj2 (Nat.ltb_ge (a + (w + i)) (a + w))) by lia. now rewrite andb_false_r.
  - intros i Hi. now rewrite (proj2 (Nat.leb_gt a i)) by lia.
Qed.

Lemma border_transpose bx by_ d delta dx :
  dot_on (border_dims bx by_ d) delta
    (fun x y m s => if (bx / 2 <=? x) && (x <? bx / 2 + d_width d) && (by_ / 2 <=? y) && (y <? by_ / 2 + d_height d) then dx (x - bx / 2) (y - by_ / 2) m s else 0%R) =
  dot_on d (fun x y m s => delta (x + bx / 2) (y + by_ / 2) m s) dx.
Proof.
  unfold dot_on, Math_Spec.dot, tensor_sum. cbn [d_samples d_width d_height d_maps border_dims nmul R_num]. apply nsum_ext. intros s _. apply nsum_ext. intros m _.
  assert (Hx : bx / 2 + d_width d <= d_width d + bx) by (pose proof (Nat.div_le_upper_bound bx 2 bx); lia).
  assert (Hy : by_ / 2 + d_height d <= d_height d + by_) by (pose proof (Nat.div_le_upper_bound by_ 2 by_); lia).
  rewrite <- (nsum_inner (d_height d) (by_ / 2) (d_height d + by_) _ Hy). apply nsum_ext. intros y _.
  destruct ((by_ / 2 <=? y) && (y <? by_ / 2 + d_height d)) eqn:Ey.
  - rewrite <- (nsum_inner (d_width d) (bx / 2) (d_width d + bx) _ Hx). apply nsum_ext. intros x _. apply andb_true_iff in Ey as [E1 E2]. rewrite E1, E2, !andb_true_r.
    apply Nat.leb_le in E1. destruct (bx / 2 <=? x) eqn:Ex; cbn [andb]; [|ring]. apply Nat.leb_le in Ex. destruct (x <? bx / 2 + d_width d); [|ring].
    f_equal. f_equal; lia.
  - apply (nsum_zero_ext R_num R_ring_laws). intros x _. rewrite <- !andb_assoc, Ey, !andb_false_r. cbn. ring.
Qed.

Lemma prior_transpose d (b : nat -> nat -> nat -> nat -> R) delta dx :
  (forall x y m s, m < 2 -> b x y m s = 0%R) -> (forall x y m s, b x y (m + 2) s = dx x y m s) ->
  dot_on (prior_dims d) delta b = dot_on d (fun x y m s => delta x y (m + 2) s) dx.
Proof.
  intros H0 H1. unfold dot_on, Math_Spec.dot, tensor_sum. cbn [d_samples d_width d_height d_maps prior_dims nmul R_num]. apply nsum_ext. intros s _.
  rewrite (Nat.add_comm (d_maps d) 2), (nsum_app R_num R_ring_laws), (nsum_zero_ext R_num R_ring_laws 2).
  - cbn [nadd n0 R_num]. rewrite Rplus_0_l. apply nsum_ext. intros m _. apply nsum_ext. intros y _. apply nsum_ext. intros x _.
    rewrite (Nat.add_comm 2 m), H1. reflexivity.
  - intros m Hm. apply (nsum_zero_ext R_num R_ring_laws). intros y _. apply (nsum_zero_ext R_num R_ring_laws). intros x _. rewrite H0 by exact Hm. cbn. ring.
Qed.

(** Every output takes one input of the same map and sample. *)
Lemma select_transpose d o (sel : nat -> nat -> nat -> nat -> nat * nat) delta dx : d_maps o = d_maps d -> d_samples o = d_samples d ->
  (forall x y m s, in_range o x y m s -> fst (sel x y m s) < d_width d /\ snd (sel x y m s) < d_height d) ->
  dot_on o delta (fun x y m s => dx (fst (sel x y m s)) (snd (sel x y m s)) m s) =
  dot_on d (fun x y m s => nsum R_num (d_height o) (fun oy => nsum R_num (d_width o) (fun ox => if same_cell (sel ox oy m s) (x, y) then delta ox oy m s else 0%R))) dx.
Proof.
  intros Em Es Hs. unfold dot_on, Math_Spec.dot, tensor_sum. rewrite Em, Es. cbn [nmul R_num]. apply nsum_ext. intros s Ls. apply nsum_ext. intros m Lm. symmetry.
  assert (Hm : forall n f c, (nsum R_num n f * c)%R = nsum R_num n (fun i => f i * c)%R) by (intros; symmetry; apply (nsum_mul_r R_num R_ring_laws)).
  transitivity (nsum R_num (d_height o) (fun oy => nsum R_num (d_width o) (fun ox => nsum R_num (d_height d) (fun y => nsum R_num (d_width d) (fun x =>
    ((if same_cell (sel ox oy m s) (x, y) then delta ox oy m s else 0) * dx x y m s)%R))))).
  - rewrite (nsum_ext R_num (d_height d) _ (fun y => nsum R_num (d_height o) (fun oy => nsum R_num (d_width o) (fun ox => nsum R_num (d_width d) (fun x =>
      ((if same_cell (sel ox oy m s) (x, y) then delta ox oy m s else 0) * dx x y m s)%R))))).
    + rewrite (nsum_swap R_num R_ring_laws). apply nsum_ext. intros oy _. apply (nsum_swap R_num R_ring_laws).
    + intros y _. rewrite (nsum_ext R_num (d_width d) _ (fun x => nsum R_num (d_height o) (fun oy => nsum R_num (d_width o) (fun ox =>
        ((if same_cell (sel ox oy m s) (x, y) then delta ox oy m s else 0) * dx x y m s)%R)))).
      * rewrite (nsum_swap R_num R_ring_laws). apply nsum_ext. intros oy _. apply (nsum_swap R_num R_ring_laws).
      * intros x _. rewrite Hm. apply nsum_ext. intros oy _. apply Hm.
  - apply nsum_ext. intros oy Hoy. apply nsum_ext. intros ox Hox.
    destruct (Hs ox oy m s) as [B1 B2]; [repeat split; lia|]. unfold same_cell. cbn [fst snd].
    rewrite (nsum_single R_num R_ring_laws (d_height d) (snd (sel ox oy m s))); [|exact B2|].
    + rewrite (nsum_single R_num R_ring_laws (d_width d) (fst (sel ox oy m s))); [|exact B1|].
      * now rewrite !Nat.eqb_refl.
      * intros x _ Hx. rewrite (proj2 (Nat.eqb_neq (fst (sel ox oy m s)) x)) by congruence. cbn. ring.
    + intros y _ Hy. apply (nsum_zero_ext R_num R_ring_laws). intros x _.
      rewrite (proj2 (Nat.eqb_neq (snd (sel ox oy m s)) y)), andb_false_r by congruence. cbn. ring.
Qed.

(** ** Maxima *)
Lemma derive_local f g v0 l : (exists r, (0 < r)%R /\ forall v, (Rabs (v - v0) < r)%R -> f v = g v) -> derivable_pt_lim g v0 l -> derivable_pt_lim f v0 l.
Proof.
  intros (r & Hr & E) H eps He. destruct (H eps He) as [del Hd]. assert (Hm : (0 < Rmin r del)%R) by (apply Rmin_pos; [exact Hr|apply cond_pos]).
  exists (mkposreal _ Hm). intros h Hh Hl. cbn in Hl. rewrite !E.
  - apply Hd; [exact Hh|]. eapply Rlt_le_trans; [exact Hl|apply Rmin_r].
  - replace (v0 - v0)%R with 0%R by ring. now rewrite Rabs_R0.
  - replace (v0 + h - v0)%R with h by ring. eapply Rlt_le_trans; [exact Hl|apply Rmin_l].
Qed.

Lemma stays_positive f v0 l : derivable_pt_lim f v0 l -> (0 < f v0)%R -> exists r, (0 < r)%R /\ forall v, (Rabs (v - v0) < r)%R -> (0 < f v)%R.
Proof.
  intros H P. assert (C : continuity_pt f v0) by (apply derivable_continuous_pt; exists l; exact H).
  destruct (C (f v0) P) as (r & Hr & Hc). exists r. split; [exact Hr|]. intros v Hv. destruct (Req_dec v v0) as [->|Hn]; [exact P|].
  assert (D : (Rabs (f v - f v0) < f v0)%R). { apply Hc. split; [|exact Hv]. split; [exact I|congruence]. }
  apply Rabs_def2 in D. lra.
Qed.

Lemma all_stay_positive {A} (f : A -> R -> R) v0 (l : list A) :
  (forall a, In a l -> (exists k, derivable_pt_lim (f a) v0 k) /\ (0 < f a v0)%R) ->
  exists r, (0 < r)%R /\ forall v a, In a l -> (Rabs (v - v0) < r)%R -> (0 < f a v)%R.
Proof.
  induction l as [|a l IH]; intros H.
  - exists 1%R. split; [lra|]. intros v b [].
  - destruct IH as (r & Hr & IH); [intros; apply H; now right|]. destruct (H a (or_introl eq_refl)) as [[k Hk] Hp].
    destruct (stays_positive _ _ _ Hk Hp) as (r' & Hr' & H'). exists (Rmin r r'). split; [now apply Rmin_pos|].
    intros v b [<-|Hb] Hv; [apply H'|apply IH; [exact Hb|]]; (eapply Rlt_le_trans; [exact Hv|]); [apply Rmin_r|apply Rmin_l].
Qed.

(** The running maximum. *)
Definition scan {D} (O : order D) (val : nat * nat -> D) (cells : list (nat * nat)) : D * (nat * nat) :=
  fold_left (fun best c => if o_gt O (val c) (fst best) then (val c, c) else best) cells (o_lowest O, (0, 0)).

Lemma window_max_scan {D} (O : order D) input cells m s (val : nat * nat -> D) :
  (forall c, In c cells -> get input (fst c) (snd c) m s = Ok (val c)) -> window_max O input cells m s = Ok (scan O val cells).
Proof.
  unfold window_max, scan. generalize (o_lowest O, (0, 0)). induction cells as [|c cells IH]; intros b H; [reflexivity|].
  cbn [foldm fold_left]. rewrite H by now left. cbn [bind]. apply IH. intros; apply H; now right.
Qed.

Lemma R_order_laws : order_laws R_order.
Proof.
  split; cbn; intros; repeat match goal with |- context [Rlt_dec ?a ?b] => destruct (Rlt_dec a b) | H : context [Rlt_dec ?a ?b] |- _ => destruct (Rlt_dec a b)
    | |- context [Rle_dec ?a ?b] => destruct (Rle_dec a b) end; try reflexivity; try discriminate; exfalso; lra.
Qed.

Definition clearest (cells : list (nat * nat)) (val : nat * nat -> R) (p : nat * nat) : Prop :=
  In p cells /\ (R_lowest < val p)%R /\ forall q, In q cells -> q <> p -> (val q < val p)%R.

Lemma first_max_clearest cells val p q : first_max R_order cells val p -> clearest cells val q -> p = q.
Proof.
  intros (b & a & E & _ & Hm & _) (Hq & _ & Hc). assert (Hp : In p cells) by (rewrite E; apply in_app_iff; right; now left).
  destruct (Nat.eq_dec (fst p) (fst q)) as [E1|]; [destruct (Nat.eq_dec (snd p) (snd q)) as [E2|]|].
  - destruct p, q. cbn in *. congruence.
  - exfalso. specialize (Hc p Hp ltac:(congruence)). specialize (Hm q Hq). cbn in Hm. destruct (Rlt_dec (val p) (val q)); [discriminate|lra].
  - exfalso. specialize (Hc p Hp ltac:(congruence)). specialize (Hm q Hq). cbn in Hm. destruct (Rlt_dec (val p) (val q)); [discriminate|lra].
Qed.

Lemma scan_clearest cells val p : clearest cells val p -> scan R_order val cells = (val p, p).
Proof.
  intros H.
  assert (Hs : forall cs, (exists b, scan R_order val cs = b /\ (b = (R_lowest, (0, 0)) /\ (forall c, In c cs -> (val c <= R_lowest)%R) \/
    exists c, In c cs /\ b = (val c, c) /\ forall q, In q cs -> (val q <= val c)%R))).
  { clear H. intros cs. induction cs as [|c cs IH] using rev_ind.
    - eexists. split; [reflexivity|]. left. split; [reflexivity|]. intros c [].
    - destruct IH as (b & E & IH). unfold scan in *. rewrite fold_left_app, E. cbn [fold_left]. eexists. split; [reflexivity|].
      destruct IH as [[-> IH]|(q & Hq & -> & IH)]; cbn [fst R_order o_gt].
      + destruct (Rlt_dec R_lowest (val c)) as [L|L].
        * right. exists c. split; [apply in_app_iff; right; now left|]. split; [reflexivity|]. intros r Hr. apply in_app_iff in Hr as [Hr|[<-|[]]]; [specialize (IH r Hr)|]; lra.
        * left. split; [reflexivity|]. intros r Hr. apply in_app_iff in Hr as [Hr|[<-|[]]]; [auto|lra].
      + right. destruct (Rlt_dec (val q) (val c)) as [L|L].
        * exists c. split; [apply in_app_iff; right; now left|]. split; [reflexivity|]. intros r Hr. apply in_app_iff in Hr as [Hr|[<-|[]]]; [specialize (IH r Hr)|]; lra.
        * exists q. split; [apply in_app_iff; now left|]. split; [reflexivity|]. intros r Hr. apply in_app_iff in Hr as [Hr|[<-|[]]]; [auto|lra]. }
  destruct (Hs cells) as (b & -> & [[_ Hl]|(c & Hc & -> & Hm)]); destruct H as (Hp & Hlow & Hu).
  - specialize (Hl p Hp). lra.
  - assert (E : c = p); [|now subst]. destruct c as [cx cy], p as [px py].
    destruct (Nat.eq_dec cx px) as [->|N1]; [destruct (Nat.eq_dec cy py) as [->|N2]; [reflexivity|]|]; exfalso;
      (specialize (Hu _ Hc ltac:(congruence)); specialize (Hm _ Hp); lra).
Qed.

Lemma scan_derive (val : R -> nat * nat -> R) (dval : nat * nat -> R) v0 cells p :
  (forall c, In c cells -> derivable_pt_lim (fun v => val v c) v0 (dval c)) -> clearest cells (val v0) p ->
  derivable_pt_lim (fun v => fst (scan R_order (val v) cells)) v0 (dval p).
Proof.
  intros Hd Hc. pose proof Hc as (Hp & Hl & Hu).
  apply (derive_local _ (fun v => val v p)); [|now apply Hd].
  destruct (all_stay_positive (fun q v => if same_cell q p then 1 else val v p - val v q)%R v0 cells) as (r & Hr & Hpos).
  { intros q Hq. destruct (same_cell q p) eqn:Eq.
    - split; [exists 0%R; exact (derive_const 1 v0)|lra].
    - split; [exists (dval p - dval q)%R; apply (derivable_pt_lim_minus (fun v => val v p) (fun v => val v q)); now apply Hd|].
      assert (q <> p) by (intros ->; unfold same_cell in Eq; rewrite !Nat.eqb_refl in Eq; discriminate). specialize (Hu q Hq H). lra. }
  destruct (stays_positive (fun v => val v p - R_lowest)%R v0 (dval p - 0)%R) as (r' & Hr' & Hlow).
  { apply (derivable_pt_lim_minus (fun v => val v p) (fun _ => R_lowest)); [now apply Hd|exact (derive_const R_lowest v0)]. }
  { lra. }
  exists (Rmin r r'). split; [now apply Rmin_pos|]. intros v Hv. rewrite (scan_clearest cells (val v) p); [reflexivity|].
  split; [exact Hp|]. split.
  - specialize (Hlow v). assert (Rabs (v - v0) < r')%R by (eapply Rlt_le_trans; [exact Hv|apply Rmin_r]). specialize (Hlow H). lra.
  - intros q Hq Hn. specialize (Hpos v q Hq). assert (Rabs (v - v0) < r)%R by (eapply Rlt_le_trans; [exact Hv|apply Rmin_l]). specialize (Hpos H).
    destruct (same_cell q p) eqn:Eq; [|lra]. exfalso. apply Hn. apply andb_true_iff in Eq as [E1 E2]. apply Nat.eqb_eq in E1, E2. destruct q, p. cbn in *. congruence.
Qed.

(** Pooling any image. *)
Lemma pool_ff_scan {D} (O : order D) rw rh w h mm ss (input output : tensor D) (mix miy : tensor f32) img : 0 < rw -> 0 < rh ->
  wf input -> has_shape input ss (w * rw) (h * rh) mm -> contents input img ->
  wf mix -> has_shape mix ss w h mm -> wf miy -> has_shape miy ss w h mm -> wf output -> has_shape output ss w h mm ->
  exists mix' miy' output', pool_ff O rw rh input mix miy output = Ok (mix', miy', output') /\ wf output' /\ same_shape output' output /\
    contents output' (fun ox oy m s => fst (scan O (fun c => img (fst c) (snd c) m s) (columns (ox * rw) (oy * rh) rw rh))).
Proof.
  intros Hrw Hrh Wi (I1 & I2 & I3 & I4) Ci W1 S1 W2 S2 W3 S3. unfold pool_ff. pose proof S3 as (O1 & O2 & O3 & O4). rewrite I1, I4, O2, O3.
  assert (Hfill : forall E (t : tensor E) (what : D * (nat * nat) -> E), wf t -> has_shape t ss w h mm ->
    exists t', run_stores t (for_ ss (fun sample => pool_ff_sample O rw rh mm w h input t what sample)) = Ok t' /\ wf t' /\ same_shape t' t /\
      contents t' (fun ox oy m s => what (scan O (fun c => img (fst c) (snd c) m s) (columns (ox * rw) (oy * rh) rw rh)))).
  { intros E t what Wt St. unfold pool_ff_sample.
    apply (pool_fill t ss mm w h (fun ox oy m s => best <- window_max O input (region_cells rw rh ox oy) m s ;; Ok (what best))); auto.
    intros ox oy m s H1 H2 H3 H4. rewrite region_cells_columns, (window_max_scan O input _ m s (fun c => img (fst c) (snd c) m s)); [reflexivity|].
    intros c Hc. apply in_columns in Hc as [B1 B2]. apply (contents_get _ _ _ _ _ _ Ci). unfold valid_pos. rewrite I1, I2, I3, I4.
    assert ((ox + 1) * rw <= w * rw) by (apply Nat.mul_le_mono_r; lia). assert ((oy + 1) * rh <= h * rh) by (apply Nat.mul_le_mono_r; lia). repeat split; lia. }
  destruct (Hfill _ mix (fun best => uint_to_f (fst (snd best))) W1 S1) as (mix' & -> & _). cbn [bind].
  destruct (Hfill _ miy (fun best => uint_to_f (snd (snd best))) W2 S2) as (miy' & -> & _). cbn [bind].
  destruct (Hfill _ output (fun best => fst best) W3 S3) as (output' & -> & C1 & C2 & C3). cbn [bind]. exists mix', miy', output'. auto.
Qed.

Lemma apool_ff_scan {D} (O : order D) rw rh sw sh w h mm ss (input output : tensor D) (mask : tensor f32) img : 0 < sw -> 0 < sh ->
  let ow := positions w rw sw in let oh := positions h rh sh in
  wf input -> has_shape input ss w h mm -> contents input img ->
  wf mask -> has_shape mask ss ow oh mm -> wf output -> has_shape output ss ow oh mm ->
  exists mask' output', apool_ff O rw rh sw sh input mask output = Ok (mask', output') /\ wf output' /\ same_shape output' output /\
    contents output' (fun ox oy m s => fst (scan O (fun c => img (fst c) (snd c) m s) (rows (ox * sw) (oy * sh) rw rh))).
Proof.
  intros Hsw Hsh ow oh Wi (I1 & I2 & I3 & I4) Ci W1 S1 W3 S3. unfold apool_ff. pose proof S3 as (O1 & O2 & O3 & O4). rewrite I1, I2, I4, O2, O3.
  assert (Hfill : forall E (t : tensor E) (what : D * (nat * nat) -> E), wf t -> has_shape t ss ow oh mm ->
    exists t', run_stores t (for_ ss (fun sample => apool_ff_sample O rw rh sw sh mm ow oh input t what sample)) = Ok t' /\ wf t' /\ same_shape t' t /\
      contents t' (fun ox oy m s => what (scan O (fun c => img (fst c) (snd c) m s) (rows (ox * sw) (oy * sh) rw rh)))).
  { intros E t what Wt St. unfold apool_ff_sample.
    apply (pool_fill t ss mm ow oh (fun ox oy m s => best <- window_max O input (window_cells rw rh sw sh ox oy) m s ;; Ok (what best))); auto.
    intros ox oy m s H1 H2 H3 H4. rewrite window_cells_rows, (window_max_scan O input _ m s (fun c => img (fst c) (snd c) m s)); [reflexivity|].
    intros c Hc. apply in_rows in Hc as [B1 B2]. apply (contents_get _ _ _ _ _ _ Ci). unfold valid_pos. rewrite I1, I2, I3, I4.
    apply (positions_fit _ _ _ _ Hsw) in H1. apply (positions_fit _ _ _ _ Hsh) in H2. repeat split; lia. }
  destruct (Hfill _ mask (fun best => uint_to_f (w * snd (snd best) + fst (snd best))) W1 S1) as (mask' & -> & _). cbn [bind].
  destruct (Hfill _ output (fun best => fst best) W3 S3) as (output' & -> & C1 & C2 & C3). cbn [bind]. exists mask', output'. auto.
Qed.

(** The gradients added in the order of the outputs. *)
Lemma fold_rows ow oh (P : nat * nat -> bool) (val : nat * nat -> R) :
  fold_left Rplus (map val (filter P (rows 0 0 ow oh))) 0%R =
  nsum R_num oh (fun oy => nsum R_num ow (fun ox => if P (ox, oy) then val (ox, oy) else 0%R)).
Proof.
  assert (Hf : forall l a, fold_left Rplus l a = (a + fold_left Rplus l 0)%R).
  { induction l as [|b l IH]; intros a; cbn [fold_left]; [ring|]. rewrite IH, (IH (0 + b)%R). ring. }
  unfold rows. cbn [Nat.add].
  assert (Hx : forall oy n, fold_left Rplus (map val (filter P (map (fun i => (i, oy)) (seq 0 n)))) 0%R = nsum R_num n (fun ox => if P (ox, oy) then val (ox, oy) else 0%R)).
  { intros oy n. induction n as [|n IH]; [reflexivity|]. rewrite seq_S, map_app, filter_app, map_app, fold_left_app. cbn [map filter Nat.add].
    rewrite Hf. rewrite IH. rewrite <- (Nat.add_1_r n), (nsum_app R_num R_ring_laws). cbn [nsum nadd n0 R_num Nat.add]. rewrite Nat.add_0_r.
    destruct (P (n, oy)); cbn; ring. }
  induction oh as [|oh IH]; [reflexivity|]. rewrite seq_S, flat_map_app, filter_app, map_app, fold_left_app. cbn [flat_map Nat.add].
  rewrite Hf, IH, app_nil_r, Hx. rewrite <- (Nat.add_1_r oh), (nsum_app R_num R_ring_laws). cbn [nsum nadd n0 R_num Nat.add]. rewrite Nat.add_0_r. ring.
Qed.

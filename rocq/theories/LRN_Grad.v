(** The backward pass of local response normalization is the derivative of its forward pass. *)
From Coq Require Import Reals Lra.
From Verif Require Import Base BaseFacts LoopFacts Tensor_Model Tensor_Spec Tensor_Proofs Num RealNum Math_Model Math_Spec Math_Proofs
  Conv_Proofs Layers_Proofs LRN_Model LRN_Spec LRN_Proofs.

Definition cell_eqb (p q : nat * nat * nat) : bool :=
  (fst (fst p) =? fst (fst q)) && (snd (fst p) =? snd (fst q)) && (snd p =? snd q).
Lemma cell_eqb_eq p q : cell_eqb p q = true <-> p = q.
Proof.
  destruct p as [[a b] c], q as [[d e] f]. unfold cell_eqb. cbn [fst snd]. rewrite !andb_true_iff, !Nat.eqb_eq.
  split; [intros ((-> & ->) & ->); reflexivity|intros [= -> -> ->]; auto].
Qed.
Lemma cell_eqb_spec p q : reflect (p = q) (cell_eqb p q).
Proof. destruct (cell_eqb p q) eqn:E; constructor; [now apply cell_eqb_eq|]. intros H. apply cell_eqb_eq in H. congruence. Qed.
Definition member (p : nat * nat * nat) (l : list (nat * nat * nat)) : bool := existsb (cell_eqb p) l.
Lemma member_in p l : member p l = true <-> In p l.
Proof.
  unfold member. rewrite existsb_exists. split; [intros (q & Hq & E); apply cell_eqb_eq in E; now subst|intros H; exists p; split; [exact H|now apply cell_eqb_eq]].
Qed.

(** Stores to the cells of a list without repetition. *)
Lemma vals_at_cells {D} (addr : nat * nat * nat -> nat) (val : nat * nat * nat -> D) (vr : nat * nat * nat -> res D) l j :
  NoDup l -> (forall p, In p l -> vr p = Ok (val p)) -> (forall p, In p l -> addr p = addr j -> p = j) ->
  vals_at (addr j) (map (fun p => (addr p, vr p)) l) = if member j l then [val j] else [].
Proof.
  induction l as [|p l IH]; intros Hn Hv Hi; [reflexivity|]. inversion Hn; subst. cbn [map].
  change ((addr p, vr p) :: map (fun p0 => (addr p0, vr p0)) l) with ([(addr p, vr p)] ++ map (fun p0 => (addr p0, vr p0)) l).
  rewrite vals_at_app, IH; auto; [|intros q Hq; apply Hv; now right|intros q Hq; apply Hi; now right].
  rewrite (Hv p (or_introl eq_refl)), vals_at_one. unfold member. cbn [existsb]. fold (member j l).
  rewrite (Nat.eqb_sym (addr p) (addr j)). destruct (Nat.eqb_spec (addr j) (addr p)) as [E|E].
  - assert (p = j) by (apply Hi; [now left|auto]). subst p. rewrite (proj2 (cell_eqb_eq j j) eq_refl). cbn [orb].
    destruct (member j l) eqn:M; [apply member_in in M; contradiction|reflexivity].
  - destruct (cell_eqb_spec j p) as [->|]; [contradiction|]. reflexivity.
Qed.

Section Ring.
Context {D : Type}.
Variable K : num D.
Hypothesis HK : ring_laws K.
Variables (scale : nat -> D) (power power1 : D -> D) (ndiv : D -> D -> D) (two beta : D).

(** What the element at (x, y, m) passes to its neighbour. *)
Definition passed (method : lrn_method) (size n mm : nat) (f dl : nat -> nat -> nat -> nat -> D) (s x y m : nat) (j : nat * nat * nat) : D :=
  let region := lrn_region method size n n mm x y m in
  let z := lrn_base K scale (length region) (squares K (map (fun p => f (fst (fst p)) (snd (fst p)) (snd p) s) region)) in
  nadd K
    (if member j region then
       nopp K (ndiv (nmul K (nmul K (nmul K (nmul K (nmul K (nmul K (dl x y m s) (f x y m s)) two) beta) (scale (length region)))
                                   (f (fst (fst j)) (snd (fst j)) (snd j) s)) (power1 z)) (nmul K (power z) (power z)))
     else n0 K)
    (if cell_eqb (x, y, m) j then ndiv (dl x y m s) (power z) else n0 K).

Lemma lrn_bp_spec method size (input sums output_delta input_delta : tensor D) f dl n mm ss : 0 < size ->
  wf input -> wf sums -> wf output_delta -> wf input_delta ->
  has_shape input ss n n mm -> same_shape sums input -> same_shape output_delta input -> same_shape input_delta input ->
  contents input f -> contents output_delta dl ->
  contents sums (fun x y m s => squares K (map (fun p => f (fst (fst p)) (snd (fst p)) (snd p) s) (lrn_region method size n n mm x y m))) ->
  exists t', lrn_bp K scale power power1 ndiv two beta method size input sums output_delta input_delta = Ok t' /\ wf t' /\ same_shape t' input_delta /\
    contents t' (fun jx jy jm s =>
      nsum K mm (fun m => nsum K n (fun y => nsum K n (fun x => passed method size n mm f dl s x y m (jx, jy, jm))))).
Proof.
  intros Hsz Wi Ws Wo Wd (I1 & I2 & I3 & I4) (S1 & S2 & S3 & S4) (O1 & O2 & O3 & O4) Sd Ci Co Cs. unfold lrn_bp.
  destruct (clear_all_spec input_delta (n0 K) Wd) as (c & Ec & Wc & Sc & Ac). rewrite Ec. cbn [bind].
  assert (Sci : same_shape c input) by (eapply same_shape_trans; eauto). pose proof Sci as (C1 & C2 & C3 & C4).
  assert (HE : forall s x y m, s < ss -> x < n -> y < n -> m < mm ->
    lrn_bp_element K scale power power1 ndiv two beta method size input sums output_delta c s x y m =
    let region := lrn_region method size n n mm x y m in
    let z := lrn_base K scale (length region) (squares K (map (fun p => f (fst (fst p)) (snd (fst p)) (snd p) s) region)) in
    map (fun p => (offset c (fst (fst p)) (snd (fst p)) (snd p) s,
           xj <- get input (fst (fst p)) (snd (fst p)) (snd p) s ;;
           Ok (nopp K (ndiv (nmul K (nmul K (nmul K (nmul K (nmul K (nmul K (dl x y m s) (f x y m s)) two) beta) (scale (length region)))
                                   xj) (power1 z)) (nmul K (power z) (power z)))))) region ++
    [(offset c x y m s, Ok (ndiv (dl x y m s) (power z)))]).
  { intros s x y m Hs Hx Hy Hm. unfold lrn_bp_element. rewrite I2, I3, I4.
    rewrite (contents_get _ _ _ _ _ _ Cs), (contents_get _ _ _ _ _ _ Ci), (contents_get _ _ _ _ _ _ Co) by (repeat split; lia). cbn [bind]. cbv zeta.
    f_equal. apply map_ext. intros [[a b] e]. reflexivity. }
  assert (HV : forall s x y m p, s < ss -> x < n -> y < n -> m < mm -> In p (lrn_region method size n n mm x y m) ->
            valid_pos input (fst (fst p)) (snd (fst p)) (snd p) s).
  { intros s x y m p Hs Hx Hy Hm Hp. apply (lrn_region_valid method size input x y m s p); auto; try lia. now rewrite I2, I3, I4. }
  destruct (run_with_pos (nadd K) c (for_ (samples input) (lrn_bp_sample K scale power power1 ndiv two beta method size input sums output_delta c))
    (fun jx jy jm s => for_ mm (fun m => for_ n (fun y => for_ n (fun x =>
        vals_at (offset c jx jy jm s) (lrn_bp_element K scale power power1 ndiv two beta method size input sums output_delta c s x y m))))) Wc)
    as (t' & E & W & S & A).
  - intros a rv Hin. apply in_for in Hin as (s & Hs & Hin). apply in_for in Hin as (m & Hm & Hin).
    apply in_for in Hin as (y & Hy & Hin). apply in_for in Hin as (x & Hx & Hin). rewrite HE in Hin by lia. cbv zeta in Hin.
    apply in_app_or in Hin as [Hin|[[= <- <-]|[]]].
    + apply in_map_iff in Hin as (p & [= <- <-] & Hp). assert (V : valid_pos input (fst (fst p)) (snd (fst p)) (snd p) s) by (apply (HV s x y m); auto; lia).
      rewrite (contents_get _ _ _ _ _ _ Ci V). cbn [bind]. split; [|eauto]. rewrite (proj1 Wc). apply offset_lt. now apply (same_shape_valid _ _ _ _ _ _ Sci).
    + split; [|eauto]. rewrite (proj1 Wc). apply offset_lt. repeat split; lia.
  - intros jx jy jm s Hv. rewrite vals_at_for. destruct Hv as (Hx & Hy & Hm & Hs). rewrite (for_single _ _ s); [|lia|].
    + unfold lrn_bp_sample, lrn_loop. rewrite vals_at_for, I4. apply for_ext. intros m Hm'. rewrite vals_at_for, I3. apply for_ext. intros y Hy'.
      rewrite vals_at_for. reflexivity.
    + intros s' Hs' Hne. apply vals_at_none. intros v Hin. apply in_for in Hin as (m & Hm' & Hin).
      apply in_for in Hin as (y & Hy' & Hin). apply in_for in Hin as (x & Hx' & Hin). rewrite HE in Hin by lia. cbv zeta in Hin.
      apply in_app_or in Hin as [Hin|[E|[]]].
      * apply in_map_iff in Hin as (p & E & Hp). assert (V : valid_pos input (fst (fst p)) (snd (fst p)) (snd p) s') by (apply (HV s' x y m); auto; lia).
        injection E as E _. apply offset_inj in E as (_ & _ & _ & E); [congruence| |repeat split; lia]. now apply (same_shape_valid _ _ _ _ _ _ Sci).
      * injection E as E _. apply offset_inj in E as (_ & _ & _ & E); [congruence| |]; repeat split; lia.
  - exists t'. split; [exact E|]. split; [exact W|]. split; [eapply same_shape_trans; eauto|]. intros jx jy jm s Hv.
    apply (same_shape_valid _ _ _ _ _ _ S) in Hv. rewrite (A jx jy jm s Hv), Ac by now apply (same_shape_valid _ _ _ _ _ _ Sc).
    cbn [option_map]. f_equal. rewrite (fold_nadd K HK). destruct (rl_ring K HK) as [R1 _ _ _ _ _ _ _ _]. rewrite R1.
    destruct Hv as (Hx & Hy & Hm & Hs).
    rewrite (lsum_for K HK). apply nsum_ext. intros m Hm'. rewrite (lsum_for K HK). apply nsum_ext. intros y Hy'.
    rewrite (lsum_for K HK). apply nsum_ext. intros x Hx'. rewrite HE by lia. cbv zeta. rewrite vals_at_app, (lsum_app K HK). unfold passed. f_equal.
    + rewrite (vals_at_cells (fun p => offset c (fst (fst p)) (snd (fst p)) (snd p) s)
        (fun p => nopp K (ndiv (nmul K (nmul K (nmul K (nmul K (nmul K (nmul K (dl x y m s) (f x y m s)) two) beta) (scale (length (lrn_region method size n n mm x y m))))
                                   (f (fst (fst p)) (snd (fst p)) (snd p) s)) (power1 (lrn_base K scale (length (lrn_region method size n n mm x y m)) (squares K (map (fun p => f (fst (fst p)) (snd (fst p)) (snd p) s) (lrn_region method size n n mm x y m))))))
              (nmul K (power (lrn_base K scale (length (lrn_region method size n n mm x y m)) (squares K (map (fun p => f (fst (fst p)) (snd (fst p)) (snd p) s) (lrn_region method size n n mm x y m)))))
                      (power (lrn_base K scale (length (lrn_region method size n n mm x y m)) (squares K (map (fun p => f (fst (fst p)) (snd (fst p)) (snd p) s) (lrn_region method size n n mm x y m))))))))
        _ _ (jx, jy, jm)).
      * destruct (member (jx, jy, jm) (lrn_region method size n n mm x y m)); [apply (lsum_one K HK)|reflexivity].
      * apply region_nodup.
      * intros p Hp. rewrite (contents_get _ _ _ _ _ _ Ci) by (apply (HV s x y m); auto; lia). reflexivity.
      * intros p Hp Ho. cbn [fst snd] in Ho. apply offset_inj in Ho as (E1 & E2 & E3 & _); [|apply (same_shape_valid _ _ _ _ _ _ Sci); apply (HV s x y m); auto; lia|repeat split; lia].
        destruct p as [[a b] e]. cbn [fst snd] in *. congruence.
    + rewrite vals_at_one. destruct (cell_eqb_spec (x, y, m) (jx, jy, jm)) as [E1|E1].
      * injection E1 as -> -> ->. rewrite Nat.eqb_refl. apply (lsum_one K HK).
      * destruct (Nat.eqb_spec (offset c x y m s) (offset c jx jy jm s)) as [E2|E2]; [|reflexivity].
        apply offset_inj in E2 as (-> & -> & -> & _); [contradiction| |]; repeat split; lia.
Qed.
End Ring.

(** * Reals *)

(** The image with one element replaced. *)
Definition set_elt {D} (f : nat -> nat -> nat -> nat -> D) (jx jy jm js : nat) (v : D) : nat -> nat -> nat -> nat -> D :=
  fun x y m s => if (x =? jx) && (y =? jy) && (m =? jm) && (s =? js) then v else f x y m s.

Section Derivative.
Open Scope R_scope.
Variables alpha beta : R.
Hypothesis Ha : 0 <= alpha.
Let scale (n : nat) : R := alpha / INR n.
Let power (z : R) : R := Rpower z beta.
Let power1 (z : R) : R := Rpower z (beta - 1).

Lemma set_elt_same {D} (f : nat -> nat -> nat -> nat -> D) jx jy jm js x y m s : set_elt f jx jy jm js (f jx jy jm js) x y m s = f x y m s.
Proof.
  unfold set_elt. destruct (Nat.eqb_spec x jx) as [->|]; [|reflexivity]. destruct (Nat.eqb_spec y jy) as [->|]; [|reflexivity].
  destruct (Nat.eqb_spec m jm) as [->|]; [|reflexivity]. destruct (Nat.eqb_spec s js) as [->|]; reflexivity.
Qed.

Definition of_cell {D} (g : nat -> nat -> nat -> nat -> D) (s : nat) (p : nat * nat * nat) : D := g (fst (fst p)) (snd (fst p)) (snd p) s.

Lemma derive_cell (f : nat -> nat -> nat -> nat -> R) jx jy jm s p :
  derivable_pt_lim (fun v => of_cell (set_elt f jx jy jm s v) s p) (f jx jy jm s) (if cell_eqb p (jx, jy, jm) then 1 else 0).
Proof.
  unfold of_cell, set_elt, cell_eqb. cbn [fst snd]. rewrite Nat.eqb_refl.
  destruct ((fst (fst p) =? jx)%nat && (snd (fst p) =? jy)%nat && (snd p =? jm)%nat); cbn [andb].
  - apply derivable_pt_lim_id.
  - apply derive_const.
Qed.

Lemma derive_squares (f : nat -> nat -> nat -> nat -> R) jx jy jm s region : NoDup region ->
  derivable_pt_lim (fun v => squares R_num (map (of_cell (set_elt f jx jy jm s v) s) region)) (f jx jy jm s)
    (if member (jx, jy, jm) region then 2 * f jx jy jm s else 0).
Proof.
  unfold squares. intros Hn.
  assert (H : forall (acc : R -> R) a', derivable_pt_lim acc (f jx jy jm s) a' ->
    derivable_pt_lim (fun v => fold_left (fun a e => nadd R_num a (nmul R_num e e)) (map (of_cell (set_elt f jx jy jm s v) s) region) (acc v)) (f jx jy jm s)
      (a' + if member (jx, jy, jm) region then 2 * f jx jy jm s else 0)).
  { induction region as [|p l IH]; intros acc a' Hacc; cbn [map fold_left].
    - cbn. rewrite Rplus_0_r. exact Hacc.
    - inversion Hn; subst. cbn [member existsb]. unfold member. cbn [existsb]. fold (member (jx, jy, jm) l).
      replace (a' + (if cell_eqb (jx, jy, jm) p || member (jx, jy, jm) l then 2 * f jx jy jm s else 0))
        with ((a' + (if cell_eqb p (jx, jy, jm) then 2 * f jx jy jm s else 0)) + (if member (jx, jy, jm) l then 2 * f jx jy jm s else 0)).
      + apply (IH H2 (fun v => nadd R_num (acc v) (nmul R_num (of_cell (set_elt f jx jy jm s v) s p) (of_cell (set_elt f jx jy jm s v) s p)))).
        cbn [nadd nmul R_num]. apply derivable_pt_lim_plus with (f1 := acc); [exact Hacc|].
        pose proof (derivable_pt_lim_mult _ _ _ _ _ (derive_cell f jx jy jm s p) (derive_cell f jx jy jm s p)) as Hm. unfold mult_fct in Hm.
        replace (if cell_eqb p (jx, jy, jm) then 2 * f jx jy jm s else 0) with
          ((if cell_eqb p (jx, jy, jm) then 1 else 0) * of_cell (set_elt f jx jy jm s (f jx jy jm s)) s p +
           of_cell (set_elt f jx jy jm s (f jx jy jm s)) s p * (if cell_eqb p (jx, jy, jm) then 1 else 0)); [exact Hm|].
        unfold of_cell. rewrite set_elt_same. destruct (cell_eqb_spec p (jx, jy, jm)) as [->|]; cbn [fst snd]; ring.
      + destruct (cell_eqb_spec p (jx, jy, jm)) as [->|Hne].
        * rewrite (proj2 (cell_eqb_eq _ _) eq_refl). cbn [orb]. destruct (member (jx, jy, jm) l) eqn:M; [apply member_in in M; contradiction|ring].
        * destruct (cell_eqb_spec (jx, jy, jm) p) as [E|_]; [now subst|]. cbn [orb]. ring. }
  pose proof (H (fun _ => n0 R_num) 0 (derive_const _ _)) as G. rewrite Rplus_0_l in G. exact G.
Qed.

Lemma squares_pos l : 0 <= squares R_num l.
Proof.
  unfold squares. assert (H : forall a, 0 <= a -> 0 <= fold_left (fun acc v => nadd R_num acc (nmul R_num v v)) l a).
  { induction l as [|v l IH]; intros a H; cbn [fold_left]; [exact H|]. apply IH. cbn. pose proof (Rle_0_sqr v). unfold Rsqr in *. lra. }
  apply H. cbn. lra.
Qed.

Lemma scale_pos n : 0 <= scale n.
Proof.
  unfold scale, Rdiv. destruct n as [|n]; [cbn; rewrite Rinv_0; lra|].
  apply Rmult_le_pos; [exact Ha|]. left. apply Rinv_0_lt_compat, lt_0_INR. lia.
Qed.

Lemma base_pos n q : 0 <= q -> 0 < lrn_base R_num scale n q.
Proof. intros Hq. unfold lrn_base. cbn. pose proof (Rmult_le_pos _ _ (scale_pos n) Hq). lra. Qed.

(** One output as a function of one input of its sample. *)
Lemma derive_normalized (f : nat -> nat -> nat -> nat -> R) region jx jy jm x y m s : NoDup region ->
  let z := lrn_base R_num scale (length region) (squares R_num (map (of_cell f s) region)) in
  derivable_pt_lim (fun v => normalized R_num scale power Rdiv (set_elt f jx jy jm s v) region x y m s) (f jx jy jm s)
    ((if member (jx, jy, jm) region then - (f x y m s * 2 * beta * scale (length region) * f jx jy jm s * power1 z / (power z * power z)) else 0)
     + (if cell_eqb (x, y, m) (jx, jy, jm) then 1 / power z else 0)).
Proof.
  intros Hn z. unfold normalized.
  set (q := fun v => squares R_num (map (of_cell (set_elt f jx jy jm s v) s) region)).
  set (q' := if member (jx, jy, jm) region then 2 * f jx jy jm s else 0).
  assert (Hq : derivable_pt_lim q (f jx jy jm s) q') by (now apply derive_squares).
  assert (Hqs : q (f jx jy jm s) = squares R_num (map (of_cell f s) region)).
  { unfold q. f_equal. apply map_ext. intros p. unfold of_cell. apply set_elt_same. }
  set (c := scale (length region)) in *.
  assert (Hb : derivable_pt_lim (fun v => 1 + c * q v) (f jx jy jm s) (c * q')).
  { replace (c * q') with (0 + c * q') by ring. apply derivable_pt_lim_plus with (f1 := fun _ => 1); [apply derive_const|].
    apply (derivable_pt_lim_scal q c _ _ Hq). }
  assert (Hz : 1 + c * q (f jx jy jm s) = z) by (rewrite Hqs; reflexivity).
  assert (Hzp : 0 < z) by (apply base_pos, squares_pos).
  assert (Hp : derivable_pt_lim (fun v => power (1 + c * q v)) (f jx jy jm s) ((beta * power1 z) * (c * q'))).
  { apply (derivable_pt_lim_comp (fun v => 1 + c * q v) power); [exact Hb|]. cbv beta. rewrite Hz. unfold power, power1. now apply derivable_pt_lim_power. }
  assert (Hpp : power z <> 0) by (unfold power, Rpower; apply Rgt_not_eq, exp_pos).
  pose proof (derive_cell f jx jy jm s (x, y, m)) as Hx. unfold of_cell in Hx at 1. cbn [fst snd] in Hx.
  pose proof (derivable_pt_lim_div _ _ _ _ _ Hx Hp) as Hd. unfold div_fct in Hd. cbv beta in Hd. rewrite Hz, set_elt_same in Hd. specialize (Hd Hpp).
  match goal with |- derivable_pt_lim _ _ ?t => replace t with
    (((if cell_eqb (x, y, m) (jx, jy, jm) then 1 else 0) * power z - beta * power1 z * (c * q') * f x y m s) / (power z)²) end.
  - exact Hd.
  - unfold q', Rsqr. destruct (member (jx, jy, jm) region), (cell_eqb (x, y, m) (jx, jy, jm)); field; exact Hpp.
Qed.

(** An output of another sample does not change. *)
Lemma derive_normalized_other (f : nat -> nat -> nat -> nat -> R) region jx jy jm x y m s js : s <> js ->
  derivable_pt_lim (fun v => normalized R_num scale power Rdiv (set_elt f jx jy jm js v) region x y m s) (f jx jy jm js) 0.
Proof.
  intros Hne. apply derive_ext with (f := fun _ => normalized R_num scale power Rdiv f region x y m s); [|apply derive_const].
  assert (E : forall v a b c, set_elt f jx jy jm js v a b c s = f a b c s).
  { intros v a b c. unfold set_elt. rewrite (proj2 (Nat.eqb_neq s js) Hne), andb_false_r. reflexivity. }
  intros v. unfold normalized. rewrite E.
  rewrite (map_ext (fun p => set_elt f jx jy jm js v (fst (fst p)) (snd (fst p)) (snd p) s) (fun p => f (fst (fst p)) (snd (fst p)) (snd p) s)); [reflexivity|].
  intros p. apply E.
Qed.

Lemma lrn_gradient method size (input sums output output_delta input_delta : tensor R) f dl n mm ss : (0 < size)%nat ->
  wf input -> wf sums -> wf output -> wf output_delta -> wf input_delta ->
  has_shape input ss n n mm -> same_shape sums input -> same_shape output input -> same_shape output_delta input -> same_shape input_delta input ->
  contents input f -> contents output_delta dl ->
  exists sums' output' input',
    lrn_ff R_num scale power Rdiv method size input sums output = Ok (sums', output') /\
    lrn_bp R_num scale power power1 Rdiv 2 beta method size input sums' output_delta input_delta = Ok input' /\
    same_shape output' output /\
    contents output' (fun x y m s => normalized R_num scale power Rdiv f (lrn_region method size n n mm x y m) x y m s) /\
    same_shape input' input_delta /\
    exists grad, contents input' grad /\ forall jx jy jm js, valid_pos input jx jy jm js ->
      derivable_pt_lim (fun v => tensor_sum R_num ss n n mm (fun x y m s =>
        dl x y m s * normalized R_num scale power Rdiv (set_elt f jx jy jm js v) (lrn_region method size n n mm x y m) x y m s))
        (f jx jy jm js) (grad jx jy jm js).
Proof.
  intros Hsz Wi Ws Wo Wod Wid Hi Ss So Sod Sid Ci Co. pose proof Hi as (I1 & I2 & I3 & I4).
  destruct (lrn_ff_spec R_num scale power Rdiv method size input sums output f Hsz Wi Ws Wo Ss So Ci) as (sums' & output' & E & W1 & S1 & W2 & S2 & A1 & _); [lia|].
  assert (Cs : contents sums' (fun x y m s => squares R_num (map (fun p => f (fst (fst p)) (snd (fst p)) (snd p) s) (lrn_region method size n n mm x y m)))).
  { intros x y m s Hv. assert (V : valid_pos input x y m s) by (apply (same_shape_valid _ _ _ _ _ _ (same_shape_trans _ _ _ S1 Ss)), Hv).
    assert (Hx : (x < height input)%nat) by (destruct V; lia). destruct (A1 x y m s V Hx) as [H _]. rewrite H, I2, I3, I4. reflexivity. }
  destruct (lrn_bp_spec R_num R_ring_laws scale power power1 Rdiv 2 beta method size input sums' output_delta input_delta f dl n mm ss)
    as (input' & Eb & Wb & Sb & Cb); auto; [eapply same_shape_trans; eauto|].
  exists sums', output', input'. split; [exact E|]. split; [exact Eb|]. split; [exact S2|]. split.
  { intros x y m s Hv. assert (V : valid_pos input x y m s) by (apply (same_shape_valid _ _ _ _ _ _ (same_shape_trans _ _ _ S2 So)), Hv).
    assert (Hx : (x < height input)%nat) by (destruct V; lia). destruct (A1 x y m s V Hx) as [_ H]. rewrite H, I2, I3, I4. reflexivity. }
  split; [exact Sb|]. eexists. split; [exact Cb|]. intros jx jy jm js (Hjx & Hjy & Hjm & Hjs). cbv beta. unfold tensor_sum.
  set (G := fun s m y x => if (s =? js)%nat then passed R_num scale power power1 Rdiv 2 beta method size n mm f dl js x y m (jx, jy, jm) else 0).
  assert (HG : nsum R_num ss (fun s => nsum R_num mm (fun m => nsum R_num n (fun y => nsum R_num n (fun x => G s m y x)))) =
    nsum R_num mm (fun m => nsum R_num n (fun y => nsum R_num n (fun x => passed R_num scale power power1 Rdiv 2 beta method size n mm f dl js x y m (jx, jy, jm))))).
  { rewrite (nsum_single R_num R_ring_laws ss js); [|lia|].
    - apply nsum_ext. intros m _. apply nsum_ext. intros y _. apply nsum_ext. intros x _. unfold G. now rewrite Nat.eqb_refl.
    - intros s _ Hne. apply (nsum_zero_ext R_num R_ring_laws). intros m _. apply (nsum_zero_ext R_num R_ring_laws). intros y _.
      apply (nsum_zero_ext R_num R_ring_laws). intros x _. unfold G. now rewrite (proj2 (Nat.eqb_neq _ _) Hne). }
  rewrite <- HG.
  apply (derive_sum ss (fun s v => nsum R_num mm (fun m => nsum R_num n (fun y => nsum R_num n (fun x => dl x y m s *
      normalized R_num scale power Rdiv (set_elt f jx jy jm js v) (lrn_region method size n n mm x y m) x y m s))))). intros s Hs.
  apply (derive_sum mm (fun m v => nsum R_num n (fun y => nsum R_num n (fun x => dl x y m s *
      normalized R_num scale power Rdiv (set_elt f jx jy jm js v) (lrn_region method size n n mm x y m) x y m s)))). intros m Hm.
  apply (derive_sum n (fun y v => nsum R_num n (fun x => dl x y m s *
      normalized R_num scale power Rdiv (set_elt f jx jy jm js v) (lrn_region method size n n mm x y m) x y m s))). intros y Hy.
  apply (derive_sum n (fun x v => dl x y m s *
      normalized R_num scale power Rdiv (set_elt f jx jy jm js v) (lrn_region method size n n mm x y m) x y m s)). intros x Hx.
  unfold G. destruct (Nat.eqb_spec s js) as [->|Hne].
  - pose proof (derive_normalized f (lrn_region method size n n mm x y m) jx jy jm x y m js (region_nodup _ _ _ _ _ _ _ _)) as Hd. cbv zeta in Hd.
    pose proof (derivable_pt_lim_scal _ (dl x y m js) _ _ Hd) as Hsc. unfold mult_real_fct in Hsc.
    match goal with |- derivable_pt_lim _ _ ?t => match type of Hsc with derivable_pt_lim _ _ ?u => replace t with u; [exact Hsc|] end end.
    unfold passed. unfold of_cell. cbn [nadd nmul nopp n0 R_num fst snd].
    set (z := lrn_base R_num scale _ _). assert (Hpp : power z <> 0) by (unfold power, Rpower; apply Rgt_not_eq, exp_pos).
    destruct (member (jx, jy, jm) (lrn_region method size n n mm x y m)), (cell_eqb (x, y, m) (jx, jy, jm)); field; exact Hpp.
  - pose proof (derivable_pt_lim_scal _ (dl x y m s) _ _ (derive_normalized_other f (lrn_region method size n n mm x y m) jx jy jm x y m s js Hne)) as Hsc.
    unfold mult_real_fct in Hsc. rewrite Rmult_0_r in Hsc. exact Hsc.
Qed.
End Derivative.

(** Lemmas for C75: local response normalization along a curve. *)
From Coq Require Import Reals Lra.
From Verif Require Import Base BaseFacts LoopFacts Tensor_Model Tensor_Spec Tensor_Proofs Num RealNum Math_Model Math_Spec Math_Proofs
  Conv_Proofs LRN_Model LRN_Spec LRN_Proofs LRN_Grad Backprop_Model Backprop_Spec BackpropLayers_Model BackpropLayers_Spec BackpropLayers_Proofs BackpropMap_Proofs.
Local Open Scope nat_scope.
Local Open Scope list_scope.

(** Sum over the cells of a sample of square images. *)
Definition cell_sum (n mm : nat) (g : nat * nat * nat -> R) : R :=
  nsum R_num mm (fun m => nsum R_num n (fun y => nsum R_num n (fun x => g (x, y, m)))).
Lemma cell_sum_ext n mm g h : (forall x y m, x < n -> y < n -> m < mm -> g (x, y, m) = h (x, y, m)) -> cell_sum n mm g = cell_sum n mm h.
Proof. intros H. apply nsum_ext. intros m Hm. apply nsum_ext. intros y Hy. apply nsum_ext. intros x Hx. auto. Qed.
Lemma cell_sum_add n mm g h : cell_sum n mm (fun p => g p + h p)%R = (cell_sum n mm g + cell_sum n mm h)%R.
Proof.
  unfold cell_sum. rewrite <- (nsum_add R_num R_ring_laws). apply nsum_ext. intros m _. rewrite <- (nsum_add R_num R_ring_laws). apply nsum_ext. intros y _.
  rewrite <- (nsum_add R_num R_ring_laws). reflexivity.
Qed.
Lemma cell_sum_scale n mm a g : cell_sum n mm (fun p => a * g p)%R = (a * cell_sum n mm g)%R.
Proof.
  unfold cell_sum. assert (H : forall k (f : nat -> R), nsum R_num k (fun i => a * f i)%R = (a * nsum R_num k f)%R) by (intros; apply (nsum_mul_l R_num R_ring_laws)).
  rewrite <- H. apply nsum_ext. intros m _. rewrite <- H. apply nsum_ext. intros y _. apply H.
Qed.
Lemma cell_sum_zero n mm : cell_sum n mm (fun _ => 0%R) = 0%R.
Proof.
  unfold cell_sum. apply (nsum_zero_ext R_num R_ring_laws). intros m _. apply (nsum_zero_ext R_num R_ring_laws). intros y _.
  apply (nsum_zero_ext R_num R_ring_laws). reflexivity.
Qed.
Lemma cell_sum_one n mm x y m g : x < n -> y < n -> m < mm -> cell_sum n mm (fun p => if cell_eqb (x, y, m) p then g p else 0%R) = g (x, y, m).
Proof.
  intros Hx Hy Hm. unfold cell_sum, cell_eqb. cbn [fst snd]. rewrite (nsum_single R_num R_ring_laws mm m); [|exact Hm|].
  - rewrite (nsum_single R_num R_ring_laws n y); [|exact Hy|].
    + rewrite (nsum_single R_num R_ring_laws n x); [now rewrite !Nat.eqb_refl|exact Hx|].
      intros i _ Hi. now rewrite (proj2 (Nat.eqb_neq x i)) by congruence.
    + intros j _ Hj. apply (nsum_zero_ext R_num R_ring_laws). intros i _. now rewrite (proj2 (Nat.eqb_neq y j)), andb_false_r by congruence.
  - intros k _ Hk. apply (nsum_zero_ext R_num R_ring_laws). intros j _. apply (nsum_zero_ext R_num R_ring_laws). intros i _.
    now rewrite (proj2 (Nat.eqb_neq m k)), andb_false_r by congruence.
Qed.

Fixpoint total (l : list R) : R := match l with [] => 0%R | a :: l => (a + total l)%R end.
Lemma total_cells n mm region g : NoDup region -> (forall p, In p region -> fst (fst p) < n /\ snd (fst p) < n /\ snd p < mm) ->
  total (map g region) = cell_sum n mm (fun p => if member p region then g p else 0%R).
Proof.
  induction region as [|[[x y] m] l IH]; intros Hn Hv.
  - symmetry. exact (cell_sum_zero n mm).
  - inversion Hn; subst. destruct (Hv (x, y, m) (or_introl eq_refl)) as (V1 & V2 & V3). cbn [fst snd] in V1, V2, V3.
    cbn [map total]. rewrite (IH H2), <- (cell_sum_one n mm x y m g V1 V2 V3), <- cell_sum_add by (intros p Hp; apply Hv; now right).
    apply cell_sum_ext. intros i j k _ _ _. unfold member at 2. cbn [existsb]. fold (member (i, j, k) l).
    destruct (cell_eqb_spec (x, y, m) (i, j, k)) as [E|E], (cell_eqb_spec (i, j, k) (x, y, m)) as [E'|E']; try congruence; cbn [orb]; [|ring].
    destruct (member (i, j, k) l) eqn:M; [|ring]. apply member_in in M. rewrite <- E in M. contradiction.
Qed.

Section Along.
Variables alpha beta : R.
Hypothesis Ha : (0 <= alpha)%R.
Let scale (n : nat) : R := (alpha / INR n)%R.
Let power (z : R) : R := Rpower z beta.
Let power1 (z : R) : R := Rpower z (beta - 1).
Variables (method : lrn_method) (size n mm : nat).
Hypothesis Hs : 0 < size.

(** Partial derivative of the output at (x, y, m) by the input at the cell [j]. *)
Definition partial_at (f : nat -> nat -> nat -> nat -> R) (x y m s : nat) (j : nat * nat * nat) : R :=
  passed R_num scale power power1 Rdiv 2%R beta method size n mm f (fun _ _ _ _ => 1%R) s x y m j.

Lemma power_nonzero z : power z <> 0%R.
Proof. unfold power, Rpower. apply Rgt_not_eq, exp_pos. Qed.

Lemma passed_partial f dl x y m s j :
  passed R_num scale power power1 Rdiv 2%R beta method size n mm f dl s x y m j = (dl x y m s * partial_at f x y m s j)%R.
Proof.
  unfold partial_at, passed. cbn [nadd nmul nopp n0 R_num]. set (z := lrn_base R_num scale _ _). pose proof (power_nonzero z).
  destruct (member j _), (cell_eqb (x, y, m) j); field; auto.
Qed.

Lemma squares_along (f : R -> nat -> nat -> nat -> nat -> R) df v0 s region :
  (forall p, In p region -> derivable_pt_lim (fun v => of_cell (f v) s p) v0 (of_cell df s p)) ->
  derivable_pt_lim (fun v => squares R_num (map (of_cell (f v) s) region)) v0 (total (map (fun p => 2 * of_cell (f v0) s p * of_cell df s p)%R region)).
Proof.
  intros Hf. unfold squares.
  assert (H : forall (acc : R -> R) a', derivable_pt_lim acc v0 a' ->
    derivable_pt_lim (fun v => fold_left (fun a e => nadd R_num a (nmul R_num e e)) (map (of_cell (f v) s) region) (acc v)) v0
      (a' + total (map (fun p => 2 * of_cell (f v0) s p * of_cell df s p) region))%R).
  { induction region as [|p l IH]; intros acc a' Hacc; cbn [map fold_left total].
    - rewrite Rplus_0_r. exact Hacc.
    - rewrite <- Rplus_assoc. apply (IH (fun q Hq => Hf q (or_intror Hq)) (fun v => nadd R_num (acc v) (nmul R_num (of_cell (f v) s p) (of_cell (f v) s p)))).
      cbn [nadd nmul R_num]. apply derivable_pt_lim_plus with (f1 := acc); [exact Hacc|].
      pose proof (derivable_pt_lim_mult _ _ _ _ _ (Hf p (or_introl eq_refl)) (Hf p (or_introl eq_refl))) as Hm. unfold mult_fct in Hm.
      match goal with |- derivable_pt_lim _ _ ?t => match type of Hm with derivable_pt_lim _ _ ?u => replace t with u; [exact Hm|ring] end end. }
  pose proof (H (fun _ => n0 R_num) 0%R (derive_const _ _)) as G. rewrite Rplus_0_l in G. exact G.
Qed.

Lemma normalized_along (f : R -> nat -> nat -> nat -> nat -> R) df v0 x y m s : x < n -> y < n -> m < mm ->
  (forall i j k, i < n -> j < n -> k < mm -> derivable_pt_lim (fun v => f v i j k s) v0 (df i j k s)) ->
  derivable_pt_lim (fun v => normalized R_num scale power Rdiv (f v) (lrn_region method size n n mm x y m) x y m s) v0
    (cell_sum n mm (fun p => partial_at (f v0) x y m s p * of_cell df s p)%R).
Proof.
  intros Hx Hy Hm Hf. set (region := lrn_region method size n n mm x y m).
  assert (Hv : forall p, In p region -> fst (fst p) < n /\ snd (fst p) < n /\ snd p < mm).
  { intros p Hp. apply region_spec in Hp; [|exact Hs]. destruct p as [[ix iy] im]. cbn [fst snd]. destruct method; cbn [neighbour] in Hp; intuition (subst; auto). }
  unfold normalized. fold region.
  set (q := fun v => squares R_num (map (of_cell (f v) s) region)).
  set (q' := cell_sum n mm (fun p => if member p region then 2 * of_cell (f v0) s p * of_cell df s p else 0)%R).
  assert (Hq : derivable_pt_lim q v0 q').
  { unfold q'. rewrite <- (total_cells n mm region (fun p => 2 * of_cell (f v0) s p * of_cell df s p)%R (region_nodup _ _ _ _ _ _ _ _) Hv).
    apply squares_along. intros p Hp. destruct (Hv p Hp) as (V1 & V2 & V3). now apply Hf. }
  set (c := scale (length region)) in *.
  assert (Hb : derivable_pt_lim (fun v => 1 + c * q v)%R v0 (c * q')%R).
  { replace (c * q')%R with (0 + c * q')%R by ring. apply derivable_pt_lim_plus with (f1 := fun _ => 1%R); [exact (derive_const 1 v0)|].
    apply (derivable_pt_lim_scal q c _ _ Hq). }
  set (z := (1 + c * q v0)%R) in *.
  assert (Hzp : (0 < z)%R) by (exact (base_pos alpha Ha (length region) (q v0) (squares_pos _))).
  assert (Hp : derivable_pt_lim (fun v => power (1 + c * q v)%R) v0 ((beta * power1 z) * (c * q'))%R).
  { apply (derivable_pt_lim_comp (fun v => 1 + c * q v)%R power); [exact Hb|]. cbv beta. fold z. unfold power, power1. now apply derivable_pt_lim_power. }
  pose proof (power_nonzero z) as Hpp.
  pose proof (derivable_pt_lim_div _ _ _ _ _ (Hf x y m Hx Hy Hm) Hp Hpp) as Hd. unfold div_fct in Hd. fold z in Hd.
  match goal with |- derivable_pt_lim _ _ ?t => match type of Hd with derivable_pt_lim _ _ ?u => replace t with u; [exact Hd|] end end.
  transitivity (cell_sum n mm (fun p =>
    (- (f v0 x y m s * beta * c * power1 z / (power z * power z))) * (if member p region then 2 * of_cell (f v0) s p * of_cell df s p else 0) +
    (1 / power z) * (if cell_eqb (x, y, m) p then of_cell df s p else 0))%R).
  - rewrite cell_sum_add, !cell_sum_scale, cell_sum_one by assumption. fold q'. unfold of_cell, Rsqr. cbn [fst snd]. field. exact Hpp.
  - apply cell_sum_ext. intros i j k _ _ _. unfold partial_at, passed. fold region. cbn [nadd nmul nopp n0 R_num fst snd].
    change (lrn_base R_num scale (length region) (squares R_num (map (fun p => f v0 (fst (fst p)) (snd (fst p)) (snd p) s) region))) with z. fold c.
    unfold of_cell. cbn [fst snd]. destruct (member (i, j, k) region), (cell_eqb (x, y, m) (i, j, k)); field; exact Hpp.
Qed.
End Along.

Lemma cell_sum_nsum n mm k (g : nat * nat * nat -> nat -> R) :
  cell_sum n mm (fun p => nsum R_num k (g p)) = nsum R_num k (fun i => cell_sum n mm (fun p => g p i)).
Proof. induction k as [|k IH]; cbn [nsum]; [exact (cell_sum_zero n mm)|]. rewrite <- IH. exact (cell_sum_add n mm (fun p => nsum R_num k (g p)) (fun p => g p k)). Qed.
Lemma cell_sum_swap n mm (g : nat * nat * nat -> nat * nat * nat -> R) :
  cell_sum n mm (fun p => cell_sum n mm (g p)) = cell_sum n mm (fun q => cell_sum n mm (fun p => g p q)).
Proof.
  unfold cell_sum at 2. rewrite cell_sum_nsum. unfold cell_sum at 2. apply nsum_ext. intros m _. rewrite cell_sum_nsum. apply nsum_ext. intros y _.
  rewrite cell_sum_nsum. reflexivity.
Qed.

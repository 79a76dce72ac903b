(** Lemmas about [Base]. *)
From Verif Require Import Base.
From Coq Require Import Permutation.

Lemma in_for {A} n (body : nat -> list A) x :
  In x (for_ n body) <-> exists i, i < n /\ In x (body i).
Proof.
  unfold for_. rewrite in_flat_map. split; intros (i & H1 & H2).
  - apply in_seq in H1. exists i. split; [lia|exact H2].
  - exists i. split; [apply in_seq; lia | exact H2].
Qed.

Lemma in_for_from {A} a b (body : nat -> list A) x :
  In x (for_from a b body) <-> exists i, a <= i < b /\ In x (body i).
Proof.
  unfold for_from, range. rewrite in_flat_map. split; intros (i & H1 & H2).
  - apply in_seq in H1. exists i. split; [lia|exact H2].
  - exists i. split; [apply in_seq; lia | exact H2].
Qed.

Lemma in_range a b x : In x (range a b) <-> a <= x < b.
Proof. unfold range. rewrite in_seq. lia. Qed.

Lemma upd_length {D} (l : list D) a v : length (upd l a v) = length l.
Proof. revert a; induction l as [|x l IH]; intros [|a]; simpl; auto. Qed.

Lemma nth_error_upd_eq {D} (l : list D) a v : a < length l -> nth_error (upd l a v) a = Some v.
Proof.
  revert a; induction l as [|x l IH]; intros [|a] H; simpl in *; try lia; auto.
  apply IH; lia.
Qed.

Lemma nth_error_upd_neq {D} (l : list D) a b v : a <> b -> nth_error (upd l a v) b = nth_error l b.
Proof.
  revert a b; induction l as [|x l IH]; intros [|a] [|b] H; simpl; auto; try lia.
Qed.

Lemma nth_error_upd {D} (l : list D) a b v :
  nth_error (upd l a v) b = if a =? b then (if a <? length l then Some v else None) else nth_error l b.
Proof.
  destruct (Nat.eqb_spec a b) as [->|Hne].
  - destruct (Nat.ltb_spec b (length l)).
    + now apply nth_error_upd_eq.
    + apply nth_error_None. now rewrite upd_length.
  - now apply nth_error_upd_neq.
Qed.

Lemma nth_error_lt {D} (l : list D) {a} : a < length l -> exists v, nth_error l a = Some v.
Proof.
  intros H. destruct (nth_error l a) as [v|] eqn:E; [eauto|].
  apply nth_error_None in E. lia.
Qed.

Lemma load_ok {D} (l : list D) a v : nth_error l a = Some v -> load l a = Ok v.
Proof. unfold load. now intros ->. Qed.

Lemma load_inv {D} (l : list D) a v : load l a = Ok v -> nth_error l a = Some v.
Proof. unfold load. destruct nth_error; congruence. Qed.

Lemma list_ext {D} (l1 l2 : list D) : (forall i, nth_error l1 i = nth_error l2 i) -> l1 = l2.
Proof.
  revert l2; induction l1 as [|x l1 IH]; intros [|y l2] H; auto.
  - specialize (H 0); discriminate.
  - specialize (H 0); discriminate.
  - f_equal.
    + specialize (H 0). now inversion H.
    + apply IH. intros i. exact (H (S i)).
Qed.

(** ** Executing lists of stores *)

(** Stores are well formed for a buffer of length [n]: addresses in range, values available. *)
Definition ops_ok {D} (n : nat) (ops : list (nat * res D)) : Prop :=
  forall a rv, In (a, rv) ops -> a < n /\ exists v, rv = Ok v.

Lemma ops_ok_cons {D} n a (rv : res D) ops :
  ops_ok n ((a, rv) :: ops) -> a < n /\ (exists v, rv = Ok v) /\ ops_ok n ops.
Proof.
  intros H. destruct (H a rv (or_introl eq_refl)) as [H1 H2].
  split; [exact H1|split; [exact H2|]]. intros b rw Hin. apply H. now right.
Qed.

Lemma exec_with_total {D} comb {ops : list (nat * res D)} {l} :
  ops_ok (length l) ops -> exists l', exec_with comb ops l = Ok l' /\ length l' = length l.
Proof.
  revert l; induction ops as [|[a rv] ops IH]; intros l H; simpl.
  - eauto.
  - apply ops_ok_cons in H as (Ha & (v & ->) & Hops). simpl.
    destruct (nth_error_lt l Ha) as [old Hold].
    unfold store_with. rewrite Hold. simpl.
    destruct (IH (upd l a (comb old v))) as (l' & He & Hlen).
    { now rewrite upd_length. }
    exists l'. split; [exact He|]. now rewrite Hlen, upd_length.
Qed.

(** Values stored to address [a], in program order. *)
Definition vals_at {D} (a : nat) (ops : list (nat * res D)) : list D :=
  flat_map (fun p => if fst p =? a then match snd p with Ok v => [v] | _ => [] end else []) ops.

Lemma exec_with_ok_inv {D} {comb} {ops : list (nat * res D)} {l l'} :
  exec_with comb ops l = Ok l' -> ops_ok (length l) ops.
Proof.
  revert l; induction ops as [|[a rv] ops IH]; intros l H b rw Hin; simpl in *.
  - contradiction.
  - destruct rv as [v| |]; simpl in H; try discriminate.
    unfold store_with in H. destruct (nth_error l a) as [old|] eqn:E; simpl in H; try discriminate.
    destruct Hin as [Heq|Hin].
    + inversion Heq; subst. split; [|eauto]. apply nth_error_Some. congruence.
    + apply IH in H. destruct (H b rw Hin) as [H1 H2]. rewrite upd_length in H1. auto.
Qed.

Lemma exec_with_nth {D} {comb} {ops : list (nat * res D)} {l l'} :
  exec_with comb ops l = Ok l' ->
  forall a, nth_error l' a =
            option_map (fun old => fold_left comb (vals_at a ops) old) (nth_error l a).
Proof.
  revert l; induction ops as [|[b rv] ops IH]; intros l H a; simpl in *.
  - inversion H; subst. now destruct (nth_error l' a).
  - destruct rv as [v| |]; simpl in H; try discriminate.
    unfold store_with in H. destruct (nth_error l b) as [old|] eqn:E; simpl in H; try discriminate.
    rewrite (IH _ H a). rewrite nth_error_upd.
    assert (Hb : b < length l) by (apply nth_error_Some; congruence).
    simpl. destruct (Nat.eqb_spec b a) as [->|Hne]; simpl.
    + apply Nat.ltb_lt in Hb. rewrite Hb, E. reflexivity.
    + reflexivity.
Qed.

Lemma exec_with_length {D} {comb} {ops : list (nat * res D)} {l l'} :
  exec_with comb ops l = Ok l' -> length l' = length l.
Proof.
  intros H. pose proof (exec_with_ok_inv H) as Hok.
  destruct (exec_with_total comb Hok) as (l2 & H2 & Hlen). congruence.
Qed.

Lemma vals_at_none {D} a (ops : list (nat * res D)) :
  (forall rv, ~ In (a, rv) ops) -> vals_at a ops = [].
Proof.
  induction ops as [|[b rv] ops IH]; intros H; simpl; auto.
  rewrite IH by (intros rw Hin; apply (H rw); now right).
  destruct (Nat.eqb_spec b a) as [->|]; auto.
  exfalso. apply (H rv). now left.
Qed.

Lemma fold_overwrite {D} (vs : list D) old v :
  (forall v', In v' vs -> v' = v) -> vs <> [] -> fold_left overwrite vs old = v.
Proof.
  revert old; induction vs as [|x vs IH]; intros old H Hne; [congruence|].
  simpl. unfold overwrite at 2.
  destruct vs as [|y vs].
  - simpl. apply H. now left.
  - apply IH; [|discriminate]. intros v' Hin. apply H. now right.
Qed.

Lemma in_vals_at {D} a (ops : list (nat * res D)) v :
  In v (vals_at a ops) <-> In (a, Ok v) ops.
Proof.
  unfold vals_at. rewrite in_flat_map. split.
  - intros ([b rv] & Hin & Hv). simpl in Hv.
    destruct (Nat.eqb_spec b a) as [->|]; [|contradiction].
    destruct rv; simpl in Hv; try contradiction. destruct Hv as [->|[]]. exact Hin.
  - intros Hin. exists (a, Ok v). split; [exact Hin|]. simpl. rewrite Nat.eqb_refl. now left.
Qed.

(** The two facts used for every block of stores: what a stored-to address holds
    afterwards, and that every other address is unchanged. *)
Lemma exec_in {D} {ops : list (nat * res D)} {l l' a v} :
  exec ops l = Ok l' ->
  In (a, Ok v) ops ->
  (forall v', In (a, Ok v') ops -> v' = v) ->
  nth_error l' a = Some v.
Proof.
  intros H Hin Huniq.
  rewrite (exec_with_nth H a).
  pose proof (exec_with_ok_inv H) as Hok.
  destruct (Hok _ _ Hin) as [Hlt _]. destruct (nth_error_lt l Hlt) as [old ->]. simpl.
  f_equal. apply fold_overwrite.
  - intros v' Hv'. apply Huniq. now apply in_vals_at.
  - intros E. apply in_vals_at in Hin. rewrite E in Hin. contradiction.
Qed.

Lemma exec_notin {D} {ops : list (nat * res D)} {l l' a} :
  exec ops l = Ok l' ->
  (forall rv, ~ In (a, rv) ops) ->
  nth_error l' a = nth_error l a.
Proof.
  intros H Hn. rewrite (exec_with_nth H a), vals_at_none by exact Hn.
  now destruct (nth_error l a).
Qed.

Lemma exec_length {D} {ops : list (nat * res D)} {l l'} : exec ops l = Ok l' -> length l' = length l.
Proof. apply exec_with_length. Qed.

Lemma exec_total {D} {ops : list (nat * res D)} {l} :
  ops_ok (length l) ops -> exists l', exec ops l = Ok l' /\ length l' = length l.
Proof. apply exec_with_total. Qed.

Lemma exec_with_app {D} comb (o1 o2 : list (nat * res D)) l :
  exec_with comb (o1 ++ o2) l = (l' <- exec_with comb o1 l ;; exec_with comb o2 l').
Proof.
  revert l; induction o1 as [|[a rv] o1 IH]; intros l; simpl; auto.
  destruct rv; simpl; auto. unfold store_with. destruct nth_error; simpl; auto.
Qed.

(** Reordering: when all stores to one address carry the same value, every
    permutation of the stores has the same outcome. *)
Definition ops_consistent {D} (ops : list (nat * res D)) : Prop :=
  forall a v v', In (a, Ok v) ops -> In (a, Ok v') ops -> v = v'.

Lemma exec_perm {D} {o1 o2 : list (nat * res D)} {l} :
  Permutation o1 o2 -> ops_ok (length l) o1 -> ops_consistent o1 ->
  exec o1 l = exec o2 l.
Proof.
  intros HP Hok Hc.
  assert (Hok2 : ops_ok (length l) o2).
  { intros a rv Hin. apply Hok. eapply Permutation_in; [symmetry; exact HP|exact Hin]. }
  destruct (exec_total Hok) as (l1 & H1 & L1).
  destruct (exec_total Hok2) as (l2 & H2 & L2).
  rewrite H1, H2. f_equal. apply list_ext. intros i.
  destruct (in_dec Nat.eq_dec i (map fst o1)) as [Hin|Hnin].
  - apply in_map_iff in Hin as ([a rv] & Ha & Hin). simpl in Ha; subst a.
    destruct (Hok _ _ Hin) as [_ [v ->]].
    rewrite (exec_in H1 Hin) by (intros v' Hv'; eapply Hc; eauto).
    symmetry. apply (exec_in H2).
    + eapply Permutation_in; eauto.
    + intros v' Hv'. apply Hc with i; [|exact Hin].
      eapply Permutation_in; [symmetry; exact HP|exact Hv'].
  - rewrite (exec_notin H1), (exec_notin H2); auto.
    + intros rv Hin. apply Hnin. apply in_map_iff. exists (i, rv). split; auto.
      eapply Permutation_in; [symmetry; exact HP|exact Hin].
    + intros rv Hin. apply Hnin. apply in_map_iff. exists (i, rv). auto.
Qed.

Lemma foldm_app {A S} (f : S -> A -> res S) l1 l2 s :
  foldm f (l1 ++ l2) s = (s' <- foldm f l1 s ;; foldm f l2 s').
Proof.
  revert s; induction l1 as [|a l1 IH]; intros s; simpl; auto.
  destruct (f s a); simpl; auto.
Qed.

Lemma Forall2_length {A B} {R : A -> B -> Prop} {l l'} : Forall2 R l l' -> length l = length l'.
Proof. induction 1; simpl; auto. Qed.

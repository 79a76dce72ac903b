(** Proofs for C75, first part: sums, memory after a forward pass, velocities. *)
From Coq Require Import Reals Permutation Lra.
From Verif Require Import Base BaseFacts Num RealNum Graph_Model Graph_Spec Backprop_Model Backprop_Spec.
Local Open Scope list_scope.

(** ** Sums *)
Section Sums.
Local Open Scope R_scope.
Lemma rsum_ext {A} (f g : A -> R) l : (forall a, In a l -> f a = g a) -> rsum f l = rsum g l.
Proof. induction l as [|a l IH]; intros H; [reflexivity|]. cbn. rewrite H by (now left). rewrite IH; [reflexivity|]. intros; apply H; now right. Qed.
Lemma rsum_app {A} (f : A -> R) l l' : rsum f (l ++ l') = rsum f l + rsum f l'.
Proof. induction l as [|a l IH]; cbn; [ring|]. rewrite IH. ring. Qed.
Lemma rsum_zero {A} (f : A -> R) l : (forall a, In a l -> f a = 0) -> rsum f l = 0.
Proof. intros H. induction l as [|a l IH]; [reflexivity|]. cbn. rewrite H by (now left). rewrite IH; [ring|]. intros; apply H; now right. Qed.
Lemma rsum_plus {A} (f g : A -> R) l : rsum (fun a => f a + g a) l = rsum f l + rsum g l.
Proof. induction l as [|a l IH]; cbn; [ring|]. rewrite IH. ring. Qed.
Lemma rsum_scale {A} (f : A -> R) c l : rsum (fun a => c * f a) l = c * rsum f l.
Proof. induction l as [|a l IH]; cbn; [ring|]. rewrite IH. ring. Qed.
Lemma rsum_map {A B} (f : B -> R) (g : A -> B) l : rsum f (map g l) = rsum (fun a => f (g a)) l.
Proof. induction l as [|a l IH]; [reflexivity|]. cbn. now rewrite IH. Qed.
Lemma rsum_flat_map {A B} (f : B -> R) (g : A -> list B) l : rsum f (flat_map g l) = rsum (fun a => rsum f (g a)) l.
Proof. induction l as [|a l IH]; [reflexivity|]. cbn. now rewrite rsum_app, IH. Qed.
Lemma rsum_filter {A} (f : A -> R) (p : A -> bool) l : rsum f (filter p l) = rsum (fun a => if p a then f a else 0) l.
Proof. induction l as [|a l IH]; [reflexivity|]. cbn [filter]. destruct (p a) eqn:E; cbn; rewrite ?E, IH; ring. Qed.
Lemma rsum_perm {A} (f : A -> R) l l' : Permutation l l' -> rsum f l = rsum f l'.
Proof. induction 1; cbn; lra. Qed.
Lemma rsum_swap {A B} (f : A -> B -> R) l l' : rsum (fun a => rsum (f a) l') l = rsum (fun b => rsum (fun a => f a b) l) l'.
Proof.
  induction l as [|a l IH]; cbn; [rewrite rsum_zero; auto|]. rewrite IH, <- rsum_plus. reflexivity.
Qed.
Lemma rsum_single {A} (eqb : A -> A -> bool) (Heq : forall a b, eqb a b = true <-> a = b) (f : A -> R) q l :
  NoDup l -> In q l -> rsum (fun a => if eqb q a then f a else 0) l = f q.
Proof.
  intros Nd. induction Nd as [|a l Ha Nd IH]; [intros []|]. intros [->|Hq]; cbn.
  - rewrite (proj2 (Heq q q) eq_refl). rewrite rsum_zero; [ring|]. intros b Hb. destruct (eqb q b) eqn:E; [|reflexivity].
    apply Heq in E. subst b. contradiction.
  - rewrite (IH Hq). destruct (eqb q a) eqn:E; [apply Heq in E; subst a; contradiction|ring].
Qed.
Lemma rsum_derive {A} (f : A -> R -> R) (d : A -> R) v0 l : (forall a, In a l -> derivable_pt_lim (f a) v0 (d a)) ->
  derivable_pt_lim (fun v => rsum (fun a => f a v) l) v0 (rsum d l).
Proof.
  induction l as [|a l IH]; intros H; cbn; [apply derive_const|].
  apply (derivable_pt_lim_plus (f a) (fun v => rsum (fun a => f a v) l)); [apply H; now left|apply IH; intros; apply H; now right].
Qed.
Lemma fold_left_rsum {A} (f : A -> R) l acc : fold_left (fun s a => nadd R_num s (f a)) l acc = acc + rsum f l.
Proof. revert acc. induction l as [|a l IH]; intros acc; cbn; [ring|]. rewrite IH. cbn. ring. Qed.

Lemma dot_zero_l b : dot [] b = 0.
Proof. unfold dot. apply rsum_zero. intros [|e] _; cbn; ring. Qed.
Lemma dot_zeros a b : (forall e, (e < length b)%nat -> nth e b 0 = 0) -> dot a b = 0.
Proof. intros H. unfold dot. apply rsum_zero. intros e He. apply in_seq in He. rewrite H by lia. ring. Qed.
End Sums.

(** ** Velocities *)
Lemma derive_unique f x a b : derivable_pt_lim f x a -> derivable_pt_lim f x b -> a = b.
Proof. apply uniqueness_limite. Qed.
Lemma moves_ext x y v0 dx : (forall v, x v = y v) -> moves x v0 dx -> moves y v0 dx.
Proof.
  intros E [H1 H2]. split; [intros v; now rewrite <- E|]. intros e He. eapply derive_ext; [|apply H2, He]. intros v. cbv beta. now rewrite E.
Qed.
Lemma moves_const c v0 dx : length dx = length c -> (forall e, e < length dx -> nth e dx 0%R = 0%R) -> moves (fun _ => c) v0 dx.
Proof. intros L Z. split; [auto|]. intros e He. rewrite Z by exact He. apply derive_const. Qed.
Lemma moves_still c v0 dx : moves (fun _ => c) v0 dx -> forall e, e < length dx -> nth e dx 0%R = 0%R.
Proof. intros [_ H] e He. eapply derive_unique; [apply H, He|apply derive_const]. Qed.
Lemma nth_repeat_zero n e : nth e (repeat 0%R n) 0%R = 0%R.
Proof. revert e. induction n as [|n IH]; intros [|e]; cbn; auto. Qed.
Lemma moves_zero c v0 : moves (fun _ => c) v0 (repeat 0%R (length c)).
Proof. apply moves_const; [apply repeat_length|]. intros e _. apply nth_repeat_zero. Qed.

(** ** Memory after a forward pass *)
Section Forward.
Context {D : Type}.
Variable layer : nat -> behaviour D.
Variable h : list node.

Lemma forward_other params (l : list nat) (m : memory D) k b : ~ In k l ->
  m_data (fold_left (forward_node layer params h) l m) k b = m_data m k b.
Proof.
  revert m. induction l as [|n l IH]; intros m Hk; [reflexivity|]. cbn [fold_left]. rewrite IH by (intros ?; apply Hk; now right).
  cbn [forward_node m_data]. destruct (Nat.eqb_spec k n) as [->|_]; [exfalso; apply Hk; now left|reflexivity].
Qed.
Lemma input_data_ext {D0} (m m' : memory D0) n :
  (forall c q, In c (inputs_of h n) -> c_node c = Some q -> m_data m q (c_buffer c) = m_data m' q (c_buffer c)) ->
  input_data h m n = input_data h m' n.
Proof. intros H. apply map_ext_in. intros c Hc. destruct (c_node c) as [q|] eqn:E; [now apply H|reflexivity]. Qed.

(** Every node after the nodes it reads. *)
Definition ordered (l : list nat) : Prop :=
  NoDup l /\ forall n c q, In n l -> In c (inputs_of h n) -> c_node c = Some q -> before q n l.

Lemma before_nodup (x y : nat) l pre post : NoDup l -> before x y l -> l = pre ++ y :: post -> In x pre /\ ~ In x (y :: post).
Proof.
  intros Nd (a & b & c & E) E'. assert (Hy : a ++ x :: b = pre /\ c = post).
  { assert (E2 : (a ++ x :: b) ++ y :: c = pre ++ y :: post) by (rewrite <- app_assoc; cbn; congruence).
    assert (N1 : ~ In y (a ++ x :: b)).
    { intros Hi. rewrite E in Nd. change (a ++ x :: b ++ y :: c) with (a ++ (x :: b) ++ y :: c) in Nd. rewrite app_assoc in Nd.
      apply NoDup_remove_2 in Nd. apply Nd. apply in_or_app. now left. }
    assert (N2 : ~ In y pre).
    { intros Hi. rewrite E' in Nd. apply NoDup_remove_2 in Nd. apply Nd. apply in_or_app. now left. }
    clear - E2 N1 N2. revert pre E2 N2. induction (a ++ x :: b) as [|z l IH]; intros [|z' pre] E2 N2; cbn in *.
    - injection E2 as ->. auto.
    - injection E2 as <- _. exfalso. apply N2. now left.
    - injection E2 as -> _. exfalso. apply N1. now left.
    - injection E2 as <- E2. destruct (IH (fun H => N1 (or_intror H)) pre E2 (fun H => N2 (or_intror H))) as [<- <-]. auto. }
  destruct Hy as [<- _]. split; [apply in_or_app; right; now left|]. intros Hi. rewrite E' in Nd.
  apply in_split in Hi as (u & w & Ei). rewrite Ei in Nd. rewrite <- app_assoc in Nd. apply NoDup_remove_2 with (l := a) in Nd.
  apply Nd. apply in_or_app. right. apply in_or_app. right. apply in_or_app. right. now left.
Qed.

(** The memory after the pass is a solution of the equations of the layers. *)
Lemma forward_equations params l m n : ordered l -> In n l ->
  let m' := fold_left (forward_node layer params h) l m in
  let outs := b_outputs (layer n) (input_data h m' n) (params n) in
  forall b, m_data m' n b = if b <? length outs then nth b outs [] else m_data m n b.
Proof.
  intros [Nd Ho] Hn m' outs b. pose proof Hn as Hn'. apply in_split in Hn' as (pre & post & El).
  set (m1 := fold_left (forward_node layer params h) pre m).
  assert (Em : m' = fold_left (forward_node layer params h) (n :: post) m1) by (unfold m', m1; rewrite El, fold_left_app; reflexivity).
  assert (Nn : ~ In n pre /\ ~ In n post).
  { rewrite El in Nd. apply NoDup_remove_2 in Nd. split; intros H; apply Nd, in_or_app; auto. }
  assert (Ei : input_data h m1 n = input_data h m' n).
  { apply input_data_ext. intros c q Hc Eq. rewrite Em. symmetry. apply forward_other.
    apply (before_nodup q n l pre post Nd (Ho n c q Hn Hc Eq) El). }
  rewrite Em. cbn [fold_left]. rewrite forward_other by apply Nn. cbn [forward_node m_data]. rewrite Nat.eqb_refl. cbn [andb].
  rewrite Ei. fold outs. destruct (b <? length outs); [reflexivity|]. unfold m1. now apply forward_other.
Qed.
End Forward.

Lemma nth_input_data {D} h (m : memory D) n i c q : nth_error (inputs_of h n) i = Some c -> c_node c = Some q ->
  nth i (input_data h m n) [] = m_data m q (c_buffer c).
Proof.
  intros E Eq. unfold input_data.
  rewrite (nth_error_nth (map _ _) i [] (map_nth_error (fun c => match c_node c with Some q => m_data m q (c_buffer c) | None => [] end) i _ E)).
  now rewrite Eq.
Qed.

(** ** One parameter moves *)
Lemma nth_upd {A} (l : list A) a v b d0 : nth b (upd l a v) d0 = if (b =? a) && (a <? length l) then v else nth b l d0.
Proof.
  revert a b. induction l as [|x l IH]; intros a b.
  - cbn [upd length]. rewrite andb_comm. destruct a; reflexivity.
  - destruct a as [|a], b as [|b]; cbn [upd nth length]; try reflexivity. rewrite IH. reflexivity.
Qed.
Definition unit_at (x : list R) (e : nat) : list R := map (fun i => if i =? e then 1%R else 0%R) (seq 0 (length x)).
Lemma nth_unit x e i : i < length x -> nth i (unit_at x e) 0%R = if i =? e then 1%R else 0%R.
Proof.
  intros H. unfold unit_at. rewrite (nth_indep _ 0%R (if 0 =? e then 1%R else 0%R)) by (now rewrite map_length, seq_length).
  rewrite (map_nth (fun i => if i =? e then 1%R else 0%R)), seq_nth by exact H. reflexivity.
Qed.
Lemma unit_length x e : length (unit_at x e) = length x.
Proof. unfold unit_at. now rewrite map_length, seq_length. Qed.
Lemma moves_one x e v0 : moves (fun v => upd x e v) v0 (unit_at x e).
Proof.
  split; [intros v; now rewrite upd_length, unit_length|]. intros i Hi. rewrite unit_length in Hi. rewrite nth_unit by exact Hi.
  destruct (Nat.eqb_spec i e) as [->|Hne].
  - eapply derive_ext; [|apply derivable_pt_lim_id]. intros v. rewrite nth_upd, Nat.eqb_refl, (proj2 (Nat.ltb_lt _ _) Hi). reflexivity.
  - eapply derive_ext; [|apply (derive_const (nth i x 0%R))]. intros v. cbv beta. rewrite nth_upd, (proj2 (Nat.eqb_neq _ _) Hne). reflexivity.
Qed.
Lemma nth_zeros c i : nth i (map (fun x : list R => repeat 0%R (length x)) c) [] = repeat 0%R (length (nth i c [])).
Proof. exact (map_nth (fun x : list R => repeat 0%R (length x)) c [] i). Qed.
Lemma all_move_const c v0 : all_move (fun _ => c) v0 (map (fun x => repeat 0%R (length x)) c).
Proof.
  split; [intros v; now rewrite map_length|]. intros i Hi. rewrite map_length in Hi.
  rewrite nth_zeros. apply moves_zero.
Qed.
Definition unit_in (c : list (list R)) (p e : nat) : list (list R) := upd (map (fun x => repeat 0%R (length x)) c) p (unit_at (nth p c []) e).
Lemma all_move_one c p e v0 : p < length c -> all_move (fun v => upd c p (upd (nth p c []) e v)) v0 (unit_in c p e).
Proof.
  intros Hp. unfold unit_in. split; [intros v; now rewrite !upd_length, map_length|]. intros i Hi. rewrite upd_length, map_length in Hi.
  rewrite nth_upd, map_length, (proj2 (Nat.ltb_lt _ _) Hp), andb_true_r. destruct (Nat.eqb_spec i p) as [->|Hne].
  - eapply moves_ext; [|apply moves_one]. intros v. cbv beta. now rewrite nth_upd, Nat.eqb_refl, (proj2 (Nat.ltb_lt _ _) Hp).
  - eapply moves_ext; [|destruct (all_move_const c v0) as [_ M]; apply M; now rewrite map_length].
    intros v. cbv beta. now rewrite nth_upd, (proj2 (Nat.eqb_neq _ _) Hne).
Qed.
Lemma rsum_at (f : nat -> R) e n : e < n -> rsum (fun i => f i * (if i =? e then 1 else 0))%R (seq 0 n) = f e.
Proof.
  intros He. rewrite <- (rsum_single Nat.eqb Nat.eqb_eq f e (seq 0 n) (seq_NoDup n 0)) by (apply in_seq; lia).
  apply rsum_ext. intros i _. rewrite Nat.eqb_sym. destruct (e =? i); ring.
Qed.
Lemma dot_unit a x e : e < length x -> dot a (unit_at x e) = nth e a 0%R.
Proof.
  intros He. unfold dot. rewrite unit_length, <- (rsum_at (fun i => nth i a 0%R) e (length x) He). apply rsum_ext. intros i Hi.
  apply in_seq in Hi. now rewrite nth_unit by lia.
Qed.
Lemma dots_zero a c : dots a (map (fun x : list R => repeat 0%R (length x)) c) = 0%R.
Proof.
  unfold dots. apply rsum_zero. intros i Hi. apply in_seq in Hi. rewrite map_length in Hi. apply dot_zeros. intros e _.
  rewrite nth_zeros. apply nth_repeat_zero.
Qed.
Lemma dots_unit a c p e : p < length c -> e < length (nth p c []) -> dots a (unit_in c p e) = nth e (nth p a []) 0%R.
Proof.
  intros Hp He. unfold dots, unit_in. rewrite upd_length, map_length.
  rewrite <- (rsum_at (fun i => nth e (nth i a []) 0%R) p (length c) Hp). apply rsum_ext. intros i Hi. apply in_seq in Hi.
  rewrite nth_upd, map_length, (proj2 (Nat.ltb_lt _ _) Hp), andb_true_r. destruct (Nat.eqb_spec i p) as [->|Hne].
  - rewrite (dot_unit _ _ _ He). ring.
  - rewrite nth_zeros.
    rewrite dot_zeros; [ring|]. intros k _. apply nth_repeat_zero.
Qed.

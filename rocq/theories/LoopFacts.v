(** More lemmas about lists of stores: nested loops, [+=] loops, schedules. *)
From Verif Require Import Base BaseFacts.

Lemma vals_at_app {D} a (o1 o2 : list (nat * res D)) : vals_at a (o1 ++ o2) = vals_at a o1 ++ vals_at a o2.
Proof. apply flat_map_app. Qed.

Lemma vals_at_flat_map {A D} a (f : A -> list (nat * res D)) l :
  vals_at a (flat_map f l) = flat_map (fun x => vals_at a (f x)) l.
Proof. induction l as [|x l IH]; [reflexivity|]. cbn [flat_map]. now rewrite vals_at_app, IH. Qed.

Lemma flat_map_nil {A B} (f : A -> list B) l : (forall x, In x l -> f x = []) -> flat_map f l = [].
Proof.
  induction l as [|x l IH]; intros H; [reflexivity|]. cbn [flat_map]. rewrite (H x) by now left.
  rewrite IH; [reflexivity|]. intros y Hy. apply H. now right.
Qed.

(** Only one iteration contributes. *)
Lemma for_single {B} (f : nat -> list B) n i : i < n -> (forall j, j < n -> j <> i -> f j = []) -> for_ n f = f i.
Proof.
  intros Hi H. unfold for_. assert (E : n = i + (1 + (n - i - 1))) by lia. rewrite E, seq_app, flat_map_app.
  cbn [Nat.add seq flat_map]. rewrite (flat_map_nil f (seq 0 i)), (flat_map_nil f (seq (S i) _)), app_nil_r; [reflexivity| |].
  - intros x Hx. apply in_seq in Hx. apply H; lia.
  - intros x Hx. apply in_seq in Hx. apply H; lia.
Qed.

Lemma for_nil {B} (f : nat -> list B) n : (forall j, j < n -> f j = []) -> for_ n f = [].
Proof. intros H. apply flat_map_nil. intros x Hx. apply in_seq in Hx. apply H. lia. Qed.

Lemma for_ext {B} (f g : nat -> list B) n : (forall j, j < n -> f j = g j) -> for_ n f = for_ n g.
Proof.
  intros H. unfold for_. induction n as [|n IH]; [reflexivity|]. rewrite seq_S, !flat_map_app. cbn [Nat.add flat_map].
  rewrite H by lia. rewrite IH; [reflexivity|]. intros j Hj. apply H. lia.
Qed.

Lemma for_map {B} (f : nat -> B) n : for_ n (fun i => [f i]) = map f (seq 0 n).
Proof. unfold for_. induction (seq 0 n) as [|x l IH]; [reflexivity|]. cbn. now rewrite IH. Qed.

Lemma vals_at_for {D} a n (f : nat -> list (nat * res D)) : vals_at a (for_ n f) = for_ n (fun i => vals_at a (f i)).
Proof. apply vals_at_flat_map. Qed.

Lemma vals_at_one {D} a b (rv : res D) :
  vals_at a [(b, rv)] = if b =? a then match rv with Ok v => [v] | _ => [] end else [].
Proof. cbn. now rewrite app_nil_r. Qed.

(** Stores that put the same values at every address, in the same order per address,
    have the same outcome. *)
Lemma exec_same_vals {D} comb (o1 o2 : list (nat * res D)) l :
  ops_ok (length l) o1 -> ops_ok (length l) o2 -> (forall a, vals_at a o1 = vals_at a o2) ->
  exec_with comb o1 l = exec_with comb o2 l.
Proof.
  intros H1 H2 H. destruct (exec_with_total comb H1) as (l1 & E1 & _). destruct (exec_with_total comb H2) as (l2 & E2 & _).
  rewrite E1, E2. f_equal. apply list_ext. intros i. rewrite (exec_with_nth E1 i), (exec_with_nth E2 i), H. reflexivity.
Qed.

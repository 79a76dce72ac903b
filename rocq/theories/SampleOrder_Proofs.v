(** Lemmas for C92: the order in which a dataset input layer shows the training samples. *)
From Coq Require Import Permutation.
From Verif Require Import Base BaseFacts Tensor_Model Tensor_Spec DatasetInput_Model DatasetInput_Spec DatasetInput_Proofs DatasetInput_Props SampleOrder_Spec.
Local Open Scope list_scope.

Section Order.
Context {D G : Type}.
Variable zero : D.
Variable gtb : D -> D -> bool.
Variable shuffle : G -> list nat -> list nat * G.
Variable uniform : G -> D * G.
Hypothesis shuffle_perm : forall g l, Permutation l (fst (shuffle g l)).
(** Random numbers used per training sample. *)
Variable K : nat.

Definition core : Type := (list nat * nat * G)%type.
Definition core_of (l : layer D G) : core := (perm l, current_element l, generator l).
Definition next (c : core) : nat * core :=
  let '(p, cur, g) := c in
  let '(p', cur', g') := if length p <=? S cur then (fst (shuffle g p), 0, snd (shuffle g p)) else (p, S cur, g) in
  (nth cur p 0, (p', cur', advanced uniform K g')).
Fixpoint drawn (m : nat) (c : core) : list nat := match m with O => [] | S m => fst (next c) :: drawn m (snd (next c)) end.
Fixpoint later (m : nat) (c : core) : core := match m with O => c | S m => later m (snd (next c)) end.
Lemma drawn_length m c : length (drawn m c) = m.
Proof. revert c. induction m; cbn; auto. Qed.
Lemma drawn_add a b c : drawn (a + b) c = drawn a c ++ drawn b (later a c).
Proof. revert c. induction a as [|a IH]; intros c; [reflexivity|]. cbn [drawn later Nat.add app]. now rewrite IH. Qed.
Lemma later_add a b c : later (a + b) c = later b (later a c).
Proof. revert c. induction a as [|a IH]; intros c; [reflexivity|]. cbn [later Nat.add]. now rewrite IH. Qed.
Lemma drawn_prefix a b c : a <= b -> drawn a c = firstn a (drawn b c).
Proof. intros H. replace b with (a + (b - a)) by lia. rewrite drawn_add. rewrite firstn_app, drawn_length, Nat.sub_diag. cbn [firstn]. rewrite app_nil_r. symmetry. rewrite <- (drawn_length a c) at 1. apply firstn_all. Qed.

Section Layer.
Variable training_sample testing_sample : outputs D -> nat -> nat -> res (outputs D * bool).
Variable o0 : outputs D.
Variable b nt n : nat.
Variable is_fcn : bool.
Hypothesis enough : b <= samples (o_weight o0).
Hypothesis train_ok : provides training_sample o0 b n.
Hypothesis test_ok : provides testing_sample o0 b nt.
Hypothesis HK : K = if is_fcn then ceil_div (height (o_weight o0)) 12 * ceil_div (width (o_weight o0)) 12 else 0.
Notation live := (live D G o0 b nt n).
Notation feed_slot := (feed_slot zero gtb shuffle uniform training_sample testing_sample).

Lemma slot_core l o ds slot : live (l, o, ds) -> slot < b -> fcn l = is_fcn ->
  exists l' o' ds', feed_slot (l, o, ds) slot = Ok (l', o', ds') /\ live (l', o', ds') /\ fcn l' = is_fcn /\ testing l' = testing l /\
    let m := if testing l then 0 else 1 in core_of l' = later m (core_of l) /\ training_draws ds' = training_draws ds ++ drawn m (core_of l).
Proof.
  intros Hl Hs Hf. destruct (slot_live D zero gtb G shuffle uniform training_sample testing_sample shuffle_perm o0 b nt n enough train_ok test_ok l o ds slot Hl Hs)
    as (l' & o' & d & E & Hl' & _ & Hd & T & F & _).
  exists l', o', (ds ++ [d]). split; [exact E|]. split; [exact Hl'|]. split; [congruence|]. split; [exact T|].
  rewrite training_draws_app. unfold training_draws at 2. cbn [filter map]. rewrite Hd. destruct (testing l) eqn:Et.
  - cbn [later drawn negb map]. split; [|reflexivity].
    destruct (feed_slot_inv D zero gtb G shuffle uniform training_sample testing_sample l o ds slot l' o' (ds ++ [d]) E) as (l1 & e & f & g & Es & _ & _ & El). rewrite (El Et).
    unfold select in Es. rewrite Et in Es. destruct (_ <=? _); injection Es as <- _ _; reflexivity.
  - cbn [later drawn negb map].
    destruct Hl as (Sh & _ & _ & Hp & Hc & _). pose proof (Permutation_length Hp) as Lp. rewrite seq_length in Lp.
    destruct (nth_error (perm l) (current_element l)) as [e|] eqn:En; [|apply nth_error_None in En; lia].
    assert (He : e < n) by (apply nth_error_In, (Permutation_in _ (Permutation_sym Hp)), in_seq in En; lia).
    destruct (train_ok o slot e Sh Hs He) as (o1 & Ho & Sh1). destruct Sh1 as (_ & _ & _ & Hw & Hws).
    set (c1 := if length (perm l) <=? S (current_element l) then (fst (shuffle (generator l) (perm l)), 0, snd (shuffle (generator l) (perm l))) else (perm l, S (current_element l), generator l)).
    assert (Es : exists l1, select shuffle l = Ok (l1, e, false) /\ core_of l1 = c1 /\ fcn l1 = fcn l).
    { unfold select, load. rewrite Et, En. cbn [bind]. unfold c1. destruct (length (perm l) <=? S (current_element l)); [destruct (shuffle _ _)|]; eexists; (split; [reflexivity|split; reflexivity]). }
    destruct Es as (l1 & Es & Ec & F1). rewrite (C29_training_slot zero gtb shuffle uniform training_sample testing_sample l l1 o o1 ds slot e false Et Es Ho) in E.
    assert (Nx : next (core_of l) = (e, let '(p', cur', g') := c1 in (p', cur', advanced uniform K g'))).
    { unfold next, core_of. fold c1. destruct c1 as [[p' cur'] g']. f_equal. now apply nth_error_nth. }
    rewrite Nx. cbn [fst snd]. rewrite <- Ec. unfold core_of at 2. cbn zeta.
    rewrite Hf in E. destruct is_fcn.
    + destruct (loss_sampling_spec D zero gtb G uniform (loss_sampling_p l) slot (o_weight o1) (generator l1) Hw) as (w & Els & _); [destruct Hws as (-> & _); lia|].
      rewrite Els in E. cbn [bind fst snd] in E. injection E as <- _ Ed. apply app_inv_head in Ed. injection Ed as <-. cbn [d_element]. split; [|reflexivity].
      unfold core_of. cbn [perm current_element generator]. rewrite HK. destruct Hws as (_ & -> & -> & _). reflexivity.
    + injection E as <- _ Ed. apply app_inv_head in Ed. injection Ed as <-. cbn [d_element]. split; [|reflexivity]. rewrite HK. reflexivity.
Qed.
Lemma slots_core slots : forall l o ds, live (l, o, ds) -> (forall s, In s slots -> s < b) -> fcn l = is_fcn ->
  exists l' o' ds', foldm feed_slot slots (l, o, ds) = Ok (l', o', ds') /\ live (l', o', ds') /\ fcn l' = is_fcn /\ testing l' = testing l /\
    let m := if testing l then 0 else length slots in core_of l' = later m (core_of l) /\ training_draws ds' = training_draws ds ++ drawn m (core_of l).
Proof.
  induction slots as [|s slots IH]; intros l o ds Hl Hs Hf; cbn [foldm].
  - exists l, o, ds. split; [reflexivity|]. split; [exact Hl|]. split; [exact Hf|]. split; [reflexivity|]. cbn [length]. replace (if testing l then 0 else 0) with 0 by (destruct (testing l); reflexivity). cbn. now rewrite app_nil_r.
  - destruct (slot_core l o ds s Hl (Hs s (or_introl eq_refl)) Hf) as (l1 & o1 & ds1 & E & Hl1 & F1 & T1 & C1 & D1). rewrite E. cbn [bind].
    destruct (IH l1 o1 ds1 Hl1 (fun x Hx => Hs x (or_intror Hx)) F1) as (l2 & o2 & ds2 & E2 & Hl2 & F2 & T2 & C2 & D2). rewrite T1 in C2, D2.
    exists l2, o2, ds2. split; [exact E2|]. split; [exact Hl2|]. split; [exact F2|]. split; [congruence|]. cbn [length].
    replace (if testing l then 0 else S (length slots)) with ((if testing l then 0 else 1) + (if testing l then 0 else length slots)) by (destruct (testing l); reflexivity).
    cbv zeta. rewrite later_add, drawn_add, <- C1, app_assoc, <- D1. split; [exact C2|exact D2].
Qed.
Lemma history_core cs : forall l o ds, live (l, o, ds) -> (In (SetTesting true) cs -> 0 < nt) -> fcn l = is_fcn ->
  exists l' o' ds', history zero gtb shuffle uniform training_sample testing_sample cs (l, o, ds) = Ok (l', o', ds') /\
    training_draws ds' = training_draws ds ++ drawn (b * training_feeds (testing l) cs) (core_of l).
Proof.
  induction cs as [|c cs IH]; intros l o ds Hl Hc Hf; unfold history in *; cbn [foldm].
  - exists l, o, ds. split; [reflexivity|]. cbn [training_feeds]. rewrite Nat.mul_0_r. cbn. now rewrite app_nil_r.
  - destruct c as [t|]; cbn [perform training_feeds].
    + cbn [bind]. destruct (IH (set_testing_mode l t) o ds) as (l2 & o2 & ds2 & E2 & D2).
      * destruct Hl as (A & B & C & E & F & H). cbn [DatasetInput_Proofs.live set_testing_mode batch_size elements_testing perm current_element testing].
        repeat (split; auto). intros ->. apply Hc. now left.
      * intros Hin. apply Hc. now right.
      * exact Hf.
      * exists l2, o2, ds2. split; [exact E2|]. exact D2.
    + unfold feed_forward at 1. destruct (slots_core (seq 0 (batch_size l)) l o ds Hl) as (l1 & o1 & ds1 & E & Hl1 & F1 & T1 & C1 & D1); [|exact Hf|].
      { destruct Hl as (_ & -> & _). intros s Hin%in_seq. lia. }
      rewrite E. cbn [bind]. destruct (IH l1 o1 ds1 Hl1 (fun H => Hc (or_intror H)) F1) as (l2 & o2 & ds2 & E2 & D2).
      exists l2, o2, ds2. split; [exact E2|]. rewrite seq_length in C1, D1. destruct Hl as (_ & Hb & _). rewrite Hb in C1, D1. rewrite T1 in D2.
      replace (b * ((if testing l then 0 else 1) + training_feeds (testing l) cs)) with ((if testing l then 0 else b) + b * training_feeds (testing l) cs) by (destruct (testing l); lia).
      rewrite drawn_add, <- C1, app_assoc, <- D1. exact D2.
Qed.
Lemma new_core p seed o cs : 0 < n -> (In (SetTesting true) cs -> 0 < nt) -> shaped_like o0 o ->
  exists l' o' ds, history zero gtb shuffle uniform training_sample testing_sample cs (new_layer shuffle is_fcn b n nt p seed, o, []) = Ok (l', o', ds) /\
    training_draws ds = drawn (b * training_feeds false cs) (fst (shuffle seed (seq 0 n)), 0, snd (shuffle seed (seq 0 n))).
Proof.
  intros Hn Hc So. pose proof (shuffle_perm seed (seq 0 n)) as Hp. unfold new_layer. destruct (shuffle seed (seq 0 n)) as [p0 g]. cbn [fst snd] in *.
  destruct (history_core cs (mkLayer is_fcn b n nt p false g p0 0 0) o []) as (l' & o' & ds & E & Dr); [|exact Hc|reflexivity|].
  - cbn [DatasetInput_Proofs.live batch_size elements_testing perm current_element testing]. repeat (split; auto). discriminate.
  - exists l', o', ds. split; [exact E|]. exact Dr.
Qed.
End Layer.
End Order.

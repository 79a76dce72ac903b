(** Proofs for C75, third part: the gradients found after a backward pass. *)
From Coq Require Import Reals Permutation Lra.
From Verif Require Import Base BaseFacts Num RealNum Graph_Model Graph_Spec Graph_Proofs Backprop_Model Backprop_Spec Backprop_Proofs
  BackpropForward_Proofs.
Local Open Scope list_scope.

(** ** Stores *)
Lemma store_none (cs : list connection) : forall (ds : list (option (list R))) delta n b,
  (forall i c, nth_error cs i = Some c -> c_node c = Some n -> c_buffer c = b -> nth i ds None = None) ->
  store_deltas cs ds delta n b = delta n b.
Proof.
  induction cs as [|c cs IH]; intros ds delta n b H; [reflexivity|]. destruct ds as [|d ds]; [reflexivity|]. cbn [store_deltas].
  rewrite IH by (intros i c' Ec; apply (H (S i) c' Ec)).
  destruct (c_node c) as [q|] eqn:Eq; [|reflexivity]. destruct d as [v|] eqn:Ed; [|reflexivity].
  destruct (Nat.eqb_spec n q) as [->|_]; [|reflexivity]. destruct (Nat.eqb_spec b (c_buffer c)) as [->|_]; [|reflexivity].
  specialize (H 0 c eq_refl Eq eq_refl). discriminate.
Qed.
Lemma store_one (cs : list connection) : forall (ds : list (option (list R))) delta n b i c d,
  nth_error cs i = Some c -> c_node c = Some n -> c_buffer c = b -> nth i ds None = Some d ->
  (forall j c', j <> i -> nth_error cs j = Some c' -> c_node c' = Some n -> c_buffer c' = b -> nth j ds None = None) ->
  store_deltas cs ds delta n b = d.
Proof.
  induction cs as [|c0 cs IH]; intros ds delta n b i c d Ec Eq Eb Ed H; [destruct i; discriminate|].
  destruct ds as [|d0 ds]; [destruct i; discriminate|]. cbn [store_deltas]. destruct i as [|i].
  - injection Ec as <-. cbn in Ed. subst d0. rewrite store_none.
    + rewrite Eq, Eb, !Nat.eqb_refl. reflexivity.
    + intros j c' Ec'. apply (H (S j) c'); [lia|exact Ec'].
  - apply (IH ds _ n b i c d Ec Eq Eb Ed). intros j c' Hj Ec'. apply (H (S j) c'); [lia|exact Ec'].
Qed.

(** ** One gradient for every output *)
Lemma nodup_flat_map {A B C} (f : B -> C) (G : A -> list B) l : NoDup (map f (flat_map G l)) ->
  forall a a' x y, In a l -> In a' l -> In x (G a) -> In y (G a') -> f x = f y -> a = a' \/ False.
Proof.
  intros Nd a a' x y Ha Ha' Hx Hy E. left. revert Nd. induction l as [|z l IH]; [destruct Ha|]. cbn [flat_map]. rewrite map_app.
  intros Nd. assert (Dis : forall w, In w (map f (G z)) -> In w (map f (flat_map G l)) -> False).
  { clear - Nd. intros w H1 H2. induction (map f (G z)) as [|u us IH]; [destruct H1|]. cbn in Nd. inversion Nd; subst.
    destruct H1 as [<-|H1]; [|now apply IH]. apply H3. apply in_or_app. now right. }
  assert (Nl : NoDup (map f (flat_map G l))).
  { clear - Nd. induction (map f (G z)) as [|u us IH]; [exact Nd|]. inversion Nd; subst. now apply IH. }
  destruct Ha as [<-|Ha], Ha' as [<-|Ha']; [reflexivity| | |now apply IH].
  - exfalso. apply (Dis (f x)); [now apply in_map|]. rewrite E. apply in_map, in_flat_map. eauto.
  - exfalso. apply (Dis (f y)); [now apply in_map|]. rewrite <- E. apply in_map, in_flat_map. eauto.
Qed.
Lemma nodup_flat_map_part {A B C} (f : B -> C) (G : A -> list B) l a : NoDup (map f (flat_map G l)) -> In a l -> NoDup (map f (G a)).
Proof.
  induction l as [|z l IH]; intros Nd Ha; [destruct Ha|]. cbn [flat_map] in Nd. rewrite map_app in Nd. destruct Ha as [<-|Ha].
  - clear - Nd. induction (map f (G z)) as [|u us IH]; [constructor|]. cbn in Nd. inversion Nd; subst. constructor; [|now apply IH].
    intros H. apply H1. apply in_or_app. now left.
  - apply IH; [|exact Ha]. clear - Nd. induction (map f (G z)) as [|u us IH]; [exact Nd|]. inversion Nd; subst. now apply IH.
Qed.
Lemma nodup_filter_position {A B} (f : A -> B) (p : A -> bool) l : NoDup (map f (filter p l)) ->
  forall i j x y, nth_error l i = Some x -> nth_error l j = Some y -> p x = true -> p y = true -> f x = f y -> i = j.
Proof.
  induction l as [|z l IH]; intros Nd i j x y Ei Ej Px Py E; [destruct i; discriminate|]. cbn [filter] in Nd.
  assert (Nl : NoDup (map f (filter p l))) by (destruct (p z); [inversion Nd; auto|exact Nd]).
  assert (Hz : p z = true -> forall k w, nth_error l k = Some w -> p w = true -> f z = f w -> False).
  { intros Pz k w Ek Pw Ew. rewrite Pz in Nd. cbn in Nd. inversion Nd; subst. apply H1. rewrite Ew. apply in_map, filter_In.
    split; [eapply nth_error_In; exact Ek|exact Pw]. }
  destruct i as [|i], j as [|j]; cbn in Ei, Ej.
  - reflexivity.
  - injection Ei as ->. exfalso. eapply Hz; eauto.
  - injection Ej as ->. exfalso. eapply Hz; eauto.
  - f_equal. eapply IH; eauto.
Qed.

Section Backward.
Variable g : graph.
Hypothesis g_sound : sound g.
Hypothesis g_fed : fed g.
Notation h := (heap g).

(** Input [i] of node [k] is output [b] of node [n]. *)
Definition arc (k i n b : nat) (c : connection) : Prop :=
  nth_error (inputs_of h k) i = Some c /\ c_node c = Some n /\ c_buffer c = b.

Lemma node_here n : In n (nodes g) -> exists nd, nth_error h n = Some nd.
Proof. intros Hn. destruct (sound_closed g g_sound n Hn) as (nd & E & _). eauto. Qed.
Lemma arc_target k i n b c : In k (nodes g) -> arc k i n b c -> In n (nodes g).
Proof.
  intros Hk (Ec & En & _). destruct (sound_closed g g_sound k Hk) as (nd & E & Hc). unfold inputs_of in Ec. rewrite E in Ec.
  destruct (Hc c (nth_error_In _ _ Ec)) as (q & Eq & Hq). congruence.
Qed.
Lemma arc_request k i n b c : In k (nodes g) -> arc k i n b c -> c_backprop c = true -> In (mkB k b) (requests h n k).
Proof.
  intros Hk (Ec & En & Eb) Hb. destruct (node_here k Hk) as (nd & E). unfold inputs_of in Ec. rewrite E in Ec.
  apply in_requests. exists nd, c. split; [exact E|]. split; [eapply nth_error_In; exact Ec|]. split; [exact En|]. split; [exact Hb|]. congruence.
Qed.
Lemma asked_not_input k i n b c : In k (nodes g) -> arc k i n b c -> c_backprop c = true -> is_input_at h n = false.
Proof.
  intros Hk Ha Hb. pose proof (arc_target k i n b c Hk Ha) as Hn. destruct (node_here n Hn) as (nd & E).
  unfold is_input_at. rewrite E. destruct (n_is_input nd) eqn:Ei; [|reflexivity]. exfalso.
  pose proof (sound_consistent g g_sound n nd E) as P. rewrite (sound_inputs g g_sound n nd E Ei) in P.
  assert (Hr : In (mkB k b) (flat_map (requests h n) (nodes g))) by (apply in_flat_map; exists k; split; [exact Hk|now apply (arc_request k i n b c)]).
  apply Permutation_sym in P. apply (Permutation_in _ P) in Hr. exact Hr.
Qed.
Lemma use_cases c n : c_node c = Some n -> is_input_at h n = false -> use_of h c = if c_backprop c then Asked else Observed.
Proof. intros En Hi. unfold use_of. rewrite En, Hi. reflexivity. Qed.

Lemma fed_nodup n : In n (nodes g) -> is_input_at h n = false -> NoDup (map b_buffer (flat_map (requests h n) (nodes g))).
Proof.
  intros Hn Hi. destruct (node_here n Hn) as (nd & E). unfold is_input_at in Hi. rewrite E in Hi.
  eapply Permutation_NoDup; [apply Permutation_sym, (g_fed n nd Hn E Hi)|apply seq_NoDup].
Qed.
(** Two connections that want the gradient of the same output are one. *)
Lemma asked_unique k i k' i' n b c c' : In k (nodes g) -> In k' (nodes g) -> arc k i n b c -> arc k' i' n b c' ->
  c_backprop c = true -> c_backprop c' = true -> k = k' /\ i = i'.
Proof.
  intros Hk Hk' A A' Hb Hb'. pose proof (arc_target k i n b c Hk A) as Hn. pose proof (asked_not_input k i n b c Hk A Hb) as Hi.
  pose proof (fed_nodup n Hn Hi) as Nd.
  destruct (nodup_flat_map b_buffer (requests h n) (nodes g) Nd k k' (mkB k b) (mkB k' b) Hk Hk') as [<-|[]];
    [now apply (arc_request k i n b c)|now apply (arc_request k' i' n b c')|reflexivity|].
  split; [reflexivity|]. pose proof (nodup_flat_map_part b_buffer (requests h n) (nodes g) k Nd Hk) as Nk. unfold requests in Nk.
  destruct A as (Ec & En & Eb), A' as (Ec' & En' & Eb'). unfold inputs_of in *. destruct (nth_error h k) as [nd|]; [|destruct i; discriminate].
  rewrite map_map in Nk. cbn [b_buffer] in Nk.
  apply (nodup_filter_position c_buffer _ _ Nk i i' c c' Ec Ec').
  - rewrite En. cbn [ptr_eqb]. now rewrite Nat.eqb_refl.
  - rewrite En'. cbn [ptr_eqb]. now rewrite Nat.eqb_refl.
  - congruence.
Qed.
(** Every output has a connection that wants its gradient. *)
Lemma asked_exists n b : In n (nodes g) -> is_input_at h n = false -> b < buffers_of h n ->
  exists k i c, In k (nodes g) /\ arc k i n b c /\ c_backprop c = true.
Proof.
  intros Hn Hi Hb. destruct (node_here n Hn) as (nd & E). unfold is_input_at in Hi. unfold buffers_of in Hb. rewrite E in Hi, Hb.
  assert (Hr : In b (map b_buffer (flat_map (requests h n) (nodes g)))).
  { eapply Permutation_in; [apply Permutation_sym, (g_fed n nd Hn E Hi)|]. apply in_seq. lia. }
  apply in_map_iff in Hr as (r & Eb & Hr). apply in_flat_map in Hr as (k & Hk & Hr). apply in_requests in Hr as (m & c & Em & Hc & En & Hbp & ->).
  cbn [b_buffer] in Eb. apply In_nth_error in Hc as (i & Ec). exists k, i, c. split; [exact Hk|]. split; [|exact Hbp].
  unfold arc, inputs_of. rewrite Em. auto.
Qed.

Variable layer : nat -> behaviour R.
Variable params : R -> nat -> list (list R).
Variable v0 : R.
Variable dp : nat -> list (list R).
Variable m : memory R.
Variable l : list nat.
Hypothesis l_ordered : ordered h l.
Hypothesis l_nodes : forall n, In n l <-> In n (nodes g).
Hypothesis g_plain : plain_inputs g params.
Notation M1 := (after layer h params m l v0).
Notation en := (do_backprop h).
Variable t : nat -> nat -> list R.
Variable d : nat -> R.
Hypothesis t_moves : forall n b, In n l -> moves (fun v => m_data (after layer h params m l v) n b) v0 (t n b).
Hypothesis accounts : forall n, In n l -> account layer h en params v0 dp m l t (d n) n.

Definition early_of (k : nat) : list (option (list R)) := b_early (layer k) (input_data h M1 k) (params v0 k).
Definition deltas_of (M : memory R) (k : nat) : list (list R) := map (m_delta M k) (seq 0 (buffers_of h k)).
Definition back_of (M : memory R) (k : nat) : list (option (list R)) :=
  fst (b_backward (layer k) (en k) (input_data h M1 k) (params v0 k) (deltas_of M k)).
Definition grads_of (M : memory R) (k : nat) : list (list R) :=
  snd (b_backward (layer k) (en k) (input_data h M1 k) (params v0 k) (deltas_of M k)).
Definition right_shape (M : memory R) (k : nat) : Prop := shape (deltas_of M k) = shape (map (t k) (seq 0 (buffers_of h k))).

Lemma input_no_arcs k i n b c : In k (nodes g) -> is_input_at h k = true -> ~ arc k i n b c.
Proof.
  intros Hk Hi (Ec & _). destruct (node_here k Hk) as (nd & E). unfold is_input_at in Hi. rewrite E in Hi.
  destruct (g_plain k nd Hk E Hi) as [En _]. unfold inputs_of in Ec. rewrite E, En in Ec. destruct i; discriminate.
Qed.
Lemma not_input k i n b c : In k (nodes g) -> arc k i n b c -> is_input_at h k = false.
Proof. intros Hk A. destruct (is_input_at h k) eqn:E; [|reflexivity]. exfalso. now apply (input_no_arcs k i n b c Hk E). Qed.

Lemma early_observed k i n b c : In k (nodes g) -> arc k i n b c -> is_input_at h n = false -> c_backprop c = false ->
  nth i (early_of k) None = None.
Proof.
  intros Hk A Hi Hb. destruct (accounts k (proj2 (l_nodes k) Hk)) as [_ Acc].
  destruct (Acc (map (t k) (seq 0 (buffers_of h k))) eq_refl) as (_ & _ & O). destruct A as (Ec & En & Eb).
  apply (O i c Ec). rewrite (use_cases c n En Hi), Hb. reflexivity.
Qed.

Lemma input_at_run n pre post : l = pre ++ n :: post ->
  input_data h (fold_left (forward_node layer (params v0) h) pre m) n = input_data h M1 n.
Proof.
  intros El. assert (Hn : In n l) by (rewrite El; apply in_or_app; right; now left). destruct l_ordered as [Nd Ho].
  apply input_data_ext. intros c q Hc Eq. unfold after. rewrite El, fold_left_app. symmetry. apply forward_other.
  apply (before_nodup q n l pre post Nd (Ho n c q Hn Hc Eq) El).
Qed.

(** What a layer stores in its input during FeedForward is still there after the pass. *)
Lemma early_quiet n b post : forall pre, l = pre ++ post ->
  (forall k i c, In k post -> arc k i n b c -> nth i (early_of k) None = None) ->
  m_delta M1 n b = m_delta (fold_left (forward_node layer (params v0) h) pre m) n b.
Proof.
  induction post as [|k post IH]; intros pre El H.
  - unfold after. now rewrite El, app_nil_r.
  - rewrite (IH (pre ++ [k])).
    + rewrite fold_left_app. cbn [fold_left forward_node m_delta]. rewrite (input_at_run k pre post El). apply store_none.
      intros i c Ec En Eb. apply (H k i c (or_introl eq_refl)). unfold arc. auto.
    + rewrite <- app_assoc. exact El.
    + intros k' i c Hk'. apply H. now right.
Qed.
Lemma early_kept k i n b c dl : In k (nodes g) -> arc k i n b c -> c_backprop c = true -> nth i (early_of k) None = Some dl ->
  m_delta M1 n b = dl.
Proof.
  intros Hk A Hb Ed. pose proof (asked_not_input k i n b c Hk A Hb) as Hi.
  pose proof (proj2 (l_nodes k) Hk) as Hl. apply in_split in Hl as (pre & post & El).
  assert (Hpost : forall k', In k' (k :: post) -> In k' (nodes g)) by (intros k' H'; apply l_nodes; rewrite El; apply in_or_app; now right).
  assert (Nk : ~ In k post).
  { destruct l_ordered as [Nd _]. rewrite El in Nd. apply NoDup_remove_2 in Nd. intros H. apply Nd, in_or_app. now right. }
  rewrite (early_quiet n b post (pre ++ [k])).
  - rewrite fold_left_app. cbn [fold_left forward_node m_delta]. rewrite (input_at_run k pre post El).
    destruct A as (Ec & En & Eb). apply (store_one _ _ _ n b i c dl Ec En Eb Ed).
    intros j c' Hj Ec' En' Eb'. destruct (c_backprop c') eqn:Hb'.
    + exfalso. apply Hj. symmetry. apply (asked_unique k i k j n b c c' Hk Hk); unfold arc; auto.
    + apply (early_observed k j n b c' Hk); unfold arc; auto.
  - rewrite <- app_assoc. exact El.
  - intros k' i' c' Hk' A'. destruct (c_backprop c') eqn:Hb'.
    + exfalso. apply Nk. destruct (asked_unique k i k' i' n b c c' Hk (Hpost k' (or_intror Hk')) A A' Hb Hb') as [-> _]. exact Hk'.
    + apply (early_observed k' i' n b c' (Hpost k' (or_intror Hk')) A' Hi Hb').
Qed.

(** ** The backward pass *)
Variable l2 : list nat.
Hypothesis l2_once : NoDup l2.
Hypothesis l2_nodes : forall n, In n l2 <-> In n (nodes g).
Hypothesis l2_order : forall n k, In n (nodes g) -> In k (nodes g) -> wants_gradient h k n -> before k n l2.

Record reached (pre : list nat) (M : memory R) : Prop := mkReached {
  re_data : forall n b, m_data M n b = m_data M1 n b;
  re_done : forall k, In k pre -> is_input_at h k = false -> right_shape M k /\ m_grad M k = grads_of M k;
  re_asked : forall k i n b c, In k (nodes g) -> arc k i n b c -> c_backprop c = true ->
    (In k pre -> handed (early_of k) (back_of M k) i = Some (m_delta M n b)) /\
    (~ In k pre -> m_delta M n b = m_delta M1 n b) }.

Lemma asked_wants k i n b c : In k (nodes g) -> arc k i n b c -> c_backprop c = true -> wants_gradient h k n.
Proof.
  intros Hk (Ec & En & _) Hb. destruct (node_here k Hk) as (nd & E). unfold inputs_of in Ec. rewrite E in Ec.
  exists nd, c. split; [exact E|]. split; [eapply nth_error_In; exact Ec|]. auto.
Qed.

Lemma shape_nth (a b : list (list R)) : shape a = shape b <-> length a = length b /\ forall i, i < length a -> length (nth i a []) = length (nth i b []).
Proof.
  unfold shape. split.
  - intros E. assert (L : length a = length b) by (rewrite <- (map_length (@length R) a), E; apply map_length). split; [exact L|].
    intros i Hi. rewrite <- !(map_nth (@length R)). cbn. now rewrite E.
  - intros [L H]. apply nth_ext with (d := 0) (d' := 0); rewrite ?map_length; [exact L|]. intros i Hi. specialize (H i Hi).
    change 0 with (length (@nil R)). rewrite !(map_nth (@length R)). exact H.
Qed.
Lemma nth_map_seq {A} (f : nat -> A) n b d0 : b < n -> nth b (map f (seq 0 n)) d0 = f b.
Proof. intros H. rewrite (nth_indep _ d0 (f 0)) by (now rewrite map_length, seq_length). now rewrite map_nth, seq_nth. Qed.

Lemma backward_step pre k post M : l2 = pre ++ k :: post -> reached pre M ->
  reached (pre ++ [k]) (backward_node layer (params v0) h M (k, en k)).
Proof.
  intros El [Rd Rn Ra]. set (M' := backward_node layer (params v0) h M (k, en k)).
  assert (Hk : In k (nodes g)) by (apply l2_nodes; rewrite El; apply in_or_app; right; now left).
  assert (Hpre : forall j, In j pre -> In j (nodes g)) by (intros j H; apply l2_nodes; rewrite El; apply in_or_app; now left).
  assert (Nk : ~ In k pre) by (rewrite El in l2_once; apply NoDup_remove_2 in l2_once; intros H; apply l2_once, in_or_app; now left).
  assert (Ei : input_data h M k = input_data h M1 k) by (apply input_data_ext; intros; apply Rd).
  assert (Eb : b_backward (layer k) (en k) (input_data h M k) (params v0 k) (map (m_delta M k) (seq 0 (buffers_of h k))) =
               (back_of M k, grads_of M k)) by (rewrite Ei; unfold back_of, grads_of, deltas_of; now destruct (b_backward _ _ _ _ _)).
  assert (Ed : forall n b, m_delta M' n b = store_deltas (inputs_of h k) (back_of M k) (m_delta M) n b).
  { intros n b. unfold M', backward_node. cbn [fst snd m_delta]. rewrite Eb. reflexivity. }
  assert (Eg : forall j, m_grad M' j = if j =? k then grads_of M k else m_grad M j).
  { intros j. unfold M', backward_node. cbn [fst snd m_grad]. rewrite Eb. reflexivity. }
  (* consumers of k have run, k is no consumer of what has run *)
  assert (Hback : forall j i b c, In j (pre ++ [k]) -> arc k i j b c -> c_backprop c = true -> False).
  { intros j i b c Hj A Hb. pose proof (arc_target k i j b c Hk A) as Hjn.
    pose proof (l2_order j k Hjn Hk (asked_wants k i j b c Hk A Hb)) as B.
    apply in_app_or in Hj as [Hj|[<-|[]]].
    - apply in_split in Hj as (u & w & Eu).
      destruct (before_nodup k j l2 u (w ++ k :: post) l2_once B) as [_ F]; [rewrite El, Eu, <- app_assoc; reflexivity|].
      apply F. right. apply in_or_app. right. now left.
    - destruct (before_nodup k k l2 pre post l2_once B El) as [F _]. contradiction. }
  assert (Sk : is_input_at h k = false -> right_shape M k).
  { intros Hi. unfold right_shape. apply shape_nth. unfold deltas_of. rewrite !map_length, !seq_length. split; [reflexivity|]. intros b Hb.
    rewrite !nth_map_seq by exact Hb. destruct (asked_exists k b Hk Hi Hb) as (k' & i' & c' & Hk' & A' & Hb').
    assert (Hp : In k' pre) by (apply (before_nodup k' k l2 pre post l2_once (l2_order k k' Hk Hk' (asked_wants k' i' k b c' Hk' A' Hb')) El)).
    destruct (Ra k' i' k b c' Hk' A' Hb') as [H1 _]. specialize (H1 Hp). destruct (Rn k' Hp (not_input k' i' k b c' Hk' A')) as [S' _].
    destruct (accounts k' (proj2 (l_nodes k') Hk')) as [_ Acc]. destruct (Acc (deltas_of M k') S') as (_ & As & _).
    destruct A' as (Ec' & En' & Eb'). destruct (As i' c' Ec') as (dl & Hd & Ll); [unfold use_of; now rewrite Hb'|].
    change (handed (early_of k') (back_of M k') i' = Some dl) in Hd. rewrite H1 in Hd. injection Hd as Hd. rewrite Hd, Ll.
    rewrite (nth_input_data h _ k' i' c' k Ec' En'), Eb'. destruct (t_moves k b (proj2 (l_nodes k) Hk)) as [T _]. apply (T v0). }
  assert (Ak : is_input_at h k = false ->
     (forall i n b c, arc k i n b c -> c_backprop c = true -> exists dl, handed (early_of k) (back_of M k) i = Some dl) /\
     (forall i n b c, arc k i n b c -> is_input_at h n = false -> c_backprop c = false -> nth i (back_of M k) None = None)).
  { intros Hi. destruct (accounts k (proj2 (l_nodes k) Hk)) as [_ Acc]. destruct (Acc (deltas_of M k) (Sk Hi)) as (_ & As & Ob). split.
    - intros i n b c (Ec & En & Ebf) Hb. destruct (As i c Ec) as (dl & Hd & _); [unfold use_of; now rewrite Hb|]. exists dl. exact Hd.
    - intros i n b c (Ec & En & Ebf) Hin Hb. apply (Ob i c Ec). rewrite (use_cases c n En Hin), Hb. reflexivity. }
  (* outputs of nodes that have run are left alone *)
  assert (Dj : forall j b, In j (pre ++ [k]) -> is_input_at h j = false -> m_delta M' j b = m_delta M j b).
  { intros j b Hj Hi. rewrite Ed. apply store_none. intros i c Ec En Ebf. assert (A : arc k i j b c) by (unfold arc; auto).
    destruct (c_backprop c) eqn:Hb; [exfalso; now apply (Hback j i b c Hj A)|].
    destruct (Ak (not_input k i j b c Hk A)) as [_ Ob]. now apply (Ob i j b c). }
  assert (DD : forall j, In j (pre ++ [k]) -> is_input_at h j = false -> deltas_of M' j = deltas_of M j).
  { intros j Hj Hi. apply map_ext. intros b. now apply Dj. }
  constructor.
  - intros n b. apply Rd.
  - intros j Hj Hi. unfold right_shape, grads_of. rewrite (DD j Hj Hi). rewrite Eg. apply in_app_or in Hj as [Hj|[<-|[]]].
    + rewrite (proj2 (Nat.eqb_neq j k)) by (intros ->; contradiction). now apply Rn.
    + rewrite Nat.eqb_refl. split; [now apply Sk|reflexivity].
  - intros k' i n b c Hk' A Hb. pose proof (not_input k' i n b c Hk' A) as Hi'.
    assert (Other : k' <> k -> m_delta M' n b = m_delta M n b).
    { intros Hne. rewrite Ed. apply store_none. intros j c2 Ec2 En2 Eb2. assert (A2 : arc k j n b c2) by (unfold arc; auto).
      destruct (c_backprop c2) eqn:Hb2.
      - exfalso. apply Hne. apply (asked_unique k' i k j n b c c2); auto.
      - destruct (Ak (not_input k j n b c2 Hk A2)) as [_ Ob]. apply (Ob j n b c2 A2); [|exact Hb2].
        now apply (asked_not_input k' i n b c). }
    destruct (Ra k' i n b c Hk' A Hb) as [R1 R2]. split.
    + intros Hin. apply in_app_or in Hin as [Hin|[<-|[]]].
      * assert (Hne : k' <> k) by (intros ->; contradiction). unfold back_of. rewrite (DD k' (in_or_app _ _ _ (or_introl Hin)) Hi').
        rewrite (Other Hne). now apply R1.
      * unfold back_of. rewrite (DD k (in_or_app pre [k] k (or_intror (or_introl eq_refl))) Hi'). fold (back_of M k).
        destruct (Ak Hi') as [As Ob]. destruct (As i n b c A Hb) as (dl & Hd). rewrite Hd. f_equal. rewrite Ed. unfold handed in Hd.
        destruct (nth i (back_of M k) None) as [v|] eqn:Ev.
        -- symmetry. destruct A as (Ec & En & Ebf). injection Hd as <-. apply (store_one _ _ _ n b i c v Ec En Ebf Ev).
           intros j c2 Hj Ec2 En2 Eb2. assert (A2 : arc k j n b c2) by (unfold arc; auto). destruct (c_backprop c2) eqn:Hb2.
           ++ exfalso. apply Hj. symmetry. assert (A1 : arc k i n b c) by (unfold arc; auto). apply (asked_unique k i k j n b c c2 Hk Hk A1 A2 Hb Hb2).
           ++ apply (Ob j n b c2 A2); [|exact Hb2]. apply (asked_not_input k i n b c Hk); [unfold arc; auto|exact Hb].
        -- rewrite store_none.
           ++ rewrite (R2 Nk). symmetry. now apply (early_kept k i n b c dl).
           ++ intros j c2 Ec2 En2 Eb2. assert (A2 : arc k j n b c2) by (unfold arc; auto). destruct (c_backprop c2) eqn:Hb2.
              ** destruct (asked_unique k i k j n b c c2 Hk Hk A A2 Hb Hb2) as [_ <-]. exact Ev.
              ** apply (Ob j n b c2 A2); [|exact Hb2]. now apply (asked_not_input k i n b c Hk).
    + intros Hin. rewrite Other; [apply R2; intros H; apply Hin, in_or_app; now left|].
      intros ->. apply Hin, in_or_app. right. now left.
Qed.

Definition final : memory R := fold_left (backward_node layer (params v0) h) (map (fun n => (n, en n)) l2) M1.

Lemma backward_reached : reached l2 final.
Proof.
  assert (H : forall pre post, l2 = pre ++ post ->
    reached pre (fold_left (backward_node layer (params v0) h) (map (fun n => (n, en n)) pre) M1)).
  { induction pre as [|k pre IH] using rev_ind; intros post El.
    - constructor; [reflexivity|intros k []|]. intros k i n b c _ _ _. split; [intros []|reflexivity].
    - rewrite <- app_assoc in El. cbn [app] in El. rewrite map_app, fold_left_app. cbn [map fold_left].
      apply (backward_step pre k post); [exact El|]. now apply (IH (k :: post)). }
  apply (H l2 []). now rewrite app_nil_r.
Qed.

(** ** The sum over the network *)
Definition free_nodes : list nat := filter (fun n => negb (is_input_at h n)) (nodes g).
Definition F (q b : nat) : R := dot (m_delta final q b) (t q b).

Lemma balance : rsum d free_nodes = rsum (fun n => dots (m_grad final n) (dp n)) free_nodes.
Proof.
  destruct backward_reached as [Rd Rn Ra].
  assert (Hf : forall n, In n free_nodes <-> In n (nodes g) /\ is_input_at h n = false).
  { intros n. unfold free_nodes. rewrite filter_In, negb_true_iff. tauto. }
  assert (E1 : forall n, In n free_nodes -> (rsum (F n) (seq 0 (buffers_of h n)) + d n =
     rsum (fun c => if c_backprop c then match c_node c with Some q => F q (c_buffer c) | None => 0 end else 0) (inputs_of h n) + dots (m_grad final n) (dp n))%R).
  { intros n Hn. apply Hf in Hn as [Hn Hi]. destruct (Rn n (proj2 (l2_nodes n) Hn) Hi) as [S G]. rewrite G.
    destruct (accounts n (proj2 (l_nodes n) Hn)) as [_ Acc]. destruct (Acc (deltas_of final n) S) as (B & As & Ob).
    fold (back_of final n) in B, As, Ob. fold (grads_of final n) in B. fold (early_of n) in B, As, Ob. cbv zeta in B.
    replace (rsum (F n) (seq 0 (buffers_of h n))) with (dots (deltas_of final n) (map (t n) (seq 0 (buffers_of h n)))).
    2:{ unfold dots. rewrite map_length, seq_length. apply rsum_ext. intros b Hb. apply in_seq in Hb. unfold deltas_of. rewrite !nth_map_seq by lia. reflexivity. }
    rewrite B. f_equal.
    assert (X : forall pre post, inputs_of h n = pre ++ post -> 
      rsum (fun i => dot (or_nothing (handed (early_of n) (back_of final n) i)) (nth i (tangents h t n) [])) (seq (length pre) (length post)) =
      rsum (fun c => if c_backprop c then match c_node c with Some q => F q (c_buffer c) | None => 0 end else 0)%R post).
    { intros pre post. revert pre. induction post as [|c post IH]; intros pre Ep; [reflexivity|]. cbn [length seq rsum].
      specialize (IH (pre ++ [c])). rewrite app_length in IH. cbn [length] in IH. rewrite Nat.add_1_r in IH. rewrite IH by (rewrite <- app_assoc; exact Ep). f_equal.
      assert (Ec : nth_error (inputs_of h n) (length pre) = Some c) by (rewrite Ep, nth_error_app2, Nat.sub_diag by lia; reflexivity).
      destruct (sound_closed g g_sound n Hn) as (nd & End & Hc). destruct (Hc c) as (q & Eq & Hq).
      { unfold inputs_of in Ec. rewrite End in Ec. eapply nth_error_In; exact Ec. }
      assert (A : arc n (length pre) q (c_buffer c) c) by (unfold arc; auto).
      replace (nth (length pre) (tangents h t n) []) with (t q (c_buffer c)).
      2:{ unfold tangents. erewrite nth_error_nth; [|apply map_nth_error, Ec]. now rewrite Eq. }
      rewrite Eq. destruct (c_backprop c) eqn:Hb.
      - destruct (Ra n _ q _ c Hn A Hb) as [H1 _]. rewrite H1 by (now apply l2_nodes). reflexivity.
      - destruct (is_input_at h q) eqn:Hiq.
        + apply dot_zeros. apply (moves_still (m_data M1 q (c_buffer c)) v0).
          eapply moves_ext; [|apply (t_moves q (c_buffer c)), l_nodes, Hq]. intros v. cbv beta.
          destruct (node_here q Hq) as (nq & Enq). pose proof Hiq as Hiq'. unfold is_input_at in Hiq'. rewrite Enq in Hiq'.
          apply (input_still layer h params v0 m l l_ordered); [|now apply l_nodes|exact Hiq].
          intros n' Hn' Hi'. apply l_nodes in Hn'. destruct (node_here n' Hn') as (nn & Enn). unfold is_input_at in Hi'. rewrite Enn in Hi'.
          destruct (g_plain n' nn Hn' Enn Hi') as [P1 P2]. unfold inputs_of. rewrite Enn. auto.
        + destruct (Ob (length pre) c Ec) as [O1 O2]; [rewrite (use_cases c q Eq Hiq), Hb; reflexivity|].
          unfold handed. rewrite O2, O1. apply dot_zero_l. }
    apply (X [] (inputs_of h n) eq_refl). }
  assert (E2 : rsum (fun n => rsum (F n) (seq 0 (buffers_of h n))) free_nodes =
     rsum (fun k => rsum (fun c => if c_backprop c then match c_node c with Some q => F q (c_buffer c) | None => 0 end else 0)%R (inputs_of h k)) (nodes g)).
  { transitivity (rsum (fun n => rsum (fun k => rsum (fun c => if ptr_eqb (c_node c) n && c_backprop c then F n (c_buffer c) else 0)%R (inputs_of h k)) (nodes g)) free_nodes).
    - apply rsum_ext. intros n Hn. apply Hf in Hn as [Hn Hi]. destruct (node_here n Hn) as (nd & End).
      pose proof Hi as Hi'. unfold is_input_at in Hi'. rewrite End in Hi'. pose proof (g_fed n nd Hn End Hi') as P.
      unfold buffers_of. rewrite End, <- (rsum_perm (F n) _ _ P), rsum_map, rsum_flat_map. apply rsum_ext. intros k Hk.
      unfold requests, inputs_of. destruct (nth_error h k) as [nk|]; [|reflexivity]. rewrite rsum_map, rsum_filter. reflexivity.
    - rewrite rsum_swap. apply rsum_ext. intros k Hk. rewrite rsum_swap. apply rsum_ext. intros c Hc.
      destruct (sound_closed g g_sound k Hk) as (nd & End & Hcl). unfold inputs_of in Hc. rewrite End in Hc. destruct (Hcl c Hc) as (q & Eq & Hq).
      rewrite Eq. cbn [ptr_eqb]. destruct (c_backprop c) eqn:Hb.
      + rewrite <- (rsum_single Nat.eqb Nat.eqb_eq (fun n => F n (c_buffer c)) q free_nodes).
        * apply rsum_ext. intros n _. now rewrite andb_true_r.
        * apply NoDup_filter, (sound_once g g_sound).
        * apply Hf. split; [exact Hq|]. apply In_nth_error in Hc as (i & Ec).
          apply (asked_not_input k i q (c_buffer c) c Hk); [|exact Hb]. unfold arc, inputs_of. rewrite End. auto.
      + apply rsum_zero. intros n _. now rewrite andb_false_r. }
  assert (E3 : rsum (fun k => rsum (fun c => if c_backprop c then match c_node c with Some q => F q (c_buffer c) | None => 0 end else 0)%R (inputs_of h k)) (nodes g) =
     rsum (fun k => rsum (fun c => if c_backprop c then match c_node c with Some q => F q (c_buffer c) | None => 0 end else 0)%R (inputs_of h k)) free_nodes).
  { unfold free_nodes. rewrite rsum_filter. apply rsum_ext. intros k Hk. destruct (is_input_at h k) eqn:Hi; [|reflexivity]. cbn [negb].
    destruct (node_here k Hk) as (nk & Enk). pose proof Hi as Hi'. unfold is_input_at in Hi'. rewrite Enk in Hi'.
    destruct (g_plain k nk Hk Enk Hi') as [P1 _]. unfold inputs_of. now rewrite Enk, P1. }
  pose proof (rsum_ext _ _ free_nodes E1) as T. rewrite !rsum_plus, E2, E3 in T. lra.
Qed.
End Backward.

(** Proofs for C75, second part: how everything in the network moves with the parameters. *)
From Coq Require Import Reals Permutation Lra.
From Verif Require Import Base BaseFacts Num RealNum Graph_Model Graph_Spec Backprop_Model Backprop_Spec Backprop_Proofs.
Local Open Scope list_scope.

Section Velocities.
Variable layer : nat -> behaviour R.
Variable h : list node.
Variable enabled : nat -> bool.
Variable params : R -> nat -> list (list R).
Variable v0 : R.
Variable dp : nat -> list (list R).
Variable m : memory R.
Variable l : list nat.
Hypothesis l_ordered : ordered h l.
Hypothesis l_params : forall n, In n l -> all_move (fun v => params v n) v0 (dp n).
Hypothesis l_closed : forall n c, In n l -> In c (inputs_of h n) -> exists q, c_node c = Some q /\ In q l.
Hypothesis l_inputs : forall n, In n l -> is_input_at h n = true -> inputs_of h n = [] /\ forall v, params v n = [].
Definition after (v : R) : memory R := fold_left (forward_node layer (params v) h) l m.
Hypothesis l_layers : forall n, In n l ->
  differentiates (layer n) (enabled n) (buffers_of h n) (map (use_of h) (inputs_of h n)) (input_data h (after v0) n) (params v0 n).

Definition tangents (t : nat -> nat -> list R) (n : nat) : list (list R) :=
  map (fun c => match c_node c with Some q => t q (c_buffer c) | None => [] end) (inputs_of h n).

(** The account of one layer, with the velocities [t] of the whole network. *)
Definition account (t : nat -> nat -> list R) (d : R) (n : nat) : Prop :=
  let x0 := input_data h (after v0) n in
  let dy := map (t n) (seq 0 (buffers_of h n)) in
  derivable_pt_lim (fun v => b_loss (layer n) (input_data h (after v) n) (params v n)) v0 d /\
  forall delta, shape delta = shape dy ->
    let early := b_early (layer n) x0 (params v0 n) in
    let back := fst (b_backward (layer n) (enabled n) x0 (params v0 n) delta) in
    let grads := snd (b_backward (layer n) (enabled n) x0 (params v0 n) delta) in
    (dots delta dy + d =
     rsum (fun i => dot (or_nothing (handed early back i)) (nth i (tangents t n) [])) (seq 0 (length (inputs_of h n))) + dots grads (dp n))%R /\
    (forall i c, nth_error (inputs_of h n) i = Some c -> use_of h c = Asked ->
       exists dl, handed early back i = Some dl /\ length dl = length (nth i x0 [])) /\
    (forall i c, nth_error (inputs_of h n) i = Some c -> use_of h c = Observed -> nth i early None = None /\ nth i back None = None).

Lemma account_ext t t' d n : (forall b, t' n b = t n b) ->
  (forall c q, In c (inputs_of h n) -> c_node c = Some q -> t' q (c_buffer c) = t q (c_buffer c)) ->
  account t d n -> account t' d n.
Proof.
  intros E1 E2. unfold account.
  rewrite (map_ext (t' n) (t n) E1).
  replace (tangents t' n) with (tangents t n); [auto|]. apply map_ext_in. intros c Hc.
  destruct (c_node c) as [q|] eqn:Eq; [|reflexivity]. symmetry. now apply E2.
Qed.

(** What comes from the data set does not move. *)
Lemma input_still q v b : In q l -> is_input_at h q = true -> m_data (after v) q b = m_data (after v0) q b.
Proof.
  intros Hq Hi. destruct (l_inputs q Hq Hi) as [E1 E2]. unfold after.
  pose proof (forward_equations layer h (params v) l m q l_ordered Hq b) as F1.
  pose proof (forward_equations layer h (params v0) l m q l_ordered Hq b) as F2. cbv zeta in F1, F2. rewrite F1, F2.
  unfold input_data. rewrite E1, !E2. reflexivity.
Qed.

Lemma velocities_prefix pre post : l = pre ++ post ->
  exists t d, (forall n b, In n pre -> moves (fun v => m_data (after v) n b) v0 (t n b)) /\
    forall n, In n pre -> account t (d n) n.
Proof.
  revert post. induction pre as [|n pre IH] using rev_ind; intros post El.
  { exists (fun _ _ => []), (fun _ => 0%R). split; intros n; [intros b|]; intros []. }
  rewrite <- app_assoc in El. cbn [app] in El. destruct (IH (n :: post) El) as (t & d & H1 & H2).
  assert (Hn : In n l) by (rewrite El; apply in_or_app; right; now left).
  destruct l_ordered as [Nd Ho].
  assert (Hpre : forall k c q, In k (n :: pre) -> In c (inputs_of h k) -> c_node c = Some q -> In q pre).
  { intros k c q Hk Hc Eq. destruct Hk as [<-|Hk].
    - apply (before_nodup q n l pre post Nd (Ho n c q Hn Hc Eq) El).
    - apply in_split in Hk as (a & b & Ep).
      assert (El' : l = a ++ k :: (b ++ n :: post)) by (rewrite El, Ep, <- app_assoc; reflexivity).
      assert (Hkl : In k l) by (rewrite El'; apply in_or_app; right; now left).
      destruct (before_nodup q k l a _ Nd (Ho k c q Hkl Hc Eq) El') as [Hq _]. rewrite Ep. apply in_or_app. now left. }
  assert (Nn : ~ In n pre) by (rewrite El in Nd; apply NoDup_remove_2 in Nd; intros ?; apply Nd, in_or_app; auto).
  set (x := fun v => input_data h (after v) n).
  assert (Mx : all_move x v0 (tangents t n)).
  { split; [intros v; unfold x, input_data, tangents; now rewrite !map_length|]. intros i Hi.
    unfold tangents in Hi. rewrite map_length in Hi. destruct (nth_error_lt _ Hi) as (c & Ec).
    pose proof (nth_error_In _ _ Ec) as Hc. destruct (l_closed n c Hn Hc) as (q & Eq & Hq).
    replace (nth i (tangents t n) []) with (t q (c_buffer c)).
    2:{ unfold tangents. erewrite nth_error_nth; [|apply map_nth_error, Ec]. now rewrite Eq. }
    eapply moves_ext; [|apply (H1 q (c_buffer c)), (Hpre n c q (or_introl eq_refl) Hc Eq)].
    intros v. cbv beta. unfold x. symmetry. now apply nth_input_data. }
  destruct (l_layers n Hn x (fun v => params v n) v0 (tangents t n) (dp n) eq_refl eq_refl Mx (l_params n Hn)) as (dy & dl & Ly & My & Dl & Acc).
  { intros i v Ei. rewrite nth_error_map in Ei. destruct (nth_error (inputs_of h n) i) as [c|] eqn:Ec; [|discriminate].
    cbn [option_map] in Ei. pose proof (nth_error_In _ _ Ec) as Hc. destruct (l_closed n c Hn Hc) as (q & Eq & Hq).
    unfold x. rewrite !(nth_input_data h _ n i c q Ec Eq). apply input_still; [exact Hq|].
    unfold use_of in Ei. rewrite Eq in Ei. destruct (c_backprop c); [discriminate|]. destruct (is_input_at h q); [reflexivity|discriminate]. }
  set (t' := fun k b => if k =? n then (if b <? buffers_of h n then nth b dy [] else repeat 0%R (length (m_data m n b))) else t k b).
  assert (Et : forall k b, k <> n -> t' k b = t k b) by (intros k b Hk; unfold t'; now rewrite (proj2 (Nat.eqb_neq _ _) Hk)).
  assert (Ety : map (t' n) (seq 0 (buffers_of h n)) = dy).
  { rewrite <- Ly. apply nth_ext with (d := []) (d' := []); [now rewrite map_length, seq_length|]. intros i Hi.
    rewrite map_length, seq_length in Hi. rewrite (nth_indep _ [] (t' n 0)) by (now rewrite map_length, seq_length).
    rewrite map_nth, seq_nth by exact Hi. unfold t'. rewrite Nat.eqb_refl, <- Ly. cbn [plus]. now rewrite (proj2 (Nat.ltb_lt _ _) Hi). }
  exists t', (fun k => if k =? n then dl else d k). split.
  - intros k b Hk. apply in_app_or in Hk as [Hk|[<-|[]]].
    + rewrite Et by (intros ->; contradiction). now apply H1.
    + assert (E : forall v, m_data (after v) n b = if b <? buffers_of h n then nth b (b_outputs (layer n) (x v) (params v n)) [] else m_data m n b).
      { intros v. unfold after at 1. pose proof (forward_equations layer h (params v) l m n l_ordered Hn b) as F. cbv zeta in F. rewrite F.
        fold (after v). fold (x v). destruct My as [My _]. now rewrite (My v), Ly. }
      eapply moves_ext; [intros v; symmetry; apply E|]. unfold t'. rewrite Nat.eqb_refl.
      destruct (b <? buffers_of h n) eqn:Eb; [|apply moves_zero]. apply Nat.ltb_lt in Eb. destruct My as [_ My]. apply My. now rewrite Ly.
  - intros k Hk. apply in_app_or in Hk as [Hk|[<-|[]]].
    + assert (Hkn : k <> n) by (intros ->; contradiction). rewrite (proj2 (Nat.eqb_neq _ _) Hkn).
      apply (account_ext t); [intros b; now apply Et| |now apply H2]. intros c q Hc Eq. apply Et. intros ->.
      apply Nn. apply (Hpre k c n (or_intror Hk) Hc Eq).
    + rewrite Nat.eqb_refl. unfold account. rewrite Ety. split; [exact Dl|]. intros delta Hd.
      replace (tangents t' n) with (tangents t n).
      2:{ apply map_ext_in. intros c Hc. destruct (c_node c) as [q|] eqn:Eq; [|reflexivity]. symmetry. apply Et. intros ->.
          apply Nn. apply (Hpre n c n (or_introl eq_refl) Hc Eq). }
      destruct (Acc delta Hd) as (A1 & A2 & A3). split; [|split].
      * rewrite map_length in A1. exact A1.
      * intros i c Ec Eu. apply A2. rewrite nth_error_map, Ec. cbn. now rewrite Eu.
      * intros i c Ec Eu. apply A3. rewrite nth_error_map, Ec. cbn. now rewrite Eu.
Qed.

Lemma velocities : exists t d, (forall n b, In n l -> moves (fun v => m_data (after v) n b) v0 (t n b)) /\
  forall n, In n l -> account t (d n) n.
Proof. apply (velocities_prefix l []). now rewrite app_nil_r. Qed.
End Velocities.

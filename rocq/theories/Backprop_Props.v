(** C75: back-propagation through a whole network computes the gradient of the loss. *)
From Coq Require Import Reals Relations Permutation Lra.
From Verif Require Import Base BaseFacts Num RealNum Graph_Model Graph_Spec Dfs_Proofs Graph_Proofs Graph_Props Backprop_Model Backprop_Spec Backprop_Proofs
  BackpropForward_Proofs BackpropBackward_Proofs BackpropBuilt_Proofs.
Local Open Scope list_scope.

(** The parameter gradients after a backward pass are those the layers have computed. *)
Lemma backward_grads (layer : nat -> behaviour R) params h (en : nat -> bool) (l : list nat) : forall (M : memory R) n, NoDup l -> In n l ->
  exists deltas, m_grad (fold_left (backward_node layer params h) (map (fun n => (n, en n)) l) M) n =
    snd (b_backward (layer n) (en n) (input_data h M n) (params n) deltas).
Proof.
  assert (Out : forall l (M : memory R) n, ~ In n l -> m_grad (fold_left (backward_node layer params h) (map (fun n => (n, en n)) l) M) n = m_grad M n).
  { clear. induction l as [|k l IH]; intros M n Hn; [reflexivity|]. cbn [map fold_left]. rewrite IH by (intros H; apply Hn; now right).
    cbn [backward_node m_grad fst snd]. destruct (Nat.eqb_spec n k) as [->|_]; [exfalso; apply Hn; now left|reflexivity]. }
  induction l as [|k l IH]; intros M n Nd Hn; [destruct Hn|]. inversion Nd as [|? ? Nk Nl]; subst. cbn [map fold_left]. destruct Hn as [->|Hn].
  - rewrite Out by exact Nk. cbn [backward_node m_grad fst snd]. rewrite Nat.eqb_refl. eexists. reflexivity.
  - destruct (IH (backward_node layer params h M (k, en k)) n Nl Hn) as (ds & E). exists ds. rewrite E. reflexivity.
Qed.

Lemma pass_gradient g (layer : nat -> behaviour R) (params : R -> nat -> list (list R)) v0 dp fuel ff bp m :
  sound g -> acyclic (reads (heap g)) (nodes g) -> length (nodes g) < fuel ->
  fed g -> losses g layer -> plain_inputs g params ->
  (forall n, In n (nodes g) -> all_move (fun v => params v n) v0 (dp n)) ->
  (forall ff1 m1, feed_forward_memory layer (params v0) fuel g ff m = Ok (ff1, m1) -> forall n, In n (nodes g) ->
     differentiates (layer n) (do_backprop (heap g) n) (buffers_of (heap g) n) (map (use_of (heap g)) (inputs_of (heap g) n))
       (input_data (heap g) m1 n) (params v0 n)) ->
  exists (loss : R -> R) ff' bp' m',
    (forall v, exists st, gradient_pass R_num layer (params v) fuel g ff bp m = Ok (loss v, st)) /\
    gradient_pass R_num layer (params v0) fuel g ff bp m = Ok (loss v0, (ff', bp', m')) /\
    derivable_pt_lim loss v0 (rsum (fun n => dots (m_grad m' n) (dp n)) (nodes g)) /\
    exists m1, feed_forward_memory layer (params v0) fuel g ff m = Ok (ff', m1) /\ forall n, In n (nodes g) ->
      exists deltas, m_grad m' n = snd (b_backward (layer n) (do_backprop (heap g) n) (input_data (heap g) m1 n) (params v0 n) deltas) /\
        (is_input_at (heap g) n = false -> shape deltas = map (fun b => length (m_data m1 n b)) (seq 0 (buffers_of (heap g) n))).
Proof.
  intros S Ac Hf Fd [Lo1 Lo2] Pl Mv Df.
  destruct (C17_feed_forward g ff fuel (sound_closed g S) Ac Hf) as (ff1 & l & Ef & Nd & Hl & Bf).
  assert (Or : ordered (heap g) l).
  { split; [exact Nd|]. intros n c q Hn Hc Eq. apply Bf; [now apply Hl|]. unfold inputs_of in Hc.
    destruct (nth_error (heap g) n) as [nd|] eqn:E; [|destruct Hc]. exists nd, c. auto. }
  assert (Efm : forall v, feed_forward_memory layer (params v) fuel g ff m = Ok (ff1, after layer (heap g) params m l v)).
  { intros v. unfold feed_forward_memory. rewrite Ef. reflexivity. }
  destruct (backward_spec (fun n => (n, do_backprop (heap g) n)) g fuel (clear_flags true (nodes g) bp) (sound_closed g S) (sound_consistent g S) Ac Hf)
    as (bp1 & l2 & Eb & Nd2 & Hl2 & Bf2).
  { intros x Hx Hfl. apply clear_flags_out in Hfl. contradiction. }
  assert (Ebm : forall v M, back_propagate_memory layer (params v) fuel g bp M =
    Ok (bp1, fold_left (backward_node layer (params v) (heap g)) (map (fun n => (n, do_backprop (heap g) n)) l2) M)).
  { intros v M. unfold back_propagate_memory, back_propagate, back_propagate_nodes. rewrite Eb. reflexivity. }
  assert (Lcl : forall n c, In n l -> In c (inputs_of (heap g) n) -> exists q, c_node c = Some q /\ In q l).
  { intros n c Hn Hc. apply Hl in Hn. destruct (sound_closed g S n Hn) as (nd & E & H). unfold inputs_of in Hc. rewrite E in Hc.
    destruct (H c Hc) as (q & Eq & Hq). exists q. split; [exact Eq|now apply Hl]. }
  assert (Lin : forall n, In n l -> is_input_at (heap g) n = true -> inputs_of (heap g) n = [] /\ forall v, params v n = []).
  { intros n Hn Hi. apply Hl in Hn. destruct (sound_closed g S n Hn) as (nd & E & _). unfold is_input_at in Hi. rewrite E in Hi.
    destruct (Pl n nd Hn E Hi) as [P1 P2]. unfold inputs_of. rewrite E. auto. }
  destruct (velocities layer (heap g) (do_backprop (heap g)) params v0 dp m l Or) as (t & d & T & A); auto.
  { intros n Hn. apply Mv. now apply Hl. }
  { intros n Hn. apply (Df ff1 _ (Efm v0)). now apply Hl. }
  set (loss := fun v => aggregate_loss R_num layer (params v) g (after layer (heap g) params m l v)).
  exists loss, ff1, bp1, (final g layer params v0 m l l2).
  assert (Ep : forall v, gradient_pass R_num layer (params v) fuel g ff bp m = Ok (loss v, (ff1, bp1,
     fold_left (backward_node layer (params v) (heap g)) (map (fun n => (n, do_backprop (heap g) n)) l2) (after layer (heap g) params m l v)))).
  { intros v. unfold gradient_pass. rewrite Efm. cbn [bind snd fst]. rewrite Ebm. reflexivity. }
  split; [intros v; eexists; apply Ep|]. split; [apply Ep|]. split.
  2:{ exists (after layer (heap g) params m l v0). split; [apply Efm|]. intros n Hn. destruct (is_input_at (heap g) n) eqn:Hi.
      - destruct (backward_grads layer (params v0) (heap g) (do_backprop (heap g)) l2 (after layer (heap g) params m l v0) n Nd2 (proj2 (Hl2 n) Hn)) as (ds & E).
        exists ds. split; [exact E|discriminate].
      - destruct (backward_reached g S Fd layer params v0 dp m l Or Hl Pl t d T A l2 Nd2 Hl2 Bf2) as [_ Rn _].
        destruct (Rn n (proj2 (Hl2 n) Hn) Hi) as [Rs Rg]. exists (deltas_of g (final g layer params v0 m l l2) n). split; [exact Rg|]. intros _.
        unfold right_shape in Rs. etransitivity; [exact Rs|]. unfold shape. rewrite map_map. apply map_ext. intros b.
        destruct (T n b (proj2 (Hl n) Hn)) as [Tl _]. symmetry. apply (Tl v0). }
  set (ln := fun n v => b_loss (layer n) (input_data (heap g) (after layer (heap g) params m l v) n) (params v n)).
  assert (Dn : forall n, In n (nodes g) -> derivable_pt_lim (ln n) v0 (d n)) by (intros n Hn; apply (A n), Hl, Hn).
  assert (Dz : forall n, In n (nodes g) -> (is_input_at (heap g) n = true \/ node_has (layer_has k_loss) (heap g) n = false) -> d n = 0%R).
  { intros n Hn Hz. apply (derive_unique (ln n) v0); [now apply Dn|]. apply (derive_ext (fun _ => ln n v0)); [|apply derive_const].
    intros v. unfold ln. destruct Hz as [Hz|Hz]; [|now rewrite !(Lo2 n Hn Hz)].
    destruct (Lin n (proj2 (Hl n) Hn) Hz) as [P1 P2]. unfold input_data. now rewrite P1, !P2. }
  assert (El : forall v, rsum (fun n => ln n v) (loss_nodes g) = loss v).
  { intros v. unfold loss, aggregate_loss. rewrite (fold_left_rsum (fun n => ln n v)). cbn. ring. }
  apply (derive_ext _ _ _ _ El).
  replace (rsum (fun n => dots (m_grad (final g layer params v0 m l l2) n) (dp n)) (nodes g)) with (rsum d (loss_nodes g)).
  - apply (rsum_derive ln). intros n Hn. rewrite Lo1 in Hn. apply filter_In in Hn as [Hn _]. now apply Dn.
  - rewrite Lo1, rsum_filter. transitivity (rsum d (nodes g)).
    { apply rsum_ext. intros n Hn. destruct (node_has _ _ _) eqn:E; [reflexivity|]. symmetry. apply Dz; auto. }
    transitivity (rsum d (free_nodes g)).
    { unfold free_nodes. rewrite rsum_filter. apply rsum_ext. intros n Hn. destruct (is_input_at (heap g) n) eqn:E; cbn [negb]; [|reflexivity]. apply Dz; auto. }
    rewrite (balance g S Fd layer params v0 dp m l Or Hl Pl t d T A l2 Nd2 Hl2 Bf2).
    unfold free_nodes. rewrite rsum_filter. apply rsum_ext. intros n Hn. destruct (is_input_at (heap g) n) eqn:E; cbn [negb]; [|reflexivity].
    destruct (Lin n (proj2 (Hl n) Hn) E) as [_ P2]. destruct (Mv n Hn) as [L _]. specialize (L v0). rewrite P2 in L.
    destruct (dp n); [reflexivity|discriminate].
Qed.
(** A forward and a backward pass through any network: the passes end normally, whatever
    flags, data and gradients earlier passes left in memory; the loss as a function of the
    parameters is differentiable; and the parameter gradients the passes leave in memory
    are its gradient: if the parameters move along any curve, the loss changes at the rate
    <gradients, velocity of the parameters>. *)
Theorem C75_gradient g (layer : nat -> behaviour R) (params : R -> nat -> list (list R)) v0 dp fuel ff bp m :
  sound g -> acyclic (reads (heap g)) (nodes g) -> length (nodes g) < fuel ->
  fed g -> losses g layer -> plain_inputs g params ->
  (forall n, In n (nodes g) -> all_move (fun v => params v n) v0 (dp n)) ->
  (forall ff1 m1, feed_forward_memory layer (params v0) fuel g ff m = Ok (ff1, m1) -> forall n, In n (nodes g) ->
     differentiates (layer n) (do_backprop (heap g) n) (buffers_of (heap g) n) (map (use_of (heap g)) (inputs_of (heap g) n))
       (input_data (heap g) m1 n) (params v0 n)) ->
  exists (loss : R -> R) ff' bp' m',
    (forall v, exists st, gradient_pass R_num layer (params v) fuel g ff bp m = Ok (loss v, st)) /\
    gradient_pass R_num layer (params v0) fuel g ff bp m = Ok (loss v0, (ff', bp', m')) /\
    derivable_pt_lim loss v0 (rsum (fun n => dots (m_grad m' n) (dp n)) (nodes g)).
Proof.
  intros S Ac Hf Fd Lo Pl Mv Df. destruct (pass_gradient g layer params v0 dp fuel ff bp m S Ac Hf Fd Lo Pl Mv Df) as (loss & ff' & bp' & m' & H1 & H2 & H3 & _).
  exists loss, ff', bp', m'. auto.
Qed.
Print Assumptions C75_gradient.

(** In particular every number in the gradient of a parameter is the derivative of the loss
    with respect to this number, all others being kept. *)
Theorem C75_each_parameter g (layer : nat -> behaviour R) (theta : nat -> list (list R)) n p e fuel ff bp m :
  sound g -> acyclic (reads (heap g)) (nodes g) -> length (nodes g) < fuel ->
  fed g -> losses g layer -> plain_inputs g (fun _ => theta) ->
  (forall ff1 m1, feed_forward_memory layer theta fuel g ff m = Ok (ff1, m1) -> forall n, In n (nodes g) ->
     differentiates (layer n) (do_backprop (heap g) n) (buffers_of (heap g) n) (map (use_of (heap g)) (inputs_of (heap g) n))
       (input_data (heap g) m1 n) (theta n)) ->
  In n (nodes g) -> p < length (theta n) -> e < length (nth p (theta n) []) ->
  exists (loss : R -> R) l ff' bp' m',
    (forall v, exists st, gradient_pass R_num layer (set_param theta n p e v) fuel g ff bp m = Ok (loss v, st)) /\
    gradient_pass R_num layer theta fuel g ff bp m = Ok (l, (ff', bp', m')) /\
    derivable_pt_lim loss (nth e (nth p (theta n) []) 0%R) (nth e (nth p (m_grad m' n) []) 0%R).
Proof.
  intros S Ac Hf Fd Lo Pl Df Hn Hp He. set (v0 := nth e (nth p (theta n) []) 0%R).
  assert (E0 : forall k, set_param theta n p e v0 k = theta k).
  { intros k. unfold set_param. destruct (Nat.eqb_spec k n) as [->|_]; [|reflexivity].
    apply nth_ext with (d := []) (d' := []); rewrite upd_length; [reflexivity|]. intros i Hi. rewrite nth_upd.
    destruct (Nat.eqb_spec i p) as [->|_]; [|reflexivity]. rewrite (proj2 (Nat.ltb_lt _ _) Hp). cbn [andb].
    apply nth_ext with (d := 0%R) (d' := 0%R); rewrite upd_length; [reflexivity|]. intros j Hj. rewrite nth_upd.
    destruct (Nat.eqb_spec j e) as [->|_]; [|reflexivity]. now rewrite (proj2 (Nat.ltb_lt _ _) He). }
  set (dp := fun k => if k =? n then unit_in (theta n) p e else map (fun x => repeat 0%R (length x)) (theta k)).
  assert (Ef : feed_forward_memory layer (set_param theta n p e v0) fuel g ff m = feed_forward_memory layer theta fuel g ff m).
  { unfold feed_forward_memory. destruct (feed_forward fuel g ff) as [r| |]; cbn [bind]; [|reflexivity..]. f_equal. f_equal.
    generalize m. induction (snd r) as [|x l IH]; intros M; [reflexivity|]. cbn [fold_left]. unfold forward_node at 2. rewrite (E0 x). apply IH. }
  assert (Eg : gradient_pass R_num layer (set_param theta n p e v0) fuel g ff bp m = gradient_pass R_num layer theta fuel g ff bp m).
  { unfold gradient_pass. rewrite Ef. destruct (feed_forward_memory layer theta fuel g ff m) as [r1| |]; cbn [bind]; [|reflexivity..].
    assert (Eb : back_propagate_memory layer (set_param theta n p e v0) fuel g bp (snd r1) = back_propagate_memory layer theta fuel g bp (snd r1)).
    { unfold back_propagate_memory. destruct (back_propagate fuel g bp) as [r| |]; cbn [bind]; [|reflexivity..]. f_equal. f_equal.
      generalize (snd r1). induction (snd r) as [|x l IH]; intros M; [reflexivity|]. cbn [fold_left]. unfold backward_node at 2. rewrite (E0 (fst x)). apply IH. }
    rewrite Eb. destruct (back_propagate_memory layer theta fuel g bp (snd r1)) as [r2| |]; cbn [bind]; [|reflexivity..]. f_equal. f_equal.
    unfold aggregate_loss. generalize (n0 R_num). induction (loss_nodes g) as [|x l IH]; intros acc; [reflexivity|]. cbn [fold_left]. rewrite (E0 x). apply IH. }
  destruct (C75_gradient g layer (set_param theta n p e) v0 dp fuel ff bp m S Ac Hf Fd Lo) as (loss & ff' & bp' & m' & H1 & H2 & H3).
  - intros k nd Hk Ek Hi. destruct (Pl k nd Hk Ek Hi) as [P1 P2]. split; [exact P1|]. intros v. specialize (P2 0%R). cbv beta in P2.
    unfold set_param. destruct (Nat.eqb_spec k n) as [->|_]; [|exact P2]. rewrite P2 in Hp. cbn in Hp. lia.
  - intros k _. unfold dp, set_param. destruct (Nat.eqb_spec k n) as [->|_]; [now apply all_move_one|apply all_move_const].
  - intros ff1 m1 E1 k Hk. rewrite Ef in E1. rewrite E0. now apply (Df ff1 m1 E1).
  - exists loss, (loss v0), ff', bp', m'. split; [exact H1|]. rewrite Eg in H2. split; [exact H2|].
    replace (nth e (nth p (m_grad m' n) []) 0%R) with (rsum (fun k => dots (m_grad m' k) (dp k)) (nodes g)); [exact H3|].
    rewrite <- (dots_unit (m_grad m' n) (theta n) p e Hp He).
    rewrite <- (rsum_single Nat.eqb Nat.eqb_eq (fun k => dots (m_grad m' k) (unit_in (theta n) p e)) n (nodes g) (sound_once g S) Hn).
    apply rsum_ext. intros k _. unfold dp. rewrite (Nat.eqb_sym n k). destruct (Nat.eqb_spec k n) as [->|_]; [reflexivity|]. apply dots_zero.
Qed.

(** The network of a program: nodes added with AddNode, then Initialize.  Initialize inserts
    the accumulation nodes that hand every output exactly one gradient, so the parameter
    gradients are right for every acyclic network in which each layer's output is used. *)
Theorem C75_built h0 history (layer : nat -> behaviour R) (params : R -> nat -> list (list R)) v0 dp fuel ff bp m :
  NoDup history -> closed h0 history -> (forall n nd, In n history -> nth_error h0 n = Some nd -> n_layer nd <> None) ->
  (forall n nd, nth_error h0 n = Some nd -> n_backprop nd = []) -> acyclic (reads h0) history -> well_used h0 history ->
  exists g0 g, add_nodes (new_graph h0) (map Some history) = Ok g0 /\ insert_sweeps 2 g0 = Ok g /\ incl history (nodes g) /\
    (length (nodes g) < fuel ->
     (forall n, In n history -> node_has (layer_has k_loss) h0 n = false -> forall x p, b_loss (layer n) x p = 0%R) ->
     (forall n v, In n history -> is_input_at h0 n = true -> params v n = []) ->
     (forall n, In n history -> all_move (fun v => params v n) v0 (dp n)) ->
     (forall ff1 m1, feed_forward_memory layer (params v0) fuel g ff m = Ok (ff1, m1) ->
        (forall n, In n history ->
           differentiates (layer n) (do_backprop (heap g) n) (buffers_of (heap g) n) (map (use_of (heap g)) (inputs_of (heap g) n))
             (input_data (heap g) m1 n) (params v0 n)) /\
        (forall x, In x (nodes g) -> ~ In x history -> (forall v, params v x = []) /\
           exists samples eps old, layer x = accumulation_behaviour R_num (buffers_of (heap g) x) samples eps old /\
             length old = samples * eps /\ shape (input_data (heap g) m1 x) = [samples * eps])) ->
     exists (loss : R -> R) ff' bp' m',
       (forall v, exists st, gradient_pass R_num layer (params v) fuel g ff bp m = Ok (loss v, st)) /\
       gradient_pass R_num layer (params v0) fuel g ff bp m = Ok (loss v0, (ff', bp', m')) /\
       derivable_pt_lim loss v0 (rsum (fun n => dots (m_grad m' n) (dp n)) history)).
Proof.
  intros Nd Cl Ly Bp Ac Wu. destruct (built_network h0 history Nd Cl Ly Bp Ac Wu) as (g0 & g & extra & E0 & E & En & S & Ag & Fd & Ll & Pi & Px).
  exists g0, g. split; [exact E0|]. split; [exact E|]. split; [intros x Hx; rewrite En; apply in_or_app; now left|].
  intros Hf Lo Pi' Mv Df.
  destruct (C17_feed_forward g ff fuel (sound_closed g S) Ag Hf) as (ffx & lx & Efx & _).
  assert (Ex : exists ff1 m1, feed_forward_memory layer (params v0) fuel g ff m = Ok (ff1, m1)).
  { unfold feed_forward_memory. rewrite Efx. cbn [bind]. eauto. }
  destruct Ex as (ff1 & m1 & E1). destruct (Df ff1 m1 E1) as [D1 D2].
  destruct (C19_accumulation_nodes g0 2) as (g' & Eg' & _ & _ & _ & _ & Kp & _); [|lia|].
  { destruct (C21_built h0 history Nd Cl Ly Bp) as (g0' & E0' & _ & S0 & _). congruence. }
  assert (g' = g) by congruence. subst g'.
  destruct (C21_built h0 history Nd Cl Ly Bp) as (g0' & E0' & En0 & _ & _). assert (g0' = g0) by congruence. subst g0'.
  destruct (C75_gradient g layer params v0 (fun n => if existsb (Nat.eqb n) history then dp n else []) fuel ff bp m S Ag Hf Fd)
    as (loss & ff' & bp' & m' & H1 & H2 & H3).
  - split; [exact Ll|]. intros n Hn Hk x p. rewrite En in Hn. apply in_app_or in Hn as [Hn|Hn].
    + apply Lo; [exact Hn|]. destruct (kinds_kept h0 history g0 g n Nd Cl Ly Bp E0 E Hn) as [K1 _]. congruence.
    + destruct (Px n Hn) as [Nh _]. destruct (D2 n) as (_ & s & e & old & El & _); [rewrite En; apply in_or_app; now right|exact Nh|].
      rewrite El. reflexivity.
  - intros n nd Hn End Hi. destruct (Pi n nd Hn End Hi) as [Hh Hin]. split; [exact Hin|]. intros v. apply Pi'; [exact Hh|].
    destruct (kinds_kept h0 history g0 g n Nd Cl Ly Bp E0 E Hh) as [_ K2]. rewrite <- K2. unfold is_input_at. now rewrite End.
  - intros n Hn. destruct (existsb (Nat.eqb n) history) eqn:Eb.
    + apply existsb_nat in Eb. now apply Mv.
    + apply existsb_nat_false in Eb. destruct (D2 n Hn Eb) as [P _]. split; [intros v; now rewrite P|]. intros i Hi. cbn in Hi. lia.
  - intros ff2 m2 E2 n Hn. assert (m2 = m1) by congruence. subst m2. destruct (existsb (Nat.eqb n) history) eqn:Eb.
    + apply existsb_nat in Eb. now apply D1.
    + apply existsb_nat_false in Eb. destruct (D2 n Hn Eb) as (P & s & e & old & El & Lo' & Sh). rewrite En in Hn. apply in_app_or in Hn as [Hn|Hn]; [contradiction|].
      destruct (Px n Hn) as [_ (nd & q & End & _ & Ein)]. rewrite El, P.
      assert (Eu : map (use_of (heap g)) (inputs_of (heap g) n) = [Asked]) by (unfold inputs_of; rewrite End, Ein; reflexivity).
      assert (Ed : do_backprop (heap g) n = true) by (unfold do_backprop; rewrite End, Ein; reflexivity).
      rewrite Eu, Ed. destruct (input_data (heap g) m1 n) as [|x0 [|x1 xs]] eqn:Ei; try discriminate.
      cbn in Sh. injection Sh as Sh. now apply accumulation_differentiates.
  - exists loss, ff', bp', m'. split; [exact H1|]. split; [exact H2|]. rewrite En, rsum_app in H3.
    replace (rsum (fun n => dots (m_grad m' n) (dp n)) history) with
      (rsum (fun n => dots (m_grad m' n) (if existsb (Nat.eqb n) history then dp n else [])) history +
       rsum (fun n => dots (m_grad m' n) (if existsb (Nat.eqb n) history then dp n else [])) extra)%R; [exact H3|].
    rewrite (rsum_zero _ extra), Rplus_0_r.
    + apply rsum_ext. intros n Hn. now rewrite (proj2 (existsb_nat n history) Hn).
    + intros n Hn. destruct (Px n Hn) as [Nh _]. rewrite (proj2 (existsb_nat_false n history) Nh). reflexivity.
Qed.
Print Assumptions C75_each_parameter.
Print Assumptions C75_built.

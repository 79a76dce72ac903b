(** Proofs for C75, fourth part: networks built with AddNode and Initialize. *)
From Coq Require Import Reals Relations Permutation Lra.
From Verif Require Import Base BaseFacts Num RealNum Graph_Model Graph_Spec Graph_Proofs GraphAdd_Proofs GraphAccum_Proofs Graph_Props
  Accumulate_Model Backprop_Model Backprop_Spec Backprop_Proofs BackpropForward_Proofs BackpropBackward_Proofs.
Local Open Scope list_scope.

(** Every output of every layer gets exactly one gradient after Initialize. *)
Lemma fed_built g0 g : sound g0 -> insert_sweeps 2 g0 = Ok g ->
  (forall n nd, In n (nodes g0) -> nth_error (heap g0) n = Some nd -> n_is_input nd = false -> is_accumulation (heap g0) n = false /\
     ((n_buffers nd = 1 /\ n_backprop nd <> [] /\ forall bc, In bc (n_backprop nd) -> b_buffer bc = 0) \/ (n_buffers nd = 0 /\ n_backprop nd = []))) ->
  fed g.
Proof.
  intros S0 E H. destruct (C19_accumulation_nodes g0 2 S0 (le_n 2)) as (g' & E' & _ & A & C & (extra & En & Hx) & Kp & _ & S & _).
  assert (g' = g) by congruence. subst g'. intros n nd Hn End Hi. rewrite En in Hn. apply in_app_or in Hn as [Hn|Hn].
  - destruct (nth_error_lt (heap g0) (valid_node g0 n S0 Hn)) as (m0 & E0).
    destruct (Kp n m0 Hn E0) as (m & Em & _ & _ & _ & Ebuf & Ein & _ & Ebp). assert (m = nd) by congruence. subst m.
    pose proof (sound_consistent g S n nd End) as P. apply (Permutation_map b_buffer) in P. apply Permutation_sym in P.
    eapply Permutation_trans; [exact P|]. rewrite Ein in Hi. destruct (H n m0 Hn E0 Hi) as [Ha Hb]. rewrite Ebuf.
    destruct (shared (heap g0) n) eqn:Es.
    + destruct (A n Hn Es) as (ga & _ & _ & _ & (nd' & End' & Hbp) & _). assert (nd' = nd) by congruence. subst nd'. rewrite Hbp.
      destruct Hb as [(-> & _)|(_ & Hb)]; [reflexivity|]. exfalso. unfold shared, backprop_count in Es. rewrite E0, Hb in Es. discriminate.
    + rewrite (Ebp eq_refl). destruct Hb as [(-> & Hne & Hz)|(-> & ->)]; [|reflexivity].
      unfold shared, backprop_count in Es. rewrite E0, Ha in Es. cbn [negb] in Es. rewrite andb_true_r in Es. apply Nat.ltb_ge in Es.
      destruct (n_backprop m0) as [|b1 [|b2 bs]]; [contradiction| |cbn in Es; lia]. cbn [map]. rewrite (Hz b1 (or_introl eq_refl)). reflexivity.
  - destruct (Hx n Hn) as (_ & n0 & _ & _ & (_ & _ & (nd' & End' & _ & _ & Eb & _) & _ & _ & P)).
    assert (nd' = nd) by congruence. subst nd'. rewrite Eb. exact P.
Qed.

(** ** The accumulation layer *)
Lemma fold_left_Rplus l : forall acc, fold_left Rplus l acc = (acc + rsum (fun x => x) l)%R.
Proof. induction l as [|a l IH]; intros acc; cbn; [ring|]. rewrite IH. ring. Qed.
Lemma rsum_nth {A} (f : A -> R) d0 l : rsum f l = rsum (fun i => f (nth i l d0)) (seq 0 (length l)).
Proof.
  induction l as [|a l IH]; [reflexivity|]. cbn [length seq rsum nth]. f_equal. rewrite IH, <- seq_shift, rsum_map. reflexivity.
Qed.

Lemma accumulation_differentiates count samples eps old x0 :
  length old = samples * eps -> length x0 = samples * eps ->
  differentiates (accumulation_behaviour R_num count samples eps old) true count [Asked] [x0] [].
Proof.
  intros Lo Lx x p v0 dx dp Ex Ep [Mx1 Mx2] [Mp1 _] _.
  pose proof (Mx1 v0) as L1. rewrite Ex in L1. destruct dx as [|d0 [|d1 dx]]; try discriminate. clear L1.
  pose proof (Mp1 v0) as L2. rewrite Ep in L2. destruct dp as [|? ?]; [|discriminate]. clear L2.
  assert (M0 : moves (fun v => nth 0 (x v) []) v0 d0) by (apply (Mx2 0); cbn; lia).
  assert (Ld : length d0 = samples * eps) by (destruct M0 as [M0 _]; specialize (M0 v0); rewrite Ex in M0; cbn in M0; congruence).
  exists (repeat d0 count), 0%R. split; [apply repeat_length|]. split; [|split; [exact (derive_const 0%R v0)|]].
  - split; [intros v; cbn; now rewrite !repeat_length|]. intros i Hi. rewrite repeat_length in Hi.
    rewrite (nth_indep _ [] d0) by (now rewrite repeat_length). rewrite nth_repeat.
    eapply moves_ext; [|exact M0]. intros v. cbn [b_outputs accumulation_behaviour]. symmetry.
    rewrite (nth_indep _ [] (nth 0 (x v) [])) by (now rewrite repeat_length). apply nth_repeat.
  - intros delta Sd. cbn [accumulation_behaviour b_early b_backward fst snd].
    assert (Hd : Forall (fun d => length d = samples * eps) delta).
    { apply Forall_forall. intros d Hd. assert (Hi : In (length d) (shape delta)) by (unfold shape; now apply in_map).
      rewrite Sd in Hi. unfold shape in Hi. apply in_map_iff in Hi as (d' & <- & Hi). apply repeat_spec in Hi. now subst d'. }
    assert (Lc : length delta = count).
    { rewrite <- (map_length (@length R) delta). change (length (shape delta) = count). rewrite Sd. unfold shape. rewrite map_length. apply repeat_length. }
    destruct (C19_gradient_sum 0%R Rplus samples eps delta old Lo Hd) as (r & Er & Lr & Hr).
    cbn [n0 nadd R_num]. rewrite Er. unfold handed. cbn [nth]. split; [|split].
    + cbn [length seq rsum nth]. cbn [or_nothing]. unfold dots. rewrite repeat_length. cbn [length seq rsum]. rewrite !Rplus_0_r.
      transitivity (rsum (fun i => dot (nth i delta []) d0) (seq 0 count)).
      { apply rsum_ext. intros i Hi. apply in_seq in Hi. f_equal. rewrite (nth_indep _ [] d0) by (rewrite repeat_length; lia). apply nth_repeat. }
      unfold dot. rewrite rsum_swap. apply rsum_ext. intros e He. apply in_seq in He.
      rewrite (nth_error_nth r e 0%R (Hr e ltac:(lia))).
      rewrite fold_left_Rplus, Rplus_0_l, rsum_map, (rsum_nth _ [] delta), Lc, Rmult_comm, <- rsum_scale. apply rsum_ext. intros i _. ring.
    + intros [|i] Hi; [|destruct i; discriminate]. exists r. split; [reflexivity|]. cbn [nth]. congruence.
    + intros [|[|i]] Hi; discriminate.
Qed.

(** ** From the program's nodes to the network *)
Lemma built_network h0 history :
  NoDup history -> closed h0 history -> (forall n nd, In n history -> nth_error h0 n = Some nd -> n_layer nd <> None) ->
  (forall n nd, nth_error h0 n = Some nd -> n_backprop nd = []) -> acyclic (reads h0) history -> well_used h0 history ->
  exists g0 g extra, add_nodes (new_graph h0) (map Some history) = Ok g0 /\ insert_sweeps 2 g0 = Ok g /\
    nodes g = history ++ extra /\ sound g /\ acyclic (reads (heap g)) (nodes g) /\ fed g /\
    loss_nodes g = filter (node_has (layer_has k_loss) (heap g)) (nodes g) /\
    (forall n nd, In n (nodes g) -> nth_error (heap g) n = Some nd -> n_is_input nd = true -> In n history /\ n_inputs nd = []) /\
    (forall x, In x extra -> ~ In x history /\ exists nd n, nth_error (heap g) x = Some nd /\ n_layer nd = Some accumulation_kind /\
       n_inputs nd = [mkConn (Some n) 0 true]).
Proof.
  intros Nd Cl Ly Bp Ac [Wo Wi Wu]. destruct (history_run h0 history) as (g0 & E0 & I).
  { apply Forall_forall. intros p Hp. destruct (Cl p Hp) as (nd & En & Hc). exists nd. split; [exact En|].
    split; [now apply (Ly p)|]. intros c Hi _. destruct (Hc c Hi) as (q & Eq & Hq). exists q. split; [exact Eq|].
    destruct (Cl q Hq) as (m & Em & _). apply nth_error_Some. congruence. }
  destruct (C21_built h0 history Nd Cl Ly Bp) as (g0' & E0' & En0 & S0 & A0). assert (g0' = g0) by congruence. subst g0'.
  destruct (C19_accumulation_nodes g0 2 S0 (le_n 2)) as (g & E & _ & A & C & (extra & En & Hx) & Kp & (_ & _ & _ & Rl & _) & S & A1).
  exists g0, g, extra. rewrite En0 in *.
  assert (Hb0 : forall n nd0 nd, In n history -> nth_error h0 n = Some nd0 -> nth_error (heap g0) n = Some nd ->
     n_layer nd = n_layer nd0 /\ n_buffers nd = n_buffers nd0 /\ n_is_input nd = n_is_input nd0 /\ length (n_inputs nd) = length (n_inputs nd0) /\
     n_backprop nd = flat_map (fun k => asks h0 n k (inputs_at h0 k)) history).
  { intros n nd0 nd Hn Ed0 Ed. destruct (hi_heap _ _ _ I n nd0 Ed0) as (m & Em & F1 & F2 & _ & F4 & F5 & F6 & _).
    assert (m = nd) by congruence. subst m. rewrite (Bp n nd0 Ed0) in F6. cbn [app] in F6.
    split; [exact F1|]. split; [exact F2|]. split; [exact F4|]. split; [|exact F6]. rewrite F5. destruct (existsb _ _); [apply map_length|reflexivity]. }
  split; [exact E0|]. split; [exact E|]. split; [exact En|]. split; [exact S|]. split; [apply A1, A0, Ac|].
  assert (Hin : forall n, In n history -> exists nd0 nd1 nd, nth_error h0 n = Some nd0 /\ nth_error (heap g0) n = Some nd1 /\ nth_error (heap g) n = Some nd).
  { intros n Hn. destruct (Cl n Hn) as (nd0 & Ed0 & _). destruct (hi_heap _ _ _ I n nd0 Ed0) as (nd1 & Ed1 & _).
    destruct (Kp n nd1 Hn Ed1) as (nd & Ed & _). eauto 6. }
  split; [|split; [|split]].
  - apply (fed_built g0 g S0 E). intros n nd Hn End Hi. rewrite En0 in Hn. destruct (Hin n Hn) as (nd0 & nd1 & _ & Ed0 & Ed1 & _).
    assert (nd1 = nd) by congruence. subst nd1. destruct (Hb0 n nd0 nd Hn Ed0 End) as (F1 & F2 & F3 & _ & F5).
    rewrite F3 in Hi. destruct (Wu n nd0 Hn Ed0 Hi) as (U1 & U2 & U3).
    assert (Z : forall bc, In bc (n_backprop nd) -> exists k c, In k history /\ In c (inputs_at h0 k) /\ c_node c = Some n /\ bc = mkB k (c_buffer c)).
    { intros bc Hbc. rewrite F5 in Hbc. apply in_flat_map in Hbc as (k & Hk & Hbc). unfold asks in Hbc. apply in_map_iff in Hbc as (c & <- & Hc).
      apply filter_In in Hc as [Hc Hp]. exists k, c. split; [exact Hk|]. split; [exact Hc|]. split; [|reflexivity].
      apply andb_prop in Hp as [Hp _]. apply andb_prop in Hp as [Hp _]. unfold ptr_eqb in Hp. destruct (c_node c) as [q|]; [|discriminate].
      apply Nat.eqb_eq in Hp. now subst q. }
    assert (Z0 : forall bc, In bc (n_backprop nd) -> b_buffer bc < n_buffers nd0).
    { intros bc Hbc. destruct (Z bc Hbc) as (k & c & Hk & Hc & Ec & ->). cbn [b_buffer]. unfold inputs_at in Hc.
      destruct (nth_error h0 k) as [ndk|] eqn:Ek; [|destruct Hc]. apply (Wo k ndk c n nd0); auto. }
    split; [unfold is_accumulation, kind_at in *; now rewrite End, F1, Ed0 in *|]. rewrite F2. destruct (n_buffers nd0) as [|[|]] eqn:Eb; [right|left|lia].
    + split; [reflexivity|]. destruct (n_backprop nd) as [|bc l]; [reflexivity|]. specialize (Z0 bc (or_introl eq_refl)). lia.
    + split; [reflexivity|]. split.
      * destruct (U3 eq_refl) as (k & Hk & ndk & c & Ek & Hc & Ec & Hbp). intros Hnil. rewrite Hnil in F5.
        assert (Hbc : In (mkB k (c_buffer c)) (flat_map (fun k => asks h0 n k (inputs_at h0 k)) history)).
        { apply in_flat_map. exists k. split; [exact Hk|]. unfold asks. apply in_map_iff. exists c. split; [reflexivity|]. apply filter_In.
          unfold inputs_at. rewrite Ek. split; [exact Hc|]. rewrite Ec. cbn [ptr_eqb]. rewrite Nat.eqb_refl, Hbp. cbn [andb].
          unfold is_input_at. now rewrite Ed0, Hi. }
        rewrite <- F5 in Hbc. destruct Hbc.
      * intros bc Hbc. specialize (Z0 bc Hbc). lia.
  - rewrite Rl, (hi_loss _ _ _ I), En, filter_app.
    assert (Fx : filter (node_has (layer_has k_loss) (heap g)) extra = []).
    { assert (G : forall x, In x extra -> node_has (layer_has k_loss) (heap g) x = false).
      { intros x Hxx. destruct (Hx x Hxx) as (_ & n & _ & _ & _ & _ & (nd & Ed & Ek & _) & _). unfold node_has, layer_has. now rewrite Ed, Ek. }
      clear - G. induction extra as [|x l IH]; [reflexivity|]. cbn. rewrite (G x (or_introl eq_refl)). apply IH. intros; apply G; now right. }
    rewrite Fx, app_nil_r. apply filter_ext_in. intros n Hn. destruct (Hin n Hn) as (nd0 & nd1 & nd & Ed0 & Ed1 & Ed).
    destruct (Hb0 n nd0 nd1 Hn Ed0 Ed1) as (F1 & _). destruct (Kp n nd1 Hn Ed1) as (nd' & Ed' & K1 & _). assert (nd' = nd) by congruence. subst nd'.
    unfold node_has, layer_has. now rewrite Ed0, Ed, K1, F1.
  - intros n nd Hn End Hi. rewrite En in Hn. apply in_app_or in Hn as [Hn|Hn].
    + split; [exact Hn|]. destruct (Hin n Hn) as (nd0 & nd1 & nd' & Ed0 & Ed1 & Ed'). assert (nd' = nd) by congruence. subst nd'.
      destruct (Hb0 n nd0 nd1 Hn Ed0 Ed1) as (_ & _ & F3 & F4 & _). destruct (Kp n nd1 Hn Ed1) as (nd' & Ed & _ & _ & K3 & _ & K5 & _).
      assert (nd' = nd) by congruence. subst nd'. rewrite K5, F3 in Hi. rewrite F4, (Wi n nd0 Hn Ed0 Hi) in K3. now destruct (n_inputs nd).
    + exfalso. destruct (Hx n Hn) as (_ & y & _ & _ & _ & _ & (nd' & Ed & _ & _ & _ & Ei & _) & _). assert (nd' = nd) by congruence. subst nd'. congruence.
  - intros x Hxx. destruct (Hx x Hxx) as (_ & n & _ & _ & _ & Nh & (nd & Ed & K1 & K2 & _) & _). rewrite En0 in Nh. split; [exact Nh|].
    exists nd, n. auto.
Qed.

Lemma kinds_kept h0 history g0 g n :
  NoDup history -> closed h0 history -> (forall n nd, In n history -> nth_error h0 n = Some nd -> n_layer nd <> None) ->
  (forall n nd, nth_error h0 n = Some nd -> n_backprop nd = []) ->
  add_nodes (new_graph h0) (map Some history) = Ok g0 -> insert_sweeps 2 g0 = Ok g -> In n history ->
  node_has (layer_has k_loss) (heap g) n = node_has (layer_has k_loss) h0 n /\ is_input_at (heap g) n = is_input_at h0 n.
Proof.
  intros Nd Cl Ly Bp E0 E Hn. destruct (history_run h0 history) as (g0' & E0' & I).
  { apply Forall_forall. intros p Hp. destruct (Cl p Hp) as (nd & En & Hc). exists nd. split; [exact En|].
    split; [now apply (Ly p)|]. intros c Hi _. destruct (Hc c Hi) as (q & Eq & Hq). exists q. split; [exact Eq|].
    destruct (Cl q Hq) as (m & Em & _). apply nth_error_Some. congruence. }
  assert (g0' = g0) by congruence. subst g0'.
  destruct (C21_built h0 history Nd Cl Ly Bp) as (g0' & E0'' & En0 & S0 & _). assert (g0' = g0) by congruence. subst g0'.
  destruct (C19_accumulation_nodes g0 2 S0 (le_n 2)) as (g' & E' & _ & _ & _ & _ & Kp & _). assert (g' = g) by congruence. subst g'.
  destruct (Cl n Hn) as (nd0 & Ed0 & _). destruct (hi_heap _ _ _ I n nd0 Ed0) as (nd1 & Ed1 & F1 & _ & _ & F4 & _).
  rewrite En0 in Kp. destruct (Kp n nd1 Hn Ed1) as (nd & Ed & K1 & _ & _ & _ & K5 & _).
  unfold node_has, layer_has, is_input_at. rewrite Ed, Ed0, K1, K5, F1, F4. auto.
Qed.

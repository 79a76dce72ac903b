(** Proofs about [Graph_Model]: pass order, AddNode, IsComplete. *)
From Coq Require Import String Relations Permutation.
From Verif Require Import Base BaseFacts Graph_Model Graph_Spec Dfs_Proofs.
Local Open Scope list_scope.

(** ** Forward *)
Lemma targets_fold cs acc :
  (forall c, In c cs -> exists q, c_node c = Some q) ->
  exists ss, foldm (fun acc c => match c_node c with Some q => Ok (acc ++ [q]) | None => UB end) cs acc = Ok (acc ++ ss) /\
    forall q, In q ss <-> exists c, In c cs /\ c_node c = Some q.
Proof.
  revert acc. induction cs as [|c cs IH]; intros acc H.
  - exists []. rewrite app_nil_r. split; [reflexivity|]. intros q. split; [intros []|intros (c & [] & _)].
  - cbn [foldm]. destruct (H c) as (q & Eq); [now left|]. rewrite Eq. cbn [bind].
    destruct (IH (acc ++ [q])) as (ss & -> & Hs); [intros c' Hc'; apply H; now right|].
    exists (q :: ss). rewrite <- app_assoc. split; [reflexivity|]. intros q'. cbn [In]. rewrite Hs. split.
    + intros [<-|(c' & ? & ?)]; [exists c|exists c']; auto.
    + intros (c' & [<-|Hc'] & E); [left; congruence|right; eauto].
Qed.

Lemma input_targets_spec h ns n : closed h ns -> In n ns ->
  exists ss, input_targets h n = Ok ss /\ (forall q, In q ss <-> reads h n q) /\ incl ss ns.
Proof.
  intros Hc Hn. destruct (Hc n Hn) as (nd & En & Hcs). unfold input_targets. rewrite (load_ok _ _ _ En). cbn [bind].
  destruct (targets_fold (n_inputs nd) []) as (ss & -> & Hs).
  - intros c Hi. destruct (Hcs c Hi) as (q & ? & _). eauto.
  - exists ss. split; [reflexivity|]. split.
    + intros q. rewrite Hs. unfold reads. split.
      * intros (c & ? & ?). exists nd, c. auto.
      * intros (nd' & c & E & ? & ?). exists c. rewrite En in E. injection E as <-. auto.
    + intros q Hq. apply Hs in Hq as (c & Hi & E). destruct (Hcs c Hi) as (q' & E' & Hq'). congruence.
Qed.

Lemma clear_flags_out todo flagged n : In n (clear_flags true todo flagged) -> ~ In n todo.
Proof.
  unfold clear_flags. rewrite filter_In. intros [_ H] Hn. apply existsb_nat in Hn. rewrite Hn in H. discriminate.
Qed.

Lemma map_id_nat (l : list nat) : map (fun n => n) l = l.
Proof. apply map_id. Qed.

Lemma forward_spec h ns todo fuel flagged :
  closed h ns -> acyclic (reads h) ns -> incl todo ns -> length ns < fuel ->
  (forall n x, In n todo -> clos_refl_trans nat (reads h) n x -> ~ In x flagged) ->
  exists flagged' order,
    foldm (dfs (input_targets h) (fun n => n) fuel) todo (flagged, []) = Ok (flagged', order) /\
    NoDup order /\
    (forall x, In x order <-> exists n, In n todo /\ clos_refl_trans nat (reads h) n x) /\
    (forall n q, In n order -> reads h n q -> before q n order) /\
    (forall x, In x flagged' <-> In x flagged \/ In x order).
Proof.
  intros Hc Ha Hi Hf Hfl.
  assert (Hs := input_targets_spec h ns). 
  assert (Hs' : forall n, In n ns -> exists ss, input_targets h n = Ok ss /\ (forall q, In q ss <-> reads h n q) /\ incl ss ns) by auto.
  destruct (pass_spec nat (input_targets h) (fun n => n) (reads h) ns Hs' Ha fuel todo (flagged, []) Hi Hf)
    as (new & E & O & Inc & Rch). cbn [fst snd app] in *. rewrite map_id_nat in E.
  exists (rev new ++ flagged), new. split; [exact E|].
  destruct (ordered_nodup _ _ _ O) as [Nd Dis]. split; [exact Nd|].
  assert (M : forall x, In x new <-> exists n, In n todo /\ clos_refl_trans nat (reads h) n x).
  { intros x. split; [intros Hx; destruct (Rch x Hx) as (n & Hn & W); exists n; split; [exact Hn|]; now apply walk_reach in W|]. intros (n & Hn & Hx).
    eapply ordered_reach; [exact O|apply Inc, Hn|exact Hx|]. intros y Hy. now apply (Hfl n). }
  split; [exact M|]. split.
  - intros n q Hn Hq. eapply ordered_before; [exact O|exact Hn|exact Hq|].
    apply M in Hn as (m & Hm & Hr). apply (Hfl m); [exact Hm|].
    eapply rt_trans; [exact Hr|apply rt_step; exact Hq].
  - intros x. rewrite in_app_iff, <- in_rev. tauto.
Qed.

Lemma clear_flags_in c todo flagged n : In n (clear_flags c todo flagged) <-> In n flagged /\ (c = false \/ ~ In n todo).
Proof.
  unfold clear_flags. destruct c.
  - rewrite filter_In. split; intros [H1 H2]; (split; [exact H1|]).
    + right. intros Hn. apply existsb_nat in Hn. rewrite Hn in H2. discriminate.
    + destruct H2 as [H2|H2]; [discriminate|]. now apply existsb_nat_false in H2 as ->.
  - intuition.
Qed.
Lemma forward_flags h ns todo fuel v :
  closed h ns -> acyclic (reads h) ns -> incl todo ns -> length ns < fuel ->
  exists flagged' order,
    foldm (dfs (input_targets h) (fun n => n) fuel) todo (v, []) = Ok (flagged', order) /\ NoDup order /\
    (forall x, In x order <-> exists n, In n todo /\ walk (reads h) v n x) /\
    (forall n q, In n order -> reads h n q -> In q v \/ before q n order) /\
    (forall x, In x flagged' <-> In x v \/ In x order).
Proof.
  intros Hc Ha Hi Hf.
  assert (Hs' : forall n, In n ns -> exists ss, input_targets h n = Ok ss /\ (forall q, In q ss <-> reads h n q) /\ incl ss ns) by (intros; now apply input_targets_spec).
  destruct (pass_spec nat (input_targets h) (fun n => n) (reads h) ns Hs' Ha fuel todo (v, []) Hi Hf)
    as (new & E & O & Inc & Rch). cbn [fst snd app] in *. rewrite map_id_nat in E.
  exists (rev new ++ v), new. split; [exact E|].
  destruct (ordered_nodup _ _ _ O) as [Nd Dis]. split; [exact Nd|]. split; [|split].
  - intros x. split; [apply Rch|]. intros (n & Hn & Hx). eapply ordered_walk; [exact O|apply Inc, Hn|exact Hx].
  - intros n q Hn Hq. destruct (in_dec Nat.eq_dec q v) as [Hv|Hv]; [now left|]. right. eapply ordered_before; eauto.
  - intros x. rewrite in_app_iff, <- in_rev. tauto.
Qed.

(** ** Backward *)
Lemma in_requests h n k bc : In bc (requests h n k) <->
  exists nd c, nth_error h k = Some nd /\ In c (n_inputs nd) /\ c_node c = Some n /\ c_backprop c = true /\
    bc = mkB k (c_buffer c).
Proof.
  unfold requests. destruct (nth_error h k) as [nd|] eqn:E.
  - rewrite in_map_iff. split.
    + intros (c & <- & Hc). apply filter_In in Hc as [Hi Hb]. apply andb_prop in Hb as [Hp Hb].
      unfold ptr_eqb in Hp. destruct (c_node c) as [q|] eqn:Eq; [|discriminate].
      apply Nat.eqb_eq in Hp. subst q. exists nd, c. auto.
    + intros (nd' & c & E' & Hi & Hp & Hb & ->). injection E' as <-. exists c. split; [reflexivity|].
      apply filter_In. split; [exact Hi|]. rewrite Hp, Hb. cbn. now rewrite Nat.eqb_refl.
  - split; [intros []|]. intros (nd & c & E' & _). discriminate.
Qed.

Definition gradient_from (g : graph) (n q : nat) : Prop := In q (nodes g) /\ wants_gradient (heap g) q n.

Lemma backprop_targets_spec g n : closed (heap g) (nodes g) -> consistent g -> In n (nodes g) ->
  exists ss, backprop_targets (heap g) n = Ok ss /\ (forall q, In q ss <-> gradient_from g n q) /\ incl ss (nodes g).
Proof.
  intros Hc Hk Hn. destruct (Hc n Hn) as (nd & En & _). unfold backprop_targets.
  rewrite (load_ok _ _ _ En). cbn [bind]. specialize (Hk n nd En).
  assert (M : forall q, In q (map b_node (n_backprop nd)) <-> gradient_from g n q).
  { intros q. rewrite in_map_iff. unfold gradient_from, wants_gradient. split.
    - intros (bc & <- & Hb). apply (Permutation_in _ Hk) in Hb. apply in_flat_map in Hb as (k & Hkn & Hb).
      apply in_requests in Hb as (m & c & Em & Hi & Ec & Hbp & ->). cbn [b_node]. split; [exact Hkn|]. eauto 8.
    - intros (Hq & m & c & Em & Hi & Ec & Hbp). exists (mkB q (c_buffer c)). split; [reflexivity|].
      apply (Permutation_in _ (Permutation_sym Hk)). apply in_flat_map. exists q. split; [exact Hq|].
      apply in_requests. eauto 8. }
  exists (map b_node (n_backprop nd)). split; [reflexivity|]. split; [exact M|].
  intros q Hq. now apply M in Hq as [? _].
Qed.

Lemma gradient_reads g n q : gradient_from g n q -> reads (heap g) q n.
Proof. intros (_ & nd & c & ? & ? & ? & _). exists nd, c. auto. Qed.

Lemma gradient_acyclic g : acyclic (reads (heap g)) (nodes g) -> acyclic (gradient_from g) (nodes g).
Proof.
  intros H n Hn Hc. apply (H n Hn).
  assert (T : forall a b, clos_trans nat (gradient_from g) a b -> clos_trans nat (reads (heap g)) b a).
  { intros a b Hab. induction Hab as [a b Hab|a b c _ IH1 _ IH2].
    - apply t_step. now apply gradient_reads.
    - eapply t_trans; eassumption. }
  now apply T.
Qed.

Lemma before_map {A B} (f : A -> B) x y l : before x y l -> before (f x) (f y) (map f l).
Proof.
  intros (a & b & c & ->). exists (map f a), (map f b), (map f c). rewrite !map_app. cbn [map]. rewrite map_app. reflexivity.
Qed.

Lemma backward_spec {E} (event : nat -> E) g fuel flagged :
  closed (heap g) (nodes g) -> consistent g -> acyclic (reads (heap g)) (nodes g) -> length (nodes g) < fuel ->
  (forall x, In x (nodes g) -> ~ In x flagged) ->
  exists flagged' order,
    foldm (dfs (backprop_targets (heap g)) event fuel) (nodes g) (flagged, []) = Ok (flagged', map event order) /\
    NoDup order /\ (forall x, In x order <-> In x (nodes g)) /\
    (forall n k, In n (nodes g) -> In k (nodes g) -> wants_gradient (heap g) k n -> before k n order).
Proof.
  intros Hc Hk Ha Hf Hfl. apply gradient_acyclic in Ha.
  assert (Hs : forall n, In n (nodes g) -> exists ss, backprop_targets (heap g) n = Ok ss /\
     (forall q, In q ss <-> gradient_from g n q) /\ incl ss (nodes g)) by (intros; now apply backprop_targets_spec).
  destruct (pass_spec E _ event _ (nodes g) Hs Ha fuel (nodes g) (flagged, []) (incl_refl _) Hf)
    as (new & Ef & O & Inc & Rch). cbn [fst snd app] in *.
  exists (rev new ++ flagged), new. split; [exact Ef|].
  destruct (ordered_nodup _ _ _ O) as [Nd Dis]. split; [exact Nd|].
  assert (M : forall x, In x new <-> In x (nodes g)).
  { intros x. split.
    - intros Hx. destruct (Rch x Hx) as (n & Hn & Hr). apply walk_reach in Hr. eapply reach_closed; eauto.
    - intros Hx. specialize (Inc x Hx). apply in_app_or in Inc as [I|I]; [now apply in_rev|].
      exfalso. now apply (Hfl x). }
  split; [exact M|]. intros n k Hn Hkn Hw.
  eapply ordered_before; [exact O|now apply M|split; [exact Hkn|exact Hw]|auto].
Qed.

(** ** IsComplete *)
Lemma connection_okay_spec h c : (forall q, c_node c = Some q -> q < length h) ->
  exists b, connection_okay h c = Ok b /\
    (b = true <-> exists q m, c_node c = Some q /\ nth_error h q = Some m /\ c_buffer c < n_buffers m).
Proof.
  intros H. unfold connection_okay. destruct (c_node c) as [q|] eqn:E.
  - destruct (nth_error_lt h (H q eq_refl)) as (m & Em). rewrite (load_ok _ _ _ Em). cbn [bind].
    eexists. split; [reflexivity|]. rewrite Nat.ltb_lt. split.
    + intros Hl. exists q, m. auto.
    + intros (q' & m' & Eq & Em' & Hl). congruence.
  - exists false. split; [reflexivity|]. split; [discriminate|]. intros (q & m & ? & _). discriminate.
Qed.

Lemma node_okay_spec h cs ok : (forall c q, In c cs -> c_node c = Some q -> q < length h) ->
  exists b, foldm (fun ok c => b <- connection_okay h c ;; Ok (ok && b)) cs ok = Ok b /\
    (b = true <-> ok = true /\ forall c, In c cs -> exists q m, c_node c = Some q /\ nth_error h q = Some m /\ c_buffer c < n_buffers m).
Proof.
  revert ok. induction cs as [|c cs IH]; intros ok H; cbn [foldm].
  - exists ok. split; [reflexivity|]. split; [|tauto]. intros ->. split; [reflexivity|]. intros c [].
  - destruct (connection_okay_spec h c) as (b & -> & Hb); [intros q; apply H; now left|]. cbn [bind].
    destruct (IH (ok && b)) as (b' & -> & Hb'); [intros c' q Hc'; apply H; now right|].
    exists b'. split; [reflexivity|]. rewrite Hb', andb_true_iff, Hb. split.
    + intros [[H1 H2] H3]. split; [exact H1|]. intros c' [<-|Hc']; auto.
    + intros [H1 H2]. split; [split; [exact H1|apply H2; now left]|]. intros c' Hc'. apply H2. now right.
Qed.

Definition node_fine (h : list node) (n : nat) : Prop :=
  exists nd, nth_error h n = Some nd /\ n_layer nd <> None /\ n_name nd <> ""%string /\
    ~ (n_is_input nd = true /\ n_is_output nd = true) /\
    forall c, In c (n_inputs nd) -> exists q m, c_node c = Some q /\ nth_error h q = Some m /\ c_buffer c < n_buffers m.

Lemma complete_fold h ps : forall ins outs comp,
  (forall n, In n ps -> exists nd, nth_error h n = Some nd /\ n_layer nd <> None /\
    forall c q, In c (n_inputs nd) -> c_node c = Some q -> q < length h) ->
  exists ins' outs' comp',
    foldm (complete_step h) ps (ins, outs, comp) = Ok (ins', outs', comp') /\
    (ins' <> 0 <-> ins <> 0 \/ exists n nd, In n ps /\ nth_error h n = Some nd /\ n_is_input nd = true) /\
    (outs' <> 0 <-> outs <> 0 \/ exists n nd, In n ps /\ nth_error h n = Some nd /\ n_is_output nd = true) /\
    (comp' = true <-> comp = true /\ forall n, In n ps -> node_fine h n).
Proof.
  induction ps as [|p ps IH]; intros ins outs comp H.
  - exists ins, outs, comp. split; [reflexivity|].
    split; [split; [auto|intros [?|(n & nd & [] & _)]; auto]|].
    split; [split; [auto|intros [?|(n & nd & [] & _)]; auto]|].
    split; [|tauto]. intros Hc. split; [exact Hc|]. intros n [].
  - cbn [foldm]. destruct (H p) as (nd & En & El & Hcs); [now left|].
    unfold complete_step at 1.
    rewrite (load_ok _ _ _ En). cbn [bind]. destruct (n_layer nd) as [kk|] eqn:Ek; [|congruence].
    unfold node_okay at 1. destruct (node_okay_spec h (n_inputs nd) true) as (b & -> & Hb); [exact Hcs|].
    cbn [bind].
    match goal with |- context [foldm ?f ps (?i, ?o, ?c)] =>
      destruct (IH i o c) as (ins' & outs' & comp' & E & Hi & Ho & Hc) end;
      [intros n Hn; apply H; now right|].
    exists ins', outs', comp'. split; [exact E|]. clear E IH.
    assert (Sh : forall (P : node -> Prop), (exists n nd, In n (p :: ps) /\ nth_error h n = Some nd /\ P nd) <->
       P nd \/ exists n nd, In n ps /\ nth_error h n = Some nd /\ P nd).
    { intros P. split.
      - intros (n & m & [<-|Hn] & Em & Hp); [left; congruence|right; eauto].
      - intros [Hp|(n & m & ? & ? & ?)]; [exists p, nd|exists n, m]; cbn; auto. }
    rewrite (Sh (fun nd => n_is_input nd = true)), (Sh (fun nd => n_is_output nd = true)).
    split; [|split].
    + rewrite Hi. destruct (n_is_input nd); split; intuition (try discriminate; try lia).
    + rewrite Ho. destruct (n_is_output nd); split; intuition (try discriminate; try lia).
    + rewrite Hc, !andb_true_iff, Hb, !negb_true_iff, String.eqb_neq, andb_false_iff.
      assert (Hf : node_fine h p <-> n_name nd <> ""%string /\ (n_is_input nd = false \/ n_is_output nd = false) /\
         forall c, In c (n_inputs nd) -> exists q m, c_node c = Some q /\ nth_error h q = Some m /\ c_buffer c < n_buffers m).
      { unfold node_fine. split.
        - intros (nd' & E & H1 & H2 & H3 & H4). assert (nd' = nd) by congruence. subst nd'.
          split; [exact H2|]. split; [|exact H4]. destruct (n_is_input nd), (n_is_output nd); tauto.
        - intros (H1 & H2 & H3). exists nd. split; [exact En|]. split; [congruence|]. split; [exact H1|].
          split; [|exact H3]. intros [E1 E2]. destruct H2; congruence. }
      split.
      * intros [(H1 & (H2 & H3) & H4) H5]. split; [exact H1|]. intros n [<-|Hn]; [|auto]. apply Hf. tauto.
      * intros [H1 H2]. pose proof (proj1 Hf (H2 p (or_introl eq_refl))) as (F1 & F2 & F3).
        split; [tauto|]. intros n Hn. apply H2. now right.
Qed.

Lemma is_complete_decides g : inspectable g -> exists b, is_complete g = Ok b /\ (b = true <-> usable g).
Proof.
  intros H. unfold is_complete.
  destruct (complete_fold (heap g) (nodes g) 0 0 true H) as (ins & outs & comp & -> & Hi & Ho & Hc).
  cbn [bind]. eexists. split; [reflexivity|].
  rewrite !andb_true_iff, !negb_true_iff, !Nat.eqb_neq, Hc, Hi, Ho. unfold usable, node_fine.
  split.
  - intros [[[_ H1] [?|H2]] [?|H3]]; try lia. auto.
  - intros (H1 & H2 & H3). auto 8.
Qed.

Lemma is_complete_inv g b : is_complete g = Ok b ->
  forall n, In n (nodes g) -> exists nd, nth_error (heap g) n = Some nd /\ n_layer nd <> None /\
    forall c q, In c (n_inputs nd) -> c_node c = Some q -> q < length (heap g).
Proof.
  unfold is_complete. intros H.
  match type of H with bind ?r _ = _ => destruct r as [st| |] eqn:E; try discriminate end. clear H.
  revert E. generalize (0, 0, true). generalize (nodes g) as ps.
  induction ps as [|p ps IH]; intros st0 E n; [intros []|]. cbn [foldm] in E.
  match type of E with bind ?r _ = _ => destruct r as [st1| |] eqn:E1; try discriminate end.
  intros [<-|Hn]; [|eapply IH; eauto]. clear IH E. destruct st0 as [[i o] c0]. unfold complete_step in E1.
  destruct (nth_error (heap g) p) as [nd|] eqn:En; [|unfold load in E1; rewrite En in E1; discriminate].
  rewrite (load_ok _ _ _ En) in E1. cbn [bind] in E1. exists nd. split; [reflexivity|].
  destruct (n_layer nd) eqn:El; [|discriminate]. split; [discriminate|].
  destruct (node_okay (heap g) nd) as [b'| |] eqn:Eo; try discriminate. clear E1.
  unfold node_okay in Eo. revert Eo. generalize true. generalize (n_inputs nd).
  induction l0 as [|c cs IH]; intros b0 Eo c' q; [intros []|]. cbn [foldm] in Eo.
  unfold connection_okay at 1 in Eo. destruct (c_node c) as [qc|] eqn:Ec.
  - destruct (nth_error (heap g) qc) as [m|] eqn:Em; [|unfold load in Eo; rewrite Em in Eo; discriminate].
    rewrite (load_ok _ _ _ Em) in Eo. cbn [bind] in Eo.
    intros [<-|Hc] Hq; [|eapply IH; eauto]. rewrite Ec in Hq. injection Hq as <-.
    apply nth_error_Some. congruence.
  - cbn [bind] in Eo. intros [<-|Hc] Hq; [congruence|]. eapply IH; eauto.
Qed.

(** C17 C18 C19 C21 C22: structure of the network and order of the passes. *)
From Coq Require Import String Relations Permutation.
From Verif Require Import Base BaseFacts Graph_Model Graph_Spec Dfs_Proofs Graph_Proofs GraphAdd_Proofs GraphAccum_Proofs
  Accumulate_Model Accumulate_Proofs.
Local Open Scope list_scope.

(** ** C17 *)
(** FeedForward, whatever flags earlier passes left behind: every node of the network
    once, each after everything it reads; the recursion is never deeper than the number
    of nodes. *)
Theorem C17_feed_forward g flagged fuel :
  closed (heap g) (nodes g) -> acyclic (reads (heap g)) (nodes g) -> length (nodes g) < fuel ->
  exists flagged' order, feed_forward fuel g flagged = Ok (flagged', order) /\
    NoDup order /\ (forall n, In n order <-> In n (nodes g)) /\
    (forall n q, In n (nodes g) -> reads (heap g) n q -> before q n order).
Proof.
  intros Hc Ha Hf. unfold feed_forward, feed_forward_nodes.
  assert (R : forall n x, In n (nodes g) -> clos_refl_trans nat (reads (heap g)) n x -> In x (nodes g)).
  { intros n x Hn. apply (reach_closed (input_targets (heap g)) (reads (heap g)) (nodes g)); [|exact Hn].
    intros m Hm. now apply input_targets_spec. }
  destruct (forward_spec (heap g) (nodes g) (nodes g) fuel (clear_flags true (nodes g) flagged) Hc Ha (incl_refl _) Hf)
    as (fl & order & E & Nd & M & B & _).
  - intros n x Hn Hr Hx. apply clear_flags_out in Hx. apply Hx. now apply (R n).
  - exists fl, order. split; [exact E|]. split; [exact Nd|]. split.
    + intros n. rewrite M. split; [intros (m & Hm & Hr); now apply (R m)|].
      intros Hn. exists n. split; [exact Hn|apply rt_refl].
    + intros n q Hn Hq. apply B; [|exact Hq]. apply M. exists n. split; [exact Hn|apply rt_refl].
Qed.

(** FeedForward of selected nodes, with or without clearing their flags: exactly the nodes
    that can be reached from them without passing a node that is still flagged, each once and
    after everything it reads that was not flagged.  All of them are flagged afterwards. *)
Theorem C17_feed_forward_selected g todo clear_flag flagged fuel :
  closed (heap g) (nodes g) -> acyclic (reads (heap g)) (nodes g) -> incl todo (nodes g) -> length (nodes g) < fuel ->
  let done x := In x flagged /\ (clear_flag = false \/ ~ In x todo) in
  exists flagged' order, feed_forward_nodes fuel (heap g) todo clear_flag flagged = Ok (flagged', order) /\
    NoDup order /\
    (forall x, In x order <-> exists n, In n todo /\ ~ done n /\ clos_refl_trans nat (fun a b => reads (heap g) a b /\ ~ done b) n x) /\
    (forall n q, In n order -> reads (heap g) n q -> done q \/ before q n order) /\
    (forall x, In x flagged' <-> done x \/ In x order).
Proof.
  intros Hc Ha Hi Hf done. unfold feed_forward_nodes.
  destruct (forward_flags (heap g) (nodes g) todo fuel (clear_flags clear_flag todo flagged) Hc Ha Hi Hf) as (fl & order & E & Nd & M & B & F).
  assert (D : forall x, In x (clear_flags clear_flag todo flagged) <-> done x) by (intros x; apply clear_flags_in).
  exists fl, order. split; [exact E|]. split; [exact Nd|]. split; [|split].
  - intros x. rewrite M. unfold walk. split; intros (n & Hn & N & W); exists n; (split; [exact Hn|]); (split; [rewrite D in *; exact N|]); clear -D W;
      (induction W as [a b [W N]|a|a b c _ IH1 _ IH2]; [apply rt_step; split; [exact W|rewrite D in *; exact N]|apply rt_refl|eapply rt_trans; eauto]).
  - intros n q Hn Hq. rewrite <- D. now apply B.
  - intros x. rewrite F, D. tauto.
Qed.

(** Initialize creates the outputs of every node once, after those of its inputs. *)
Theorem C17_initialize_order g fuel :
  closed (heap g) (nodes g) -> acyclic (reads (heap g)) (nodes g) -> length (nodes g) < fuel ->
  exists flagged' order, initialize_nodes fuel g [] = Ok (flagged', order) /\
    NoDup order /\ (forall n, In n order <-> In n (nodes g)) /\
    (forall n q, In n (nodes g) -> reads (heap g) n q -> before q n order).
Proof.
  intros Hc Ha Hf. unfold initialize_nodes.
  destruct (forward_spec (heap g) (nodes g) (nodes g) fuel [] Hc Ha (incl_refl _) Hf) as (fl & order & E & Nd & M & B & _).
  - intros n x _ _ [].
  - exists fl, order. split; [exact E|]. split; [exact Nd|].
    assert (M' : forall n, In n order <-> In n (nodes g)).
    { intros n. rewrite M. split; [|intros Hn; exists n; split; [exact Hn|apply rt_refl]].
      intros (m & Hm & Hr). eapply (reach_closed (input_targets (heap g)) (reads (heap g))); [|exact Hm|exact Hr].
      intros k Hk. now apply input_targets_spec. }
    split; [exact M'|]. intros n q Hn Hq. apply B; [now apply M'|exact Hq].
Qed.

(** A network with a cycle is not detected; the recursion never ends. *)
Theorem C17_cycle_refuted : exists g, closed (heap g) (nodes g) /\ is_complete g = Ok true /\
  forall fuel flagged, feed_forward fuel g flagged = UB.
Proof.
  set (k := mkKind false false false false).
  set (n0 := mkNode (Some k) [] [mkB 1 0] 1 "in" false true).
  set (n1 := mkNode (Some k) [mkConn (Some 1) 0 true; mkConn (Some 0) 0 false] [mkB 1 0] 1 "loop" true false).
  exists (mkGraph [n0; n1] [1; 0] [0] [1] [] [] [] 0). split; [|split; [reflexivity|]].
  - intros n [<-|[<-|[]]]; cbn [heap nth_error].
    + exists n1. split; [reflexivity|]. intros c [<-|[<-|[]]]; [exists 1|exists 0]; cbn; auto.
    + exists n0. split; [reflexivity|]. intros c [].
  - intros fuel flagged. unfold feed_forward, feed_forward_nodes. cbn [heap nodes].
    assert (Hfl : existsb (Nat.eqb 1) (clear_flags true [1; 0] flagged) = false).
    { apply existsb_nat_false. intros H. apply clear_flags_out in H. apply H. now left. }
    assert (L : forall f fl tr, existsb (Nat.eqb 1) fl = false -> dfs (input_targets [n0; n1]) (fun n => n) f (fl, tr) 1 = UB).
    { induction f as [|f IH]; intros fl' tr H; [reflexivity|]. cbn [dfs fst]. rewrite H.
      change (input_targets [n0; n1] 1) with (Ok [1; 0]). cbn [bind foldm]. now rewrite (IH fl' tr H). }
    cbn [foldm]. now rewrite L.
Qed.

(** A node outside the network is run by the first pass only: its flag is never cleared. *)
Theorem C17_outside_node_refuted : exists g fl, is_complete g = Ok true /\
  feed_forward 4 g [] = Ok (fl, [0; 2; 1]) /\ exists fl', feed_forward 4 g fl = Ok (fl', [0; 1]).
Proof.
  set (k := mkKind false false false false).
  exists (mkGraph [mkNode (Some k) [] [] 1 "in" false true;
                   mkNode (Some k) [mkConn (Some 0) 0 false; mkConn (Some 2) 0 false] [] 1 "out" true false;
                   mkNode (Some k) [] [] 1 "elsewhere" false true] [0; 1] [0] [1] [] [] [] 0), [1; 2; 0].
  split; [reflexivity|]. split; [reflexivity|]. eexists. reflexivity.
Qed.

(** ** C18 *)
(** BackPropagate on a network whose backprop connections are those of AddNode: every
    node once, each after all nodes that want to hand it a gradient; a layer computes
    input gradients exactly when one of its connections wants one. *)
Theorem C18_back_propagate g flagged fuel :
  closed (heap g) (nodes g) -> consistent g -> acyclic (reads (heap g)) (nodes g) -> length (nodes g) < fuel ->
  exists flagged' order enabled, back_propagate fuel g flagged = Ok (flagged', combine order enabled) /\
    length enabled = length order /\ NoDup order /\ (forall n, In n order <-> In n (nodes g)) /\
    (forall n k, In n (nodes g) -> In k (nodes g) -> wants_gradient (heap g) k n -> before k n order) /\
    (forall n e, In (n, e) (combine order enabled) ->
       (e = true <-> exists nd c, nth_error (heap g) n = Some nd /\ In c (n_inputs nd) /\ c_backprop c = true)).
Proof.
  intros Hc Hk Ha Hf. unfold back_propagate, back_propagate_nodes.
  destruct (backward_spec (fun n => (n, do_backprop (heap g) n)) g fuel (clear_flags true (nodes g) flagged) Hc Hk Ha Hf)
    as (fl & order & E & Nd & M & B).
  - intros x Hx Hfl. apply clear_flags_out in Hfl. contradiction.
  - exists fl, order, (map (do_backprop (heap g)) order).
    assert (Ecomb : map (fun n => (n, do_backprop (heap g) n)) order = combine order (map (do_backprop (heap g)) order)).
    { clear. induction order as [|x l IH]; [reflexivity|]. cbn. now rewrite IH. }
    rewrite <- Ecomb. split; [exact E|]. split; [apply map_length|]. split; [exact Nd|]. split; [exact M|].
    split; [exact B|]. intros n e Hin. apply in_map_iff in Hin as (x & Heq & Hx). injection Heq as -> <-.
    unfold do_backprop. apply M in Hx. destruct (Hc n Hx) as (nd & En & _). rewrite En, existsb_exists. split.
    + intros (c & ? & ?). exists nd, c. auto.
    + intros (nd' & c & E' & ? & ?). assert (nd' = nd) by congruence. subst nd'. exists c. auto.
Qed.

(** InitializeWeights connects every layer once, after the layers it receives gradients from. *)
Theorem C18_weights_order g flagged fuel :
  closed (heap g) (nodes g) -> consistent g -> acyclic (reads (heap g)) (nodes g) -> length (nodes g) < fuel ->
  exists flagged' order, initialize_weights fuel g flagged = Ok (flagged', order) /\
    NoDup order /\ (forall n, In n order <-> In n (nodes g)) /\
    (forall n k, In n (nodes g) -> In k (nodes g) -> wants_gradient (heap g) k n -> before k n order).
Proof.
  intros Hc Hk Ha Hf. unfold initialize_weights.
  destruct (backward_spec (fun n => n) g fuel (clear_flags true (nodes g) flagged) Hc Hk Ha Hf) as (fl & order & E & Nd & M & B).
  - intros x Hx Hfl. apply clear_flags_out in Hfl. contradiction.
  - rewrite map_id_nat in E. exists fl, order. auto.
Qed.

(** ** C21 *)
(** After any sequence of additions: the registries hold exactly the nodes of their kind
    in insertion order, automatic names are pairwise different, other names are kept, and
    the backprop connections of a node are exactly the connections that want a gradient
    from it, none if it is an input. *)
Theorem C21_history h0 history :
  Forall (addable h0) history -> (forall n nd, nth_error h0 n = Some nd -> n_backprop nd = []) ->
  exists g, add_nodes (new_graph h0) (map Some history) = Ok g /\
    nodes g = history /\
    input_nodes g = filter (node_has n_is_input h0) history /\
    output_nodes g = filter (node_has n_is_output h0) history /\
    stat_nodes g = filter (node_has (layer_has k_stat) h0) history /\
    loss_nodes g = filter (node_has (layer_has k_loss) h0) history /\
    training_nodes g = filter (node_has (layer_has k_training) h0) history /\
    (forall x nd0, nth_error h0 x = Some nd0 -> exists nd, nth_error (heap g) x = Some nd /\
       (n_name nd0 <> ""%string -> n_name nd = n_name nd0) /\ (In x history -> n_name nd <> ""%string) /\
       (~ In x history -> n_name nd = n_name nd0) /\
       n_backprop nd =
         if n_is_input nd0 then []
         else flat_map (fun k => map (fun c => mkB k (c_buffer c))
                (filter (fun c => ptr_eqb (c_node c) x && c_backprop c) (inputs_at h0 k))) history) /\
    (forall x y ndx0 ndy0 ndx ndy, x <> y -> In x history -> In y history ->
       nth_error h0 x = Some ndx0 -> nth_error h0 y = Some ndy0 -> n_name ndx0 = ""%string -> n_name ndy0 = ""%string ->
       nth_error (heap g) x = Some ndx -> nth_error (heap g) y = Some ndy -> n_name ndx <> n_name ndy).
Proof.
  intros Ha Hb. destruct (history_run h0 history Ha) as (g & E & I). exists g. split; [exact E|].
  destruct I as [I1 I2 I3 I4 I5 I6 I7 I8 I9]. do 6 (split; [assumption|]). split; [|exact I9].
  intros x nd0 E0. destruct (I8 x nd0 E0) as (nd & En & _ & _ & _ & _ & _ & Bp & N1 & N2 & N3). exists nd.
  assert (Hex : forall b, existsb (Nat.eqb x) history = b -> if b then In x history else ~ In x history).
  { intros [|] H; [now apply existsb_nat|now apply existsb_nat_false]. }
  split; [exact En|]. split; [exact N1|]. split; [|split].
  - intros Hx. apply existsb_nat in Hx. destruct (string_dec (n_name nd0) "") as [Ee|Ee].
    + destruct (N3 Ee Hx) as (u & _ & ->). discriminate.
    + now rewrite (N1 Ee).
  - intros Hx. apply existsb_nat_false in Hx. destruct (string_dec (n_name nd0) "") as [Ee|Ee]; [|auto]. rewrite (N2 Ee Hx). auto.
  - rewrite Bp, (Hb x nd0 E0). cbn [app].
    assert (Ein : is_input_at h0 x = n_is_input nd0) by (unfold is_input_at; now rewrite E0).
    unfold asks. rewrite Ein. destruct (n_is_input nd0).
    + clear. induction history as [|k l IH]; [reflexivity|]. cbn [flat_map]. rewrite IH, app_nil_r.
      induction (inputs_at h0 k) as [|c cs IHc]; [reflexivity|]. cbn [filter]. rewrite andb_false_r. exact IHc.
    + apply flat_map_in_ext. intros k _. f_equal. apply filter_ext. intros c. now rewrite andb_true_r.
Qed.

(** Null pointers and nodes without layer are refused. *)
Theorem C21_refused g p nd : add_node g None = Fatal /\
  (nth_error (heap g) p = Some nd -> n_layer nd = None -> add_node g (Some p) = Fatal).
Proof. split; [reflexivity|]. intros E El. unfold add_node. rewrite (load_ok _ _ _ E). cbn [bind]. now rewrite El. Qed.

(** A network built from distinct, connected nodes is sound, and acyclic if the
    program's nodes are. *)
Theorem C21_built h0 history :
  NoDup history -> closed h0 history -> (forall n nd, In n history -> nth_error h0 n = Some nd -> n_layer nd <> None) ->
  (forall n nd, nth_error h0 n = Some nd -> n_backprop nd = []) ->
  exists g, add_nodes (new_graph h0) (map Some history) = Ok g /\ nodes g = history /\ sound g /\
    (acyclic (reads h0) history -> acyclic (reads (heap g)) history).
Proof.
  intros Nd Cl Ly Bp. destruct (history_run h0 history) as (g & E & I).
  { apply Forall_forall. intros p Hp. destruct (Cl p Hp) as (nd & En & Hc). exists nd. split; [exact En|].
    split; [now apply (Ly p)|]. intros c Hi _. destruct (Hc c Hi) as (q & Eq & Hq). exists q. split; [exact Eq|].
    destruct (Cl q Hq) as (m & Em & _). apply nth_error_Some. congruence. }
  exists g. split; [exact E|]. split; [apply (hi_nodes _ _ _ I)|]. split; [now apply (history_sound h0 history g I)|].
  intros A n Hn Hc. apply (A n Hn).
  assert (R : forall x y, reads (heap g) x y -> reads h0 x y).
  { intros x y (m & c & Em & Hi & Ec).
    assert (Hl : x < length h0) by (rewrite <- (hi_length _ _ _ I); apply nth_error_Some; congruence).
    apply nth_error_lt in Hl as (m0 & Em0).
    destruct (hi_heap _ _ _ I x m0 Em0) as (m' & Em' & _ & _ & _ & _ & Ei & _).
    assert (m' = m) by congruence. subst m'. rewrite Ei in Hi. exists m0.
    destruct (existsb (Nat.eqb x) history); [|exists c; auto].
    apply in_map_iff in Hi as (c0 & <- & Hc0). exists c0. split; [exact Em0|]. split; [exact Hc0|].
    destruct (settled_parts h0 c0) as (<- & _). exact Ec. }
  revert Hc. generalize n at 1 3. clear - R. intros a H. induction H; [apply t_step; auto|eapply t_trans; eauto].
Qed.

(** A name chosen by the user can coincide with an automatic one. *)
Theorem C21_user_name_collision_refuted : exists h0 g ndx ndy,
  Forall (addable h0) [0; 1] /\ add_nodes (new_graph h0) [Some 0; Some 1] = Ok g /\
  nth_error (heap g) 0 = Some ndx /\ nth_error (heap g) 1 = Some ndy /\ n_name ndx = n_name ndy.
Proof.
  set (k := mkKind false false false false).
  exists [mkNode (Some k) [] [] 1 "node0" false true; mkNode (Some k) [] [] 1 "" true false].
  do 3 eexists. split; [|split; [reflexivity|]; split; [reflexivity|]; split; reflexivity].
  repeat constructor; eexists; (split; [reflexivity|]); (split; [discriminate|]); intros c [].
Qed.

(** ** C19 *)
(** The part of Initialize that looks for shared nodes ends after at most two sweeps.
    Afterwards only accumulation nodes have several backprop connections; every formerly
    shared node has an accumulation node in front of its consumers (see [accumulates]);
    all other connections are as before; kinds, names and registries are kept; the
    network is still sound and acyclic. *)
Theorem C19_accumulation_nodes g0 fuel : sound g0 -> 2 <= fuel ->
  exists g, insert_sweeps fuel g0 = Ok g /\
    (forall n, In n (nodes g) -> is_accumulation (heap g) n = false -> backprop_count (heap g) n <= 1) /\
    (forall n, In n (nodes g0) -> shared (heap g0) n = true -> exists ga, accumulates g0 g n ga) /\
    (forall k i c, In k (nodes g0) -> connection_at (heap g0) k i = Some c ->
       (forall q, c_node c = Some q -> c_backprop c = true -> shared (heap g0) q = false) ->
       connection_at (heap g) k i = Some c) /\
    (exists extra, nodes g = nodes g0 ++ extra /\ forall x, In x extra -> is_accumulation (heap g) x = true /\
       exists n, In n (nodes g0) /\ shared (heap g0) n = true /\ accumulates g0 g n x) /\
    (forall n nd0, In n (nodes g0) -> nth_error (heap g0) n = Some nd0 -> exists nd, nth_error (heap g) n = Some nd /\
       n_layer nd = n_layer nd0 /\ n_name nd = n_name nd0 /\ length (n_inputs nd) = length (n_inputs nd0) /\
       n_buffers nd = n_buffers nd0 /\ n_is_input nd = n_is_input nd0 /\ n_is_output nd = n_is_output nd0 /\
       (shared (heap g0) n = false -> n_backprop nd = n_backprop nd0)) /\
    (input_nodes g = input_nodes g0 /\ output_nodes g = output_nodes g0 /\ stat_nodes g = stat_nodes g0 /\
     loss_nodes g = loss_nodes g0 /\ training_nodes g = training_nodes g0) /\
    sound g /\ (acyclic (reads (heap g0)) (nodes g0) -> acyclic (reads (heap g)) (nodes g)).
Proof.
  intros S Hf. destruct fuel as [|[|fuel]]; try lia.
  destruct (initialize_spec g0 fuel S) as (g & E & W & N). exists g. split; [exact E|].
  destruct W as [W1 W2 W3 W4 W5 W6 W7]. split; [|split; [|split; [|split; [|split; [|split; [|split]]]]]]; auto.
  - intros n Hn Hk. specialize (N n Hn). unfold shared in N. rewrite Hk in N. cbn [negb] in N. rewrite andb_true_r in N.
    apply Nat.ltb_ge in N. exact N.
  - intros k i c Hk Ec Hq. apply (W6 k i c Hk Ec). intros q E1 E2 E3 _. rewrite (Hq q E1 E2) in E3. discriminate.
  - destruct W3 as (extra & En & He). exists extra. split; [exact En|]. intros x Hx. destruct (He x Hx) as (H1 & n & H2 & _ & H3). eauto 6.
  - intros n nd0 Hn E0. destruct (W5 n nd0 Hn E0) as (nd & F0 & F1 & F2 & F3 & F4 & F5 & F6 & F7). exists nd.
    do 7 (split; [assumption|]). intros Hs. apply F7. intros [_ ?]. congruence.
Qed.

(** The data a connection delivers: an inserted node delivers what it reads. *)
Definition data_source (g0 g : graph) (c : connection) : option (nat * nat) :=
  match c_node c with
  | Some q =>
    if existsb (Nat.eqb q) (nodes g0) then Some (q, c_buffer c)
    else match connection_at (heap g) q 0 with
         | Some c' => option_map (fun q' => (q', c_buffer c')) (c_node c')
         | None => None
         end
  | None => None
  end.

(** As long as shared nodes are read through their first output, every connection
    delivers the same data as before. *)
Theorem C19_same_data g0 fuel : sound g0 -> 2 <= fuel ->
  (forall k i c q, In k (nodes g0) -> connection_at (heap g0) k i = Some c -> c_node c = Some q -> c_backprop c = true ->
     shared (heap g0) q = true -> c_buffer c = 0) ->
  exists g, insert_sweeps fuel g0 = Ok g /\
    forall k i c, In k (nodes g0) -> connection_at (heap g0) k i = Some c ->
      exists c', connection_at (heap g) k i = Some c' /\ data_source g0 g c' = data_source g0 g0 c /\ data_source g0 g0 c <> None.
Proof.
  intros S Hf H0. destruct (C19_accumulation_nodes g0 fuel S Hf) as (g & E & _ & A & C & _). exists g. split; [exact E|].
  intros k i c Hk Ec.
  destruct (sound_closed g0 S k Hk) as (nd & En & Hcs).
  assert (Hin : In c (n_inputs nd)) by (unfold connection_at in Ec; rewrite En in Ec; eapply nth_error_In; exact Ec).
  destruct (Hcs c Hin) as (q & Eq & Hq).
  assert (D0 : forall gg, data_source g0 gg c = Some (q, c_buffer c)).
  { intros gg. unfold data_source. rewrite Eq, (proj2 (existsb_nat q (nodes g0)) Hq). reflexivity. }
  destruct (c_backprop c && shared (heap g0) q) eqn:Eb.
  - apply andb_prop in Eb as [Eb Es]. destruct (A q Hq Es) as (ga & A1 & A2 & (gn & G1 & _ & G3 & _) & _ & A5 & _).
    destruct (A5 k i c Hk Ec Eq Eb) as (b & _ & Ec'). eexists. split; [exact Ec'|]. rewrite D0. split; [|discriminate].
    unfold data_source. cbn [c_node]. rewrite (proj2 (existsb_nat_false ga (nodes g0)) A2).
    unfold connection_at. rewrite G1, G3. cbn [nth_error c_node option_map c_buffer].
    now rewrite (H0 k i c q Hk Ec Eq Eb Es).
  - exists c. rewrite !D0. split; [|split; [reflexivity|discriminate]]. apply (C k i c Hk Ec).
    intros q' Eq' Ebp. assert (q' = q) by congruence. subst q'. rewrite Ebp in Eb. exact Eb.
Qed.

(** A node read through its second output loses its data source. *)
Theorem C19_second_output_refuted : exists g0 g c', sound g0 /\ insert_sweeps 2 g0 = Ok g /\
  connection_at (heap g0) 2 0 = Some (mkConn (Some 0) 1 true) /\
  connection_at (heap g) 2 0 = Some c' /\ data_source g0 g c' = Some (0, 0).
Proof.
  set (k := mkKind false false false false).
  set (n0 := mkNode (Some k) [] [mkB 1 0; mkB 2 1] 2 "two outputs" false false).
  set (n1 := mkNode (Some k) [mkConn (Some 0) 0 true] [] 1 "first" true false).
  set (n2 := mkNode (Some k) [mkConn (Some 0) 1 true] [] 1 "second" true false).
  exists (mkGraph [n0; n1; n2] [0; 1; 2] [] [1; 2] [] [] [] 0).
  eexists. eexists. split; [|split; [reflexivity|]; split; [reflexivity|]; split; [reflexivity|reflexivity]].
  constructor; cbn [heap nodes].
  - repeat constructor; cbn; intuition congruence.
  - intros n nd [<-|[<-|[<-|[]]]] E; injection E as <-; discriminate.
  - intros n [<-|[<-|[<-|[]]]]; cbn [nth_error]; eexists; (split; [reflexivity|]); cbn [n_inputs n0 n1 n2]; intros c; cbn [In];
      [intros []|intros [<-|[]]|intros [<-|[]]]; exists 0; cbn; auto.
  - intros n nd E. destruct n as [|[|[|n]]]; try (injection E as <-); try apply Permutation_refl.
    destruct n; discriminate.
  - intros n nd E Hi. destruct n as [|[|[|n]]]; try (injection E as <-); try discriminate. destruct n; discriminate.
Qed.

(** The accumulation layer's backward pass: the gradient it hands to the producer is, at
    every element, the sum of its consumers' gradients, added up in the order of the
    outputs; what was there before does not matter. *)
Theorem C19_gradient_sum {D} (zero : D) (add : D -> D -> D) samples eps deltas_out delta_in :
  length delta_in = samples * eps -> Forall (fun d => length d = samples * eps) deltas_out ->
  exists r, accumulate D zero add samples eps deltas_out delta_in = Ok r /\ length r = length delta_in /\
    forall e, e < length delta_in ->
      nth_error r e = Some (fold_left add (map (fun d => nth e d zero) deltas_out) zero).
Proof. apply accumulate_spec. Qed.

(** ** From AddNode to the passes *)
(** A network built with AddNode and initialized runs both passes in dependency order. *)
Theorem C18_built_network h0 history flagged flagged2 fuel :
  NoDup history -> closed h0 history -> (forall n nd, In n history -> nth_error h0 n = Some nd -> n_layer nd <> None) ->
  (forall n nd, nth_error h0 n = Some nd -> n_backprop nd = []) -> acyclic (reads h0) history ->
  exists g0 g, add_nodes (new_graph h0) (map Some history) = Ok g0 /\ insert_sweeps 2 g0 = Ok g /\
    incl history (nodes g) /\
    (length (nodes g) < fuel ->
     (exists fl order, feed_forward fuel g flagged = Ok (fl, order) /\ NoDup order /\
        (forall n, In n order <-> In n (nodes g)) /\
        forall n q, In n (nodes g) -> reads (heap g) n q -> before q n order) /\
     (exists fl order, back_propagate fuel g flagged2 = Ok (fl, map (fun n => (n, do_backprop (heap g) n)) order) /\ NoDup order /\
        (forall n, In n order <-> In n (nodes g)) /\
        forall n k, In n (nodes g) -> In k (nodes g) -> wants_gradient (heap g) k n -> before k n order)).
Proof.
  intros Nd Cl Ly Bp Ac. destruct (C21_built h0 history Nd Cl Ly Bp) as (g0 & E0 & Eh & S0 & A0).
  destruct (C19_accumulation_nodes g0 2 S0 (le_n 2)) as (g & E & _ & _ & _ & (extra & En & _) & _ & _ & S & A).
  exists g0, g. split; [exact E0|]. split; [exact E|]. rewrite Eh in *.
  split; [intros x Hx; rewrite En; apply in_or_app; now left|].
  specialize (A (A0 Ac)). intros Hf. split.
  - apply C17_feed_forward; [apply (sound_closed g S)|exact A|exact Hf].
  - unfold back_propagate, back_propagate_nodes.
    apply (backward_spec (fun n => (n, do_backprop (heap g) n))); auto; [apply (sound_closed g S)|apply (sound_consistent g S)|].
    intros x Hx Hfl. apply clear_flags_out in Hfl. contradiction.
Qed.

(** ** C22 *)
(** IsComplete answers without failing exactly when no node lacks a layer and no pointer
    dangles, and then says true exactly for usable networks. *)
Theorem C22_is_complete g :
  (inspectable g <-> exists b, is_complete g = Ok b) /\
  (is_complete g = Ok true <-> usable g).
Proof.
  assert (D : inspectable g <-> exists b, is_complete g = Ok b).
  { split; [intros H; destruct (is_complete_decides g H) as (b & E & _); eauto|].
    intros (b & E). exact (is_complete_inv g b E). }
  split; [exact D|]. split.
  - intros E. assert (I : inspectable g) by (apply D; eauto). destruct (is_complete_decides g I) as (b & E' & H).
    apply H. congruence.
  - intros U. assert (I : inspectable g).
    { destruct U as (_ & _ & U). intros n Hn. destruct (U n Hn) as (nd & En & El & _ & _ & Hc). exists nd.
      split; [exact En|]. split; [exact El|]. intros c q Hi Eq. destruct (Hc c Hi) as (q' & m & Eq' & Em & _).
      apply nth_error_Some. congruence. }
    destruct (is_complete_decides g I) as (b & E' & H). rewrite E'. f_equal. now apply H.
Qed.

(** Connections to nodes outside the network are accepted. *)
Theorem C22_outside_node_accepted : exists g n q, is_complete g = Ok true /\ In n (nodes g) /\
  reads (heap g) n q /\ ~ In q (nodes g).
Proof.
  set (k := mkKind false false false false).
  exists (mkGraph [mkNode (Some k) [] [] 1 "in" false true;
                   mkNode (Some k) [mkConn (Some 0) 0 false; mkConn (Some 2) 0 false] [] 1 "out" true false;
                   mkNode (Some k) [] [] 1 "elsewhere" false true] [0; 1] [0] [1] [] [] [] 0), 1, 2.
  split; [reflexivity|]. split; [cbn; auto|]. split.
  - eexists. exists (mkConn (Some 2) 0 false). split; [reflexivity|]. cbn. auto.
  - cbn. intuition congruence.
Qed.

(** A node whose layer is missing is not reported: the check itself fails. *)
Theorem C22_missing_layer_refuted : exists g, ~ usable g /\ is_complete g = UB.
Proof.
  exists (mkGraph [mkNode None [] [] 1 "in" false true] [0] [0] [] [] [] [] 0). split; [|reflexivity].
  intros (_ & _ & U). destruct (U 0) as (nd & E & El & _); [now left|]. injection E as <-. now apply El.
Qed.

(** ** Examples: the hypotheses are met by a network with a shared node *)
Definition ex_kind := mkKind false false false false.
Definition ex_heap : list node :=
  [ mkNode (Some (mkKind false false true false)) [] [] 4 "" false true;           (* 0: dataset input *)
    mkNode (Some ex_kind) [mkConn (Some 0) 0 true] [] 1 "" false false;            (* 1: shared *)
    mkNode (Some ex_kind) [mkConn (Some 1) 0 true] [] 1 "left" false false;        (* 2 *)
    mkNode (Some ex_kind) [mkConn (Some 1) 0 true; mkConn (Some 1) 0 true] [] 1 "" false false; (* 3: reads 1 twice *)
    mkNode (Some (mkKind false true false false)) [mkConn (Some 2) 0 true; mkConn (Some 3) 0 true; mkConn (Some 0) 1 true] [] 1 "" true false ].
Definition ex_history : list nat := [4; 3; 0; 2; 1].

Definition graph_of (r : res graph) : graph := match r with Ok g => g | _ => new_graph [] end.
Definition ex_g0 : graph := graph_of (add_nodes (new_graph ex_heap) (map Some ex_history)).
Definition ex_g : graph := graph_of (insert_sweeps 2 ex_g0).
Example ex_built : add_nodes (new_graph ex_heap) (map Some ex_history) = Ok ex_g0 /\
  insert_sweeps 2 ex_g0 = Ok ex_g /\ shared (heap ex_g0) 1 = true /\ nodes ex_g = ex_history ++ [5] /\
  connection_at (heap ex_g) 3 0 = Some (mkConn (Some 5) 0 true) /\
  connection_at (heap ex_g) 3 1 = Some (mkConn (Some 5) 1 true) /\
  connection_at (heap ex_g) 2 0 = Some (mkConn (Some 5) 2 true) /\
  feed_forward 7 ex_g [] = Ok ([4; 3; 2; 5; 1; 0], [0; 1; 5; 2; 3; 4]) /\
  back_propagate 7 ex_g [] = Ok ([1; 5; 2; 0; 3; 4], [(4, true); (3, true); (0, false); (2, true); (5, true); (1, false)]) /\
  is_complete ex_g = Ok true.
Proof. repeat (split; [vm_compute; reflexivity|]). vm_compute. reflexivity. Qed.

Example ex_hypotheses : NoDup ex_history /\ closed ex_heap ex_history /\
  (forall n nd, In n ex_history -> nth_error ex_heap n = Some nd -> n_layer nd <> None) /\
  (forall n nd, nth_error ex_heap n = Some nd -> n_backprop nd = []) /\ acyclic (reads ex_heap) ex_history /\
  Forall (addable ex_heap) ex_history.
Proof.
  assert (Cl : closed ex_heap ex_history).
  { intros n Hn. cbn in Hn. decompose [or] Hn; subst; try contradiction; (eexists; split; [reflexivity|]); cbn [n_inputs In];
      intros c Hc; decompose [or] Hc; subst; try contradiction; eexists; (split; [reflexivity|]); cbn; auto 10. }
  assert (Ly : forall n nd, In n ex_history -> nth_error ex_heap n = Some nd -> n_layer nd <> None).
  { intros n nd Hn E. cbn in Hn. decompose [or] Hn; subst; try contradiction; injection E as <-; discriminate. }
  split; [repeat constructor; cbn; intuition lia|]. split; [exact Cl|]. split; [exact Ly|]. split; [|split].
  - intros n nd E. do 5 (destruct n as [|n]; [injection E as <-; reflexivity|]). destruct n; discriminate.
  - assert (L : forall x y, reads ex_heap x y -> y < x).
    { intros x y (nd & c & E & Hc & Ec). do 5 (destruct x as [|x]; [injection E as <-; cbn in Hc; decompose [or] Hc; subst; try contradiction;
        injection Ec as <-; lia|]). destruct x; discriminate. }
    intros n _ Hc. assert (T : forall a b, clos_trans nat (reads ex_heap) a b -> b < a) by (intros a b H; induction H; [auto|lia]).
    specialize (T n n Hc). lia.
  - apply Forall_forall. intros p Hp. destruct (Cl p Hp) as (nd & En & Hcs). exists nd. split; [exact En|].
    split; [now apply (Ly p)|]. intros c Hi _. destruct (Hcs c Hi) as (q & Eq & Hq). exists q. split; [exact Eq|].
    cbn in Hq. cbn. lia.
Qed.

Example ex_sum : accumulate nat 0 Nat.add 2 3 [[1;2;3;4;5;6]; [10;20;30;40;50;60]; [1;1;1;1;1;1]] [9;9;9;9;9;9] = Ok [12;23;34;45;56;67].
Proof. reflexivity. Qed.

Print Assumptions C17_feed_forward.
Print Assumptions C17_feed_forward_selected.
Print Assumptions C17_initialize_order.
Print Assumptions C17_cycle_refuted.
Print Assumptions C17_outside_node_refuted.
Print Assumptions C18_back_propagate.
Print Assumptions C18_weights_order.
Print Assumptions C18_built_network.
Print Assumptions C19_accumulation_nodes.
Print Assumptions C19_same_data.
Print Assumptions C19_second_output_refuted.
Print Assumptions C19_gradient_sum.
Print Assumptions C21_history.
Print Assumptions C21_refused.
Print Assumptions C21_built.
Print Assumptions C21_user_name_collision_refuted.
Print Assumptions C22_is_complete.
Print Assumptions C22_outside_node_accepted.
Print Assumptions C22_missing_layer_refuted.

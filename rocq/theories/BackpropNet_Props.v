(** C75: networks of the modelled layers. *)
From Coq Require Import String Reals Relations Permutation Lra.
From Verif Require Import Base BaseFacts Num RealNum LRN_Model Graph_Model Graph_Spec Dfs_Proofs Graph_Proofs GraphAdd_Proofs Graph_Props
  Backprop_Model Backprop_Spec Backprop_Proofs BackpropForward_Proofs BackpropBackward_Proofs BackpropBuilt_Proofs Backprop_Props
  ConvLayer_Model BackpropLayers_Model BackpropLayers_Spec BackpropLayers_Proofs BackpropLayers_Props BackpropNet_Spec BackpropNet_Proofs BackpropReady_Proofs.
Import ListNotations.
Local Open Scope nat_scope.
Local Open Scope list_scope.

(** A program's layers fit together as [composed] says; then nothing has to be assumed about
    how they work.  After a forward and a backward pass through the network, starting with
    any contents of memory and any visit flags, every number in every parameter gradient
    is the derivative of the loss the network reports with respect to this parameter,
    as long as no rectifier met a 0. *)
Theorem C75_network h0 history (parts : nat -> part) (theta : nat -> list (list R)) :
  NoDup history -> closed h0 history -> (forall n nd, In n history -> nth_error h0 n = Some nd -> n_layer nd <> None) ->
  (forall n nd, nth_error h0 n = Some nd -> n_backprop nd = []) -> acyclic (reads h0) history ->
  composed h0 history parts ->
  (forall n, In n history -> Forall2 shaped (tunes (parts n)) (theta n)) -> (forall n, ~ In n history -> theta n = []) ->
  exists g0 g, add_nodes (new_graph h0) (map Some history) = Ok g0 /\ insert_sweeps 2 g0 = Ok g /\
    forall olds n p d e fuel ff bp m,
      let network := stack history parts olds (heap g) in
      let layer k := acts (network k) in
      length (nodes g) < fuel ->
      (forall x, In x (nodes g) -> fits (network x)) ->
      (forall ff1 m1, feed_forward_memory layer theta fuel g ff m = Ok (ff1, m1) -> forall k, In k history ->
         smooth (parts k) (input_data (heap g) m1 k)) ->
      In n history -> nth_error (tunes (parts n)) p = Some d -> e < size d ->
      exists (loss : R -> R) l ff' bp' m',
        (forall v, exists st, gradient_pass R_num layer (set_param theta n p e v) fuel g ff bp m = Ok (loss v, st)) /\
        gradient_pass R_num layer theta fuel g ff bp m = Ok (l, (ff', bp', m')) /\
        derivable_pt_lim loss (nth e (nth p (theta n) []) 0%R) (nth e (nth p (m_grad m' n) []) 0%R).
Proof.
  intros Nd Cl Ly Bp Ac Co Th Th0. destruct (network_is_ready h0 history parts Nd Cl Ly Bp Ac Co) as (g0 & g & E0 & E & Rd).
  exists g0, g. split; [exact E0|]. split; [exact E|].
  intros olds n p d e fuel ff bp m network layer Hf Fi Sm Hn Ep He. specialize (Rd olds).
  apply (C75_each_parameter g layer theta n p e fuel ff bp m); try exact Hf; try apply Rd.
  - apply (network_plain h0 history g parts olds Rd). auto.
  - intros ff1 m1 E1. apply (network_differentiates h0 history g parts olds Rd Fi theta fuel ff m ff1 m1); auto. now apply (Sm ff1).
  - destruct (nr_nodes _ _ _ _ _ Rd) as (extra & ->). apply in_or_app. now left.
  - rewrite <- (Forall2_length (Th n Hn)). apply nth_error_Some. congruence.
  - destruct (forall2_nth_error _ _ _ _ _ (Th n Hn) Ep) as (t & Et & St). rewrite (nth_error_nth _ _ [] Et). now rewrite St.
Qed.
Print Assumptions C75_network.

(** ** A network that meets the hypotheses *)
(** A convolution with two maps whose output is read by a hyperbolic tangent and a logistic
    function, their sum, its normalization, a loss, and a statistics layer. *)
Definition net_heap : list node :=
  let kind := mkKind false false false false in
  [ mkNode (Some (mkKind false false true false)) [] [] 4 ""%string false true;
    mkNode (Some kind) [mkConn (Some 0) 0 true] [] 1 ""%string false false;
    mkNode (Some kind) [mkConn (Some 1) 0 true] [] 1 ""%string false false;
    mkNode (Some kind) [mkConn (Some 1) 0 true] [] 1 ""%string false false;
    mkNode (Some kind) [mkConn (Some 2) 0 true; mkConn (Some 3) 0 true] [] 1 ""%string false false;
    mkNode (Some kind) [mkConn (Some 4) 0 true] [] 1 ""%string true false;
    mkNode (Some (mkKind false true false false)) [mkConn (Some 5) 0 true; mkConn (Some 0) 1 true; mkConn (Some 0) 3 true] [] 0 ""%string false false;
    mkNode (Some (mkKind true false false false)) [mkConn (Some 5) 0 false; mkConn (Some 0) 1 false; mkConn (Some 0) 3 false] [] 0 ""%string false false ].
Definition net_history : list nat := [0; 1; 2; 3; 4; 5; 6; 7].
Definition net_conv : conv := mkConv 2 1 2 1 1 0 0 1.
Definition net_image : dims := mkDims 1 3 2 1.
Definition net_map : dims := mkDims 1 2 2 2.
Definition net_parts (st : @conv_state R) (n : nat) : part :=
  let z d := repeat 0%R (size d) in
  match n with
  | 0 => PInput [net_image; net_map; net_map; weight_dims net_map] [z net_image; z net_map; z net_map; repeat 1%R 4]
  | 1 => PConvolution net_conv net_image st (z net_map) (z net_image)
  | 2 => PTanh net_map (z net_map) (z net_map)
  | 3 => PSigmoid net_map (z net_map) (z net_map)
  | 4 => PSum net_map (z net_map) (z net_map) (z net_map)
  | 5 => PMapping (MNormalize 1%R 1%R Across 3 net_map (z net_map) (z net_map) (z net_map))
  | 6 => PLoss net_map 1%R (z net_map)
  | _ => PStatistics [net_map; net_map; weight_dims net_map]
  end.

Definition net_g0 : graph := graph_of (add_nodes (new_graph net_heap) (map Some net_history)).
Definition net_g : graph := graph_of (insert_sweeps 2 net_g0).

Example C75_network_hypotheses : exists st theta,
  NoDup net_history /\ closed net_heap net_history /\ (forall n nd, In n net_history -> nth_error net_heap n = Some nd -> n_layer nd <> None) /\
  (forall n nd, nth_error net_heap n = Some nd -> n_backprop nd = []) /\ acyclic (reads net_heap) net_history /\
  composed net_heap net_history (net_parts st) /\
  (forall n, In n net_history -> Forall2 shaped (tunes (net_parts st n)) (theta n)) /\ (forall n, ~ In n net_history -> theta n = []) /\
  exists g0 g, add_nodes (new_graph net_heap) (map Some net_history) = Ok g0 /\ insert_sweeps 2 g0 = Ok g /\ nodes g = net_history ++ [8] /\
    (forall x, In x (nodes g) -> fits (stack net_history (net_parts st) (fun _ => repeat 0%R 8) (heap g) x)) /\
    (forall k ins, In k net_history -> smooth (net_parts st k) ins).
Proof.
  destruct (Conv_Props.C35_connected R_num (fun _ => 0%R) net_conv 3 2 1 1) as (st & _ & Rd & _); [reflexivity|cbn; lia..|reflexivity|].
  exists st, (fun n => match n with 1 => [repeat 1%R 4; repeat 1%R 2] | _ => [] end).
  assert (Fi : forall n, In n net_history -> fits (net_parts st n)).
  { intros n Hn. cbn in Hn. decompose [or] Hn; subst; try contradiction; cbn [net_parts fits]; unfold shaped.
    - repeat constructor.
    - split; [eauto|]. cbn. repeat split; lia.
    - cbn. repeat split; lia.
    - cbn. repeat split; lia.
    - cbn. repeat split; lia.
    - cbn [maps_well]. split; [lra|]. cbn. repeat split; lia.
    - cbn. repeat split; lia.
    - exact I. }
  split; [repeat constructor; cbn; intuition lia|]. split; [|split; [|split; [|split; [|split; [|split; [|split]]]]]].
  - intros n Hn. cbn in Hn. decompose [or] Hn; subst; try contradiction; (eexists; split; [reflexivity|]); cbn [n_inputs In];
      intros c Hc; decompose [or] Hc; subst; try contradiction; eexists; (split; [reflexivity|]); cbn; auto 10.
  - intros n nd Hn E. cbn in Hn. decompose [or] Hn; subst; try contradiction; injection E as <-; discriminate.
  - intros n nd E. do 8 (destruct n as [|n]; [injection E as <-; reflexivity|]). destruct n; discriminate.
  - assert (L : forall x y, reads net_heap x y -> y < x).
    { intros x y (nd & c & E & Hc & Ec). do 8 (destruct x as [|x]; [injection E as <-; cbn in Hc; decompose [or] Hc; subst; try contradiction;
        injection Ec as <-; lia|]). destruct x; discriminate. }
    intros n _ Hc. assert (T : forall a b, clos_trans nat (reads net_heap) a b -> b < a) by (intros a b H; induction H; [auto|lia]).
    specialize (T n n Hc). lia.
  - constructor.
    + intros n nd Hn E. cbn in Hn. decompose [or] Hn; subst; try contradiction; injection E as <-; cbn [n_inputs takes net_parts]; repeat constructor;
        cbn [c_node c_buffer]; (eexists; split; [reflexivity|reflexivity]).
    + intros n nd Hn E. cbn in Hn. decompose [or] Hn; subst; try contradiction; injection E as <-; reflexivity.
    + intros n nd Hn E. cbn in Hn. decompose [or] Hn; subst; try contradiction; injection E as <-; cbn; auto.
    + exact Fi.
    + intros n nd Hn E. cbn in Hn. decompose [or] Hn; subst; try contradiction; injection E as <-; cbn; intuition (try discriminate; lia).
    + assert (W : forall k q nd c, nth_error net_heap k = Some nd -> In c (n_inputs nd) -> c_node c = Some q -> c_backprop c = true -> In k net_history ->
        exists k', In k' net_history /\ wants_gradient net_heap k' q) by (intros k q nd c; exists k; split; [assumption|]; exists nd, c; auto).
      intros n Hn Hi Hm. cbn in Hn. decompose [or] Hn; subst; try contradiction; try discriminate Hi; try (cbn in Hm; congruence).
      * eapply (W 2); [reflexivity|now left|reflexivity|reflexivity|cbn; auto].
      * eapply (W 4); [reflexivity|now left|reflexivity|reflexivity|cbn; auto 8].
      * eapply (W 4); [reflexivity|right; now left|reflexivity|reflexivity|cbn; auto 8].
      * eapply (W 5); [reflexivity|now left|reflexivity|reflexivity|cbn; auto 8].
      * eapply (W 6); [reflexivity|now left|reflexivity|reflexivity|cbn; auto 8].
  - intros n Hn. cbn in Hn. decompose [or] Hn; subst; try contradiction; cbn [tunes net_parts]; repeat constructor.
  - intros n Hn. destruct n as [|[|n]]; try reflexivity. exfalso. apply Hn. cbn. auto.
  - exists net_g0, net_g. split; [vm_compute; reflexivity|]. split; [vm_compute; reflexivity|]. assert (En : nodes net_g = net_history ++ [8]) by (vm_compute; reflexivity).
    split; [exact En|]. split.
    + intros x Hx. rewrite En in Hx. apply in_app_or in Hx as [Hx|[<-|[]]].
      * unfold stack. rewrite (proj2 (existsb_nat x net_history) Hx). now apply Fi.
      * unfold stack. rewrite (proj2 (existsb_nat_false 8 net_history)) by (cbn; intuition lia).
        assert (Ei : inputs_of (heap net_g) 8 = [mkConn (Some 1) 0 true]) by (vm_compute; reflexivity). rewrite Ei. reflexivity.
    + intros k ins Hk. cbn in Hk. decompose [or] Hk; subst; try contradiction; exact I.
Qed.

(** ** An output nobody asks for its gradient *)
Definition dead_heap : list node :=
  let kind := mkKind false false false false in
  [ mkNode (Some (mkKind false false true false)) [] [] 4 ""%string false true;
    mkNode (Some kind) [mkConn (Some 0) 0 true] [] 1 ""%string true false;
    mkNode (Some kind) [mkConn (Some 0) 0 true] [] 1 ""%string false false;
    mkNode (Some (mkKind false true false false)) [mkConn (Some 2) 0 true; mkConn (Some 0) 1 true; mkConn (Some 0) 3 true] [] 0 ""%string false false ].
Definition dead_g0 : graph := graph_of (add_nodes (new_graph dead_heap) (map Some [0; 1; 2; 3])).
Definition dead_g : graph := graph_of (insert_sweeps 2 dead_g0).
(** Two 1x1 convolutions of the same image 3; the loss compares the second one with 4. *)
Definition dead_layer (st : @conv_state Z) (n : nat) : behaviour Z :=
  match n with
  | 0 => input_behaviour Z_num [[3]; [4]; [0]; [1]]%Z
  | 3 => error_behaviour Z_num Z.div 2%Z (mkDims 1 1 1 1) 1%Z [0%Z]
  | _ => conv_behaviour Z_num (mkConv 1 1 1 1 1 0 0 1) (mkDims 1 1 1 1) st [0%Z] [0%Z]
  end.
Definition dead_params (n : nat) : list (list Z) := match n with 1 | 2 => [[2]; [1]]%Z | _ => [] end.
(** Gradients are left in memory by nobody, or are 5. *)
Definition dead_memory (v : Z) : memory Z := mkMemory (fun _ _ => []) (fun _ _ => [v]) (fun _ => []).
Definition dead_pass (st : @conv_state Z) (v : Z) : option (Z * (list nat * list nat) * list (list Z)) :=
  match gradient_pass Z_num (dead_layer st) dead_params 5 dead_g [] [] (dead_memory v) with
  | Ok (l, (ff, bp, r)) => Some (l, (ff, bp), m_grad r 1)
  | _ => None
  end.

(** Finding: every output of a layer has to be asked for its gradient.  The parameters of a layer
    whose output no layer hands a gradient to get gradients that depend on what is left in
    memory: BackPropagate of every layer runs and nothing clears the gradients of its
    outputs.  The loss does not depend on these parameters, and a trainer moves them at random. *)
Theorem C75_unused_output_refuted : exists h0 history g0 g (layer : nat -> behaviour Z) params m m',
  NoDup history /\ closed h0 history /\ acyclic (reads h0) history /\
  add_nodes (new_graph h0) (map Some history) = Ok g0 /\ insert_sweeps 2 g0 = Ok g /\ is_complete g = Ok true /\
  m_data m' = m_data m /\ m_grad m' = m_grad m /\
  exists l flags r r' n, In n history /\
    gradient_pass Z_num layer params 5 g [] [] m = Ok (l, (flags, r)) /\
    gradient_pass Z_num layer params 5 g [] [] m' = Ok (l, (flags, r')) /\
    m_grad r n <> m_grad r' n.
Proof.
  assert (Nd : NoDup [0; 1; 2; 3]) by (repeat constructor; cbn; intuition lia).
  assert (Cl : closed dead_heap [0; 1; 2; 3]).
  { intros n Hn. cbn in Hn. decompose [or] Hn; subst; try contradiction; (eexists; split; [reflexivity|]); cbn [n_inputs In];
      intros x Hc; decompose [or] Hc; subst; try contradiction; eexists; (split; [reflexivity|]); cbn; auto 10. }
  assert (Ac : acyclic (reads dead_heap) [0; 1; 2; 3]).
  { assert (L : forall x y, reads dead_heap x y -> y < x).
    { intros x y (nd & cc & E & Hc & Ec). do 4 (destruct x as [|x]; [injection E as <-; cbn in Hc; decompose [or] Hc; subst; try contradiction;
        injection Ec as <-; lia|]). destruct x; discriminate. }
    intros n _ Hc. assert (T : forall a b, clos_trans nat (reads dead_heap) a b -> b < a) by (intros a b H; induction H; [auto|lia]).
    specialize (T n n Hc). lia. }
  assert (Hst : exists st, conv_state_of Z_num (fun _ => 7%Z) (mkConv 1 1 1 1 1 0 0 1) 1 1 1 1 1 1 = Ok st /\
    match dead_pass st 0, dead_pass st 5 with Some (l, fl, r), Some (l', fl', r') => l = l' /\ fl = fl' /\ r <> r' | _, _ => False end).
  { assert (Such : forall X (r : res X) (P : X -> Prop), match r with Ok x => P x | _ => False end -> exists x, r = Ok x /\ P x) by (intros X [x| |] P H; [eauto|contradiction..]).
    apply Such. vm_compute. split; [reflexivity|]. split; [reflexivity|]. discriminate. }
  destruct Hst as (st & _ & Hp). exists dead_heap, [0; 1; 2; 3], dead_g0, dead_g, (dead_layer st), dead_params, (dead_memory 0), (dead_memory 5).
  split; [exact Nd|]. split; [exact Cl|]. split; [exact Ac|].
  split; [vm_compute; reflexivity|]. split; [vm_compute; reflexivity|]. split; [vm_compute; reflexivity|]. split; [reflexivity|]. split; [reflexivity|].
    unfold dead_pass in Hp. destruct (gradient_pass Z_num (dead_layer st) dead_params 5 dead_g [] [] (dead_memory 0)) as [[l [[ff bp] r]]| |]; [|contradiction..].
    destruct (gradient_pass Z_num (dead_layer st) dead_params 5 dead_g [] [] (dead_memory 5)) as [[l' [[ff' bp'] r']]| |]; [|contradiction..].
    destruct Hp as (El & Ef & Hr). rewrite <- El, <- Ef. exists l, (ff, bp), r, r', 1. split; [cbn; auto|]. auto.
Qed.
Print Assumptions C75_unused_output_refuted.

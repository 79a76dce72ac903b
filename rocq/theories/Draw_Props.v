(** C89: the drawing of a network tells its nodes and connections. *)
From Coq Require Import String Ascii Decimal DecimalString DecimalNat.
From Verif Require Import Base BaseFacts Graph_Model Draw_Model Draw_Spec Graph_Spec Graph_Props Draw_Proofs.
Local Open Scope list_scope.

(** The file of a network: reading its lines gives the nodes in order, inputs red and outputs blue, each labelled with
    its name, its layer and a port for each output; and the connections in order, each from the port of the output it
    reads to the node that reads it, dotted exactly when no gradient is handed back.  Nothing else is declared or drawn. *)
Theorem C89_file : forall layer_text buffer_text buffer_shape g file,
  (forall p, one_line (layer_text p)) -> (forall p i, one_line (buffer_text p i)) ->
  Forall (fun n => plain_name (n_name n)) (heap g) ->
  graph_file layer_text buffer_text buffer_shape g = Ok file ->
  read_nodes file = nodes_of layer_text buffer_text buffer_shape (heap g) (nodes g) /\
  read_edges file = connections_of (heap g) (nodes g).
Proof. intros lt bt bs g file Hl Hb P E. exact (file_tells lt bt bs Hl Hb g file E P). Qed.

(** Names that AddNode gives do not disturb the file. *)
Theorem C89_automatic_names : forall uid, plain_name (auto_name uid).
Proof.
  intros uid. unfold plain_name, auto_name. rewrite chars_app. fold (number_text uid).
  repeat split; intros H; apply in_app_or in H as [H|H]; try (cbn in H; intuition discriminate); revert H; apply number_no; cbn; intuition discriminate.
Qed.

(** A network that IsComplete accepts can be drawn, and every edge starts at a port that its source has. *)
Theorem C89_complete : forall layer_text buffer_text buffer_shape g, is_complete g = Ok true ->
  (exists file, graph_file layer_text buffer_text buffer_shape g = Ok file) /\
  forall source buffer target solid, In (source, buffer, target, solid) (connections_of (heap g) (nodes g)) ->
    exists m, In m (heap g) /\ source = #(n_name m) /\ buffer < n_buffers m.
Proof.
  intros lt bt bs g H. apply C22_is_complete in H. destruct H as (_ & _ & U).
  assert (D : Forall (drawable (heap g)) (nodes g)).
  { apply Forall_forall. intros p Hp. destruct (U p Hp) as (n & En & El & _ & _ & C). exists n. split; [exact En|]. split; [exact El|].
    intros c Hc. destruct (C c Hc) as (q & m & E1 & E2 & _). eauto. }
  split.
  - unfold graph_file, print_graph. destruct (nodes g) as [|p ps]; [eexists; reflexivity|].
    destruct (nodes_fold_ok lt bt bs (heap g) (p :: ps) ("graph [ranksep=.75, esep=1];"%string, ""%string) D) as (st & ->). eexists. reflexivity.
  - intros s b t solid Hin. apply in_flat_map in Hin as (p & Hp & Hin). destruct (U p Hp) as (n & En & _ & _ & _ & C). rewrite En in Hin.
    apply in_flat_map in Hin as (c & Hc & Hin). destruct (C c Hc) as (q & m & E1 & E2 & L). rewrite E1, E2 in Hin. destruct Hin as [Hin|[]]. injection Hin as <- <- _ _.
    exists m. split; [eapply nth_error_In; exact E2|]. auto.
Qed.

(** A network of two inputs, a layer that reads both (and hands no gradient back), and an output that reads the second
    output of the layer. *)
Definition drawn_kind : layer_kind := mkKind false false false false.
Definition drawn (source : nat) : graph :=
  mkGraph [mkNode (Some drawn_kind) [] [] 1 "x" false true; mkNode (Some drawn_kind) [] [] 1 "x" false true;
           mkNode (Some drawn_kind) [mkConn (Some source) 0 false] [mkB 3 1] 2 "y" false false;
           mkNode (Some drawn_kind) [mkConn (Some 2) 1 true] [] 1 "z" true false]
          [0; 1; 2; 3] [0; 1] [3] [] [] [] 0.
Example C89_witness : is_complete (drawn 0) = Ok true /\ Forall (fun n => plain_name (n_name n)) (heap (drawn 0)) /\
  exists file, graph_file (fun _ => "Layer"%string) (fun _ _ => "Output"%string) (fun _ _ => (1, 2, 3, 4)) (drawn 0) = Ok file /\
    read_edges file = [(#"x", 0, #"y", false); (#"y", 1, #"z", true)] /\
    nth_error (read_nodes file) 2 = Some (#"y", false, false, #"{ <i> y: Layer| {<o0>Output (1s@2x3x4m)|<o1>Output (1s@2x3x4m)}}") /\
    nth_error (read_nodes file) 3 = Some (#"z", false, true, #"{ <i> z: Layer| <o0> Output (1s@2x3x4m)}").
Proof.
  split; [reflexivity|]. split; [repeat constructor; cbn; intuition discriminate|]. eexists. split; [vm_compute; reflexivity|].
  split; [vm_compute; reflexivity|]. split; vm_compute; reflexivity.
Qed.

(** Finding: nodes are drawn under their names, and names given by the user need not be unique (see C21).  Then different
    networks have the same drawing: which of the nodes of one name a layer reads cannot be told. *)
Theorem C89_same_names_refuted : exists g1 g2, is_complete g1 = Ok true /\ is_complete g2 = Ok true /\
  (exists n, reads (heap g1) n 0 /\ ~ reads (heap g2) n 0) /\
  forall layer_text buffer_text buffer_shape, graph_file layer_text buffer_text buffer_shape g1 = graph_file layer_text buffer_text buffer_shape g2.
Proof.
  exists (drawn 0), (drawn 1). split; [reflexivity|]. split; [reflexivity|]. split; [|reflexivity].
  exists 2. split.
  - exists (mkNode (Some drawn_kind) [mkConn (Some 0) 0 false] [mkB 3 1] 2 "y" false false), (mkConn (Some 0) 0 false). cbn. auto.
  - intros (nd & c & E & Hc & Eq). cbn in E. injection E as <-. destruct Hc as [<-|[]]. discriminate.
Qed.

Print Assumptions C89_file.
Print Assumptions C89_automatic_names.
Print Assumptions C89_complete.
Print Assumptions C89_same_names_refuted.

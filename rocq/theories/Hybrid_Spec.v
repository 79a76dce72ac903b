(** What C78 talks about. *)
From Coq Require Import String List.
From Verif Require Import Base Str_Model Graph_Model Graph_Spec Receptive_Model Factory_Model Factory_Spec Hybrid_Model.
Local Open Scope string_scope.
Local Open Scope list_scope.
Local Open Scope nat_scope.

(** A line that has the same meaning for both networks: the word flatten does not occur in it, or it asks for that layer. *)
Definition flattens (line : str) : Prop := begins "?flatten" line /\ ~ mentions "(o)" line /\ ~ mentions "fullyconnected" line.
Definition neutral (line : str) : Prop := ~ mentions "flatten" line \/ flattens line.

(** A network that consists of its input so far; [data] leads to the images. *)
Record only_data (g : graph) (data : connection) : Prop := mkOnlyData {
  data_healthy : healthy g;
  data_outputs : four_outputs g data;
  data_images : c_buffer data = 0;
  data_input : exists n nd, In n (nodes g) /\ nth_error (heap g) n = Some nd /\ n_is_input nd = true;
  data_no_output : forall n nd, In n (nodes g) -> nth_error (heap g) n = Some nd -> n_is_output nd = false }.

Section Twins.
Context {D : Type}.
Notation layer := (@layer D).
Notation fstate := (@fstate D).

(** The layers [made'] are the layers [made] in the same order, with the layers [extra] in between;
    [twins] are the nodes of the same layer in both networks. *)
Inductive aligned : list (nat * layer) -> list (nat * layer) -> list (nat * nat) -> list (nat * layer) -> Prop :=
| aligned_nil : aligned [] [] [] []
| aligned_both made made' twins extra p p' l :
    aligned made made' twins extra -> aligned (made ++ [(p, l)]) (made' ++ [(p', l)]) (twins ++ [(p, p')]) extra
| aligned_extra made made' twins extra p' l :
    aligned made made' twins extra -> aligned made (made' ++ [(p', l)]) twins (extra ++ [(p', l)]).

(** Connection [c'] of the second network leads to the output [c] leads to in the first one: an output of
    the data node or of the twin, directly or by way of extra nodes, each of which has one input. *)
Inductive leads (data data' : connection) (h' : list node) (twins : list (nat * nat)) (extra : list (nat * layer)) : connection -> connection -> Prop :=
| leads_data c c' : c_node c = c_node data -> c_node c' = c_node data' -> c_buffer c = c_buffer c' -> leads data data' h' twins extra c c'
| leads_twin c c' p p' : In (p, p') twins -> c_node c = Some p -> c_node c' = Some p' -> c_buffer c = c_buffer c' -> leads data data' h' twins extra c c'
| leads_extra c c' q nd c'' : In q (map fst extra) -> c_node c' = Some q -> c_buffer c' = 0 ->
    nth_error h' q = Some nd -> n_inputs nd = [c''] -> leads data data' h' twins extra c c'' -> leads data data' h' twins extra c c'.

(** The layers for whole images: a border as wide as the receptive field, and magnification to the size of the image. *)
Definition whole_image (cfg : geo) (l : layer) : Prop :=
  l = LResize (a_rf (g_x cfg)) (a_rf (g_y cfg)) \/ l = LUpscale (to_uint (a_factor (g_x cfg))) (to_uint (a_factor (g_y cfg))).

(** The network of [st'] is the network of [st] with layers for whole images in between: it has the same layers in the same
    order (with the same seeds of their random numbers), they are connected in the same way, and so are the outputs. *)
Definition image_version (cfg : geo) (data data' : connection) (st st' : fstate) : Prop :=
  exists twins extra,
    aligned (f_made st) (f_made st') twins extra /\
    Forall (fun x => whole_image cfg (snd x)) extra /\
    (forall p p', In (p, p') twins -> exists nd nd', nth_error (heap (f_graph st)) p = Some nd /\ nth_error (heap (f_graph st')) p' = Some nd' /\
       Forall2 (leads data data' (heap (f_graph st')) twins extra) (n_inputs nd) (n_inputs nd')) /\
    Forall2 (fun q q' => leads data data' (heap (f_graph st')) twins extra (mkConn (Some q) 0 true) (mkConn (Some q') 0 true))
      (outputs_of (f_graph st) (f_made st)) (outputs_of (f_graph st') (f_made st')).

(** The sizes of the tensors in a network whose data node has outputs of the sizes [source]: [sized c d] says that
    connection [c] leads to a tensor of size [d]. *)
Inductive sized (h : list node) (made : list (nat * layer)) (data : connection) (source : nat -> dims) : connection -> dims -> Prop :=
| sized_data c : c_node c = c_node data -> sized h made data source c (source (c_buffer c))
| sized_layer c p l nd ds os d : c_node c = Some p -> In (p, l) made -> nth_error h p = Some nd ->
    all_sized h made data source (n_inputs nd) ds -> create_outputs l ds = Some os -> nth_error os (c_buffer c) = Some d ->
    sized h made data source c d
with all_sized (h : list node) (made : list (nat * layer)) (data : connection) (source : nat -> dims) : list connection -> list dims -> Prop :=
| all_sized_nil : all_sized h made data source [] []
| all_sized_cons c cs d ds : sized h made data source c d -> all_sized h made data source cs ds -> all_sized h made data source (c :: cs) (d :: ds).

(** The parameters of the network, node by node: every layer accepts its inputs. *)
Definition parameters (h : list node) (made : list (nat * layer)) (data : connection) (source : nat -> dims) (ps : list (list dims)) : Prop :=
  Forall2 (fun x p => exists nd ds, nth_error h (fst x) = Some nd /\ all_sized h made data source (n_inputs nd) ds /\
    create_outputs (snd x) ds <> None /\ p = parameters_of (snd x) ds) made ps.
End Twins.

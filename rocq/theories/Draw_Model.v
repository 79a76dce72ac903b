(** Model of NetGraph::PrintGraph (src/net/NetGraph.cpp:149-205) and of the command "graph" of the training tool, which
    writes the file (tools/trainNetwork.cpp:426-435), for the graphs of [Graph_Model]. *)
From Coq Require Import String Ascii Decimal DecimalString.
From Verif Require Import Base Graph_Model.
Local Open Scope string_scope.

Definition newline : string := String (ascii_of_nat 10) "".
Definition quote : string := String (ascii_of_nat 34) "".

(** operator<< for std::size_t and unsigned int. *)
Definition number_text (n : nat) : string := NilEmpty.string_of_uint (Nat.to_uint n).

(** Tensor.cpp:704-707. *)
Definition shape_text (s w h m : nat) : string :=
  "(" ++ number_text s ++ "s@" ++ number_text w ++ "x" ++ number_text h ++ "x" ++ number_text m ++ "m)".

Section Draw.
(** node->layer->GetLayerDescription(), and description and shape of the output buffers of a node; given per node. *)
Variable layer_text : nat -> string.
Variable buffer_text : nat -> nat -> string.
Variable buffer_shape : nat -> nat -> nat * nat * nat * nat.

Definition buffer_entry (p i : nat) : string :=
  let '(s, w, h, m) := buffer_shape p i in buffer_text p i ++ " " ++ shape_text s w h m.

(** Lines 170-183. *)
Definition ports (p : nat) (n : node) : string :=
  if (1 <? n_buffers n)%nat then
    "| {" ++ fold_left (fun out i => out ++ (if (0 <? i)%nat then "|" else "") ++ "<o" ++ number_text i ++ ">" ++ buffer_entry p i)
                       (seq 0 (n_buffers n)) "" ++ "}"
  else if (n_buffers n =? 1)%nat then "| <o0> " ++ buffer_entry p 0
  else "".

(** Lines 158-184. *)
Definition node_text (p : nat) (n : node) : string :=
  n_name n ++ " [shape=record," ++ (if n_is_input n then "color=red," else "") ++ (if n_is_output n then "color=blue," else "")
  ++ " label=" ++ quote ++ "{ <i> " ++ n_name n ++ ": " ++ layer_text p ++ ports p n ++ "}" ++ quote ++ "];" ++ newline.

(** Lines 187-194. *)
Definition edge_text (h : list node) (n : node) (c : connection) : res string :=
  match c_node c with
  | None => UB
  | Some q =>
    m <- load h q ;;
    Ok (n_name m ++ ":o" ++ number_text (c_buffer c) ++ " -> " ++ n_name n ++ ":i" ++ "[penwidth=2"
        ++ (if c_backprop c then "" else ",style=dotted") ++ "];" ++ newline)
  end.

(** Lines 149-205: the two streams. *)
Definition print_node (h : list node) (st : string * string) (p : nat) : res (string * string) :=
  n <- load h p ;;
  match n_layer n with
  | None => UB
  | Some _ =>
    edges <- foldm (fun out c => e <- edge_text h n c ;; Ok (out ++ e)) (n_inputs n) (snd st) ;;
    Ok (fst st ++ node_text p n, edges)
  end.
Definition print_graph (g : graph) : res string :=
  match nodes g with
  | [] => Ok ""
  | _ =>
    st <- foldm (print_node (heap g)) (nodes g) ("graph [ranksep=.75, esep=1];", "") ;;
    Ok (fst st ++ snd st)
  end.

(** trainNetwork.cpp:426-435. *)
Definition graph_file (g : graph) : res string :=
  t <- print_graph g ;; Ok ("digraph G {" ++ t ++ "}").
End Draw.

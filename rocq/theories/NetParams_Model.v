(** Model of NetGraph::SerializeParameters and DeserializeParameters
    (src/net/NetGraph.cpp:392-421).  The parameters of a network are given per node, in
    the order of nodes_; OpenCL transfers and log output are not modelled. *)
From Verif Require Import Base Float32 Bytes_Model Tensor_Model Stream_Model.

(** NetGraph.cpp:392-400. *)
Definition serialize_parameters (layers : list (list (tensor f32))) : list byte :=
  flat_map (fun ps => flat_map serialize ps) layers.

(** NetGraph.cpp:408-419: one layer; [break] leaves the remaining parameters alone. *)
Fixpoint load_layer (junk : nat -> f32) (ps : list (tensor f32)) (s : istream) : res (list (tensor f32) * istream) :=
  match ps with
  | [] => Ok ([], s)
  | t :: ps' =>
    if negb (good s) || eofbit s then Ok (ps, s)
    else
      r <- deserialize junk t false s ;;
      let '(t', s') := r in
      r' <- load_layer junk ps' (is_peek s') ;;
      let '(ps'', s'') := r' in Ok (t' :: ps'', s'')
  end.
Fixpoint load_layers (junk : nat -> f32) (ls : list (list (tensor f32))) (s : istream)
  : res (list (list (tensor f32)) * istream) :=
  match ls with
  | [] => Ok ([], s)
  | ps :: ls' =>
    r <- load_layer junk ps s ;;
    let '(ps', s') := r in
    r' <- load_layers junk ls' s' ;;
    let '(ls'', s'') := r' in Ok (ps' :: ls'', s'')
  end.

(** NetGraph.cpp:402-421.  With no nodes, line 405 wraps around and line 407 reads
    outside nodes_. *)
Definition deserialize_parameters (junk : nat -> f32) (layers : list (list (tensor f32))) (last_layer : nat) (s : istream)
  : res (list (list (tensor f32)) * istream) :=
  match layers with
  | [] => UB
  | _ =>
    let last := if (last_layer =? 0) || (length layers <=? last_layer) then length layers - 1 else last_layer in
    r <- load_layers junk (firstn (S last) layers) s ;;
    let '(ls, s') := r in Ok (ls ++ skipn (S last) layers, s')
  end.

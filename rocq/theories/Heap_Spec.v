(** What a history of tensor operations may do (C07). *)
From Verif Require Import Base Heap_Model.

Section Spec.
Context {D : Type}.
Notation state := (Heap_Model.state D).
Notation op := (Heap_Model.op D).

(** Tensor [i] exists and is described by [h]. *)
Definition is_tensor (st : state) (i : nat) (h : handle) : Prop := nth_error (tensors st) i = Some (Some h).
(** Tensor [i] owns block [a]; tensor [i] has block [a] (as owner or as shadow). *)
Definition owns (st : state) (i a : nat) : Prop := exists h, is_tensor st i h /\ h_ptr h = Some a /\ h_shadow h = false.
Definition has (st : state) (i a : nat) : Prop := exists h, is_tensor st i h /\ h_ptr h = Some a.
Definition live (st : state) (a : nat) : Prop := exists b, nth_error (blocks st) a = Some b /\ b_live b = true.
Definition contents (st : state) (a : nat) : option (list D) := option_map b_data (nth_error (blocks st) a).
(** The memory of the tensor is owned by some existing tensor (always so if the tensor is not a shadow). *)
Definition backed (st : state) (h : handle) : Prop := exists a k, h_ptr h = Some a /\ owns st k a.

(** The operations the class supports.  Moving a shadow or a mapped tensor, mapping a file into a tensor that
    is mapped already, shadowing a tensor without memory (or oneself), and accessing a shadow whose owner has
    gone are excluded; for each of these there is a refutation in [Heap_Props]. *)
Definition allowed (st : state) (o : op) : Prop :=
  match o with
  | New _ _ _ _ => True
  | Copy j => exists h, is_tensor st j h /\ (h_ptr h = None \/ backed st h)
  | Move j => exists h, is_tensor st j h /\ h_shadow h = false /\ h_mapped h = false
  | Destroy i => exists h, is_tensor st i h
  | Resize i _ _ _ _ => exists h, is_tensor st i h
  | Shadow i j => i <> j /\ (exists h, is_tensor st i h) /\ (exists a, has st j a)
  | MapFile i s w d m _ file => (exists h, is_tensor st i h /\ h_mapped h = false) /\ length file = s * m * w * d
  | Write i e _ => exists h a b, is_tensor st i h /\ backed st h /\ e < h_elements h /\ h_ptr h = Some a /\ nth_error (blocks st) a = Some b /\ b_origin b = FromNew
  | Read i e => exists h, is_tensor st i h /\ backed st h /\ e < h_elements h
  end.

(** Every operation of a history is allowed in the state it meets. *)
Inductive history (step : state -> op -> res state) : state -> list op -> state -> Prop :=
| history_nil st : history step st [] st
| history_cons st o st' ops st'' : allowed st o -> step st o = Ok st' -> history step st' ops st'' -> history step st (o :: ops) st''.
End Spec.

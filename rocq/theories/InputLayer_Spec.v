(** Specification of the input layer (C93). *)
From Verif Require Import Base Heap_Model Heap_Spec InputLayer_Model.

Section Spec.
Context {D : Type}.
Definition same_shape (h t : handle) : Prop :=
  h_samples h = h_samples t /\ h_width h = h_width t /\ h_height h = h_height t /\ h_maps h = h_maps t /\ h_elements h = h_elements t.

(** What a tensor [i] holds at element [e], as a program that reads it finds it. *)
Definition element (st : state D) (i e : nat) : res D := h <- find st i ;; read st h e.

(** Tensor [o] shows the memory of tensor [u], and borrows it. *)
Definition shows (st : state D) (o u : nat) : Prop :=
  exists h t, is_tensor st o h /\ is_tensor st u t /\ same_shape h t /\ h_ptr h = h_ptr t /\ h_shadow h = true.
(** Tensor [i] has the shape of [h] and memory of its own that nobody had in [before]. *)
Definition own_memory (before st : state D) (i : nat) (h : handle) : Prop :=
  exists k a, is_tensor st i k /\ same_shape k h /\ h_ptr k = Some a /\ h_shadow k = false /\ length (blocks before) <= a.
(** The description of a tensor of a given shape. *)
Definition of_shape (s w d m : nat) : handle := mkHandle s w d m (s * m * w * d) None false false None.

(** All that existed is as it was. *)
Definition kept (before st : state D) : Prop :=
  (forall i h, is_tensor before i h -> is_tensor st i h) /\ (forall a l, contents before a = Some l -> contents st a = Some l) /\ (forall a, live before a -> live st a).

(** Operations that leave the memory of tensor [i] where it is: everything but moving, destroying, resizing, redirecting and remapping it. *)
Definition stays (i : nat) (o : op D) : Prop :=
  match o with Move j | Destroy j | Resize j _ _ _ _ | Shadow j _ | MapFile j _ _ _ _ _ _ => j <> i | _ => True end.
End Spec.

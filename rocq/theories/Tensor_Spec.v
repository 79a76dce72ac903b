(** Specification vocabulary for tensors, independent of the operations. *)
From Verif Require Import Base Float32 Tensor_Model.

(** A tensor as users see it: memory present with one element per coordinate,
    or no memory and shape zero.  [wf_tensor_reachable] in [Tensor_Props] shows
    every history of operations keeps tensors in this form. *)
Definition wf {D} (t : tensor D) : Prop :=
  elements t = samples t * maps t * height t * width t /\
  match data t with
  | Some l => length l = elements t /\ 0 < elements t
  | None => samples t = 0 /\ width t = 0 /\ height t = 0 /\ maps t = 0
  end.

(** (x, y, m, s) is a position of the tensor. *)
Definition valid_pos {D} (t : tensor D) (x y m s : nat) : Prop :=
  x < width t /\ y < height t /\ m < maps t /\ s < samples t.

(** The value at a position, as an option (None: no such position). *)
Definition at_pos {D} (t : tensor D) (x y m s : nat) : option D :=
  if (x <? width t) && (y <? height t) && (m <? maps t) && (s <? samples t) then
    match data t with Some l => nth_error l (offset t x y m s) | None => None end
  else None.

Definition same_shape {D} (t u : tensor D) : Prop :=
  samples t = samples u /\ width t = width u /\ height t = height u /\ maps t = maps u.

(** What a search for the largest of [n] values [val 0 .. val (n-1)] that starts
    below [start] must answer. *)
Definition first_largest (n : nat) (val : nat -> f32) (start : f32) (r : nat) : Prop :=
  (r = 0 /\ forall i, i < n -> fgt (val i) start = false) \/
  (r < n /\ fgt (val r) start = true /\
   (forall i, i < n -> fgt (val i) (val r) = false) /\
   (forall i, i < r -> fge (val i) (val r) = false)).

(** A history of calls that change a tensor's shape or contents. *)
Inductive tensor_op (D : Type) : Type :=
| OpReshape (s w h m : nat)
| OpResize (s w h m : nat)
| OpClear (v : D) (sample : option nat)
| OpTranspose.
Arguments OpReshape {D} s w h m.
Arguments OpResize {D} s w h m.
Arguments OpClear {D} v sample.
Arguments OpTranspose {D}.

Definition tensor_step {D} (junk : nat -> D) (t : tensor D) (o : tensor_op D) : res (tensor D) :=
  match o with
  | OpReshape s w h m => Ok (fst (reshape t s w h m))
  | OpResize s w h m => Ok (resize junk t s w h m)
  | OpClear v sample => clear t v sample
  | OpTranspose => transpose junk t
  end.

(** Small-step model of the parallel loops ([#pragma omp parallel for default(shared)]).

    Every iteration is a thread of its own.  OpenMP hands each iteration to some thread and a
    thread runs its iterations one after the other, so every execution of the C++ program is
    among the executions of this model, whatever the number of threads and the chunks.
    An element update takes two steps: reading the old value and storing the new one; other
    threads may act in between.  Simplifications: memory is sequentially consistent (the theorems
    show that there is no data race, in which case the C++ memory model agrees), and the tensors
    which the loop only reads are not part of the memory: a value computed from them is a
    constant. *)
From Verif Require Import Base Tensor_Model.

(** Which of the written buffers, which element, what value. *)
Notation action D := (nat * nat * res D)%type.
(** What is left of an iteration; the old value if the next update has been read already. *)
Notation thread D := (list (action D) * option D)%type.
Notation memory D := (list (list D)).

Section ParModel.
Context {D : Type}.
(** What an update makes of the old and the new value: see [exec_with]. *)
Variable comb : D -> D -> D.

Inductive state : Type :=
| Running (mem : memory D) (ts : list (thread D))
| Fault.

Definition cell (mem : memory D) (k a : nat) : option D :=
  match nth_error mem k with Some b => nth_error b a | None => None end.
Definition set_cell (mem : memory D) (k a : nat) (v : D) : memory D :=
  match nth_error mem k with Some b => upd mem k (upd b a v) | None => mem end.

Inductive step : state -> state -> Prop :=
| step_read i k a v rest old mem ts :
    nth_error ts i = Some ((k, a, Ok v) :: rest, None) -> cell mem k a = Some old ->
    step (Running mem ts) (Running mem (upd ts i ((k, a, Ok v) :: rest, Some old)))
| step_write i k a v rest old mem ts :
    nth_error ts i = Some ((k, a, Ok v) :: rest, Some old) ->
    step (Running mem ts) (Running (set_cell mem k a (comb old v)) (upd ts i (rest, None)))
| step_fault i k a rv rest mem ts :
    nth_error ts i = Some ((k, a, rv) :: rest, None) -> (forall v, rv <> Ok v) \/ cell mem k a = None ->
    step (Running mem ts) Fault.

Inductive steps : state -> state -> Prop :=
| steps_refl st : steps st st
| steps_next st1 st2 st3 : steps st1 st2 -> step st2 st3 -> steps st1 st3.

(** The parallel loop over [n] iterations. *)
Definition start (mem : memory D) (n : nat) (body : nat -> list (action D)) : state :=
  Running mem (map (fun i => (body i, None)) (seq 0 n)).

Definition done (ts : list (thread D)) : Prop := forall t, In t ts -> t = ([], None).

(** The location the next step of a thread reads or writes. *)
Definition next_loc (t : thread D) : option (nat * nat) :=
  match fst t with (k, a, _) :: _ => Some (k, a) | [] => None end.
(** Two different threads about to access the same element. *)
Definition race (ts : list (thread D)) : Prop :=
  exists i j ti tj l, i <> j /\ nth_error ts i = Some ti /\ nth_error ts j = Some tj /\ next_loc ti = Some l /\ next_loc tj = Some l.

(** The steps still to be done. *)
Definition thread_work (t : thread D) : nat := match snd t with Some _ => 2 * length (fst t) - 1 | None => 2 * length (fst t) end.
Definition work (st : state) : nat := match st with Running _ ts => S (list_sum (map thread_work ts)) | Fault => 0 end.

(** Every execution of the parallel loop: no fault and no race at any point, never stuck before
    the loop is done, and when it is done the memory is [mem']. *)
Definition always_ends_in (mem : memory D) (n : nat) (body : nat -> list (action D)) (mem' : memory D) : Prop :=
  forall st, steps (start mem n body) st ->
  exists m ts, st = Running m ts /\ ~ race ts /\ (done ts \/ exists st', step st st') /\ (done ts -> m = mem').
End ParModel.

(** Stores of one buffer as actions. *)
Definition on {D} (k : nat) (ops : list (nat * res D)) : list (action D) := map (fun op => (k, fst op, snd op)) ops.
(** The stores of a list of actions that go to buffer [k]. *)
Definition only {D} (k : nat) (acts : list (action D)) : list (nat * res D) :=
  flat_map (fun act => match act with (k', a, rv) => if k' =? k then [(a, rv)] else [] end) acts.

(** The memory of a tensor. *)
Definition buf {D} (t : tensor D) : list D := match data t with Some b => b | None => [] end.

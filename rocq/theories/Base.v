(** Shared vocabulary of the model: outcomes, buffers, counted loops. *)
From Coq Require Export List Arith Lia ZArith Bool.
Export ListNotations.

(** Outcome of a piece of C++ code.  [Fatal] models the FATAL macro
    (include/cn24/util/Log.h: logs and throws std::runtime_error); [UB] models
    undefined behaviour: an access outside a buffer, or use of released memory. *)
Inductive res (A : Type) : Type :=
| Ok (a : A)
| Fatal
| UB.
Arguments Ok {A} a.
Arguments Fatal {A}.
Arguments UB {A}.

Definition bind {A B} (r : res A) (f : A -> res B) : res B :=
  match r with Ok a => f a | Fatal => Fatal | UB => UB end.
Notation "x <- r ;; e" := (bind r (fun x => e)) (at level 61, r at next level, right associativity).

Definition rmap {A B} (f : A -> B) (r : res A) : res B :=
  match r with Ok a => Ok (f a) | Fatal => Fatal | UB => UB end.

(** The values of the iterations of [for (i = a; i < b; i++)]. *)
Definition range (a b : nat) : list nat := seq a (b - a).

(** [for (i = 0; i < n; i++) body i], where each body is a list of actions. *)
Definition for_ {A} (n : nat) (body : nat -> list A) : list A := flat_map body (seq 0 n).
(** [for (i = a; i < b; i++) body i]. *)
Definition for_from {A} (a b : nat) (body : nat -> list A) : list A := flat_map body (range a b).

(** Buffers are lists; element access outside the list is [UB]. *)
Definition load {D} (l : list D) (a : nat) : res D :=
  match nth_error l a with Some v => Ok v | None => UB end.

Fixpoint upd {D} (l : list D) (a : nat) (v : D) : list D :=
  match l, a with
  | [], _ => []
  | _ :: t, O => v :: t
  | x :: t, S a' => x :: upd t a' v
  end.

(** [l[a] = v]. *)
Definition store {D} (l : list D) (a : nat) (v : D) : res (list D) :=
  if a <? length l then Ok (upd l a v) else UB.

(** [l[a] = comb l[a] v]; [comb old new = new] is a plain store, addition is [+=]. *)
Definition store_with {D} (comb : D -> D -> D) (l : list D) (a : nat) (v : D) : res (list D) :=
  match nth_error l a with Some old => Ok (upd l a (comb old v)) | None => UB end.

(** Executes a list of stores in program order.  The address and value of every
    store come with their own outcome, so reading outside another buffer to obtain
    the value is [UB] too. *)
Fixpoint exec_with {D} (comb : D -> D -> D) (ops : list (nat * res D)) (l : list D) : res (list D) :=
  match ops with
  | [] => Ok l
  | (a, rv) :: ops' => v <- rv ;; l' <- store_with comb l a v ;; exec_with comb ops' l'
  end.

Definition overwrite {D} (old new : D) : D := new.
Definition exec {D} (ops : list (nat * res D)) (l : list D) : res (list D) := exec_with overwrite ops l.

(** Monadic left fold: a loop whose body may fail. *)
Fixpoint foldm {A S} (f : S -> A -> res S) (l : list A) (s : S) : res S :=
  match l with
  | [] => Ok s
  | a :: t => s' <- f s a ;; foldm f t s'
  end.

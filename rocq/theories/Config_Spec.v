(** What configuration lines mean. *)
From Coq Require Import Ascii String List.
From Verif Require Import Base Str_Model.
Local Open Scope string_scope.
Local Open Scope list_scope.
Local Open Scope nat_scope.

(** [key=] occurs in [line] at position [j]. *)
Definition occurs_at (key line : str) (j : nat) : Prop := exists before after, line = before ++ key ++ s_ "=" ++ after /\ length before = j.
Definition absent (key line : str) : Prop := forall j, ~ occurs_at key line j.

(** The line has [key=value], the value ends at a space or at the end of the line, and there is no
    earlier [key=]. *)
Definition has_value (line key value : str) : Prop :=
  exists before rest, line = before ++ key ++ s_ "=" ++ value ++ rest /\
    Forall (fun c => c <> " "%char) key /\ Forall (fun c => c <> " "%char) value /\ (rest = [] \/ exists r, rest = " "%char :: r) /\
    forall j, occurs_at key line j -> length before <= j.

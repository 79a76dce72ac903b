(** What layer descriptors are, independently of the regular expressions. *)
From Coq Require Import Ascii String List.
From Verif Require Import Base Str_Model LayerFactory_Model.
Local Open Scope string_scope.
Local Open Scope list_scope.
Local Open Scope nat_scope.

Definition word (p : ascii -> bool) (s : str) : Prop := s <> [] /\ Forall (fun c => p c = true) s.

(** A parameter: name and value. *)
Definition param : Type := str * str.
Definition wf_param (p : param) : Prop := word is_lower (fst p) /\ word value_char (snd p).
Definition render_param (p : param) : str := fst p ++ s_ "=" ++ snd p.
Fixpoint join (l : list str) : str :=
  match l with
  | [] => []
  | [x] => x
  | x :: l' => x ++ s_ " " ++ join l'
  end.
Definition render_params (ps : list param) : str := join (map render_param ps).

(** [descriptor d ty args]: the descriptor of a layer of type [ty], without parentheses or with a
    parenthesized list of parameters. *)
Definition render (ty : str) (args : option (list param)) : str :=
  ty ++ match args with None => [] | Some ps => s_ "(" ++ render_params ps ++ s_ ")" end.
Definition params_of (args : option (list param)) : list param := match args with None => [] | Some ps => ps end.
Definition wf_parts (ty : str) (args : option (list param)) : Prop := word is_lower ty /\ Forall wf_param (params_of args).
Definition descriptor (d : str) (ty : str) (args : option (list param)) : Prop := wf_parts ty args /\ d = render ty args.

(** [s] ends in [p]. *)
Definition ends_in (p s : str) : Prop := exists m, s = m ++ p.

(** The usual case for seed injection: parameters called seed have numbers as values, and no other
    parameter's name ends in "seed". *)
Definition tidy (ps : list param) : Prop :=
  forall n v, In (n, v) ps -> ends_in (s_ "seed") n -> n = s_ "seed" /\ Forall (fun c => is_digit c = true) v.

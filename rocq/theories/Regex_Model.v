(** Regular expressions as used through std::regex (POSIX extended syntax, BUILD_BOOST off).  The
    meaning of an expression is the usual set of strings; [rmatch] is an executable matcher. *)
From Coq Require Import Ascii.
From Verif Require Import Base Str_Model.

Inductive regex : Type :=
| REmpty
| REps
| RChar (p : ascii -> bool)
| RSeq (a b : regex)
| RAlt (a b : regex)
| RStar (a : regex).

Definition ROpt (a : regex) : regex := RAlt a REps.
Definition RPlus (a : regex) : regex := RSeq a (RStar a).
Definition RLit (s : str) : regex := fold_right (fun c r => RSeq (RChar (Ascii.eqb c)) r) REps s.
(** [.] matches every character but NUL. *)
Definition any_char (c : ascii) : bool := negb (Ascii.eqb c "000").
Definition RAny : regex := RChar any_char.

(** The set of strings. *)
Inductive matches : regex -> str -> Prop :=
| m_eps : matches REps []
| m_char p c : p c = true -> matches (RChar p) [c]
| m_seq a b s t : matches a s -> matches b t -> matches (RSeq a b) (s ++ t)
| m_left a b s : matches a s -> matches (RAlt a b) s
| m_right a b s : matches b s -> matches (RAlt a b) s
| m_stop a : matches (RStar a) []
| m_more a s t : matches a s -> matches (RStar a) t -> matches (RStar a) (s ++ t).

Fixpoint nullable (r : regex) : bool :=
  match r with
  | REmpty => false
  | REps => true
  | RChar _ => false
  | RSeq a b => nullable a && nullable b
  | RAlt a b => nullable a || nullable b
  | RStar _ => true
  end.
Fixpoint deriv (c : ascii) (r : regex) : regex :=
  match r with
  | REmpty => REmpty
  | REps => REmpty
  | RChar p => if p c then REps else REmpty
  | RSeq a b => if nullable a then RAlt (RSeq (deriv c a) b) (deriv c b) else RSeq (deriv c a) b
  | RAlt a b => RAlt (deriv c a) (deriv c b)
  | RStar a => RSeq (deriv c a) (RStar a)
  end.

(** std::regex_match: the whole string. *)
Fixpoint rmatch (r : regex) (s : str) : bool :=
  match s with
  | [] => nullable r
  | c :: s' => rmatch (deriv c r) s'
  end.

(** The ways to cut a string in two. *)
Fixpoint splits (s : str) : list (str * str) :=
  ([], s) :: match s with [] => [] | c :: s' => map (fun p => (c :: fst p, snd p)) (splits s') end.
(** std::regex_match of [a(b)c] with its only group: what the group matched.  Which of several
    possibilities is taken does not matter here (see [C45_group_unique]). *)
Definition match_group (a b c : regex) (s : str) : option str :=
  match flat_map (fun p => if rmatch a (fst p) then
          flat_map (fun q => if rmatch b (fst q) && rmatch c (snd q) then [fst q] else []) (splits (snd p)) else []) (splits s) with
  | g :: _ => Some g
  | [] => None
  end.

(** The length of the longest match at the start. *)
Fixpoint longest (r : regex) (s : str) : option nat :=
  match s with
  | [] => if nullable r then Some 0 else None
  | c :: s' => match longest (deriv c r) s' with
               | Some n => Some (S n)
               | None => if nullable r then Some 0 else None
               end
  end.
(** std::regex_replace: every leftmost longest match is replaced, from left to right, without overlap.
    Empty matches are not treated (the expressions used have none).  [skip]: characters of the
    current match still to be dropped. *)
Fixpoint replace_from (r : regex) (by_ : str) (skip : nat) (s : str) : str :=
  match s with
  | [] => []
  | c :: s' =>
    match skip with
    | S k => replace_from r by_ k s'
    | 0 => match longest r s with
           | Some (S n) => by_ ++ replace_from r by_ n s'
           | _ => c :: replace_from r by_ 0 s'
           end
    end
  end.
Definition regex_replace (r : regex) (by_ s : str) : str := replace_from r by_ 0 s.

(** std::string as a list of characters, with the operations the parsers use.  Positions are
    unbounded (std::size_t in the code). *)
From Coq Require Import Ascii String ZArith List.
From Verif Require Import Base.
Local Open Scope char_scope.
Local Open Scope list_scope.
Local Open Scope nat_scope.

Definition str := list ascii.
Definition s_ (s : String.string) : str := list_ascii_of_string s.

Definition ascii_in (lo hi c : ascii) : bool := (nat_of_ascii lo <=? nat_of_ascii c) && (nat_of_ascii c <=? nat_of_ascii hi).
Definition is_lower (c : ascii) : bool := ascii_in "a" "z" c.
Definition is_upper (c : ascii) : bool := ascii_in "A" "Z" c.
Definition is_digit (c : ascii) : bool := ascii_in "0" "9" c.

(** [s] begins with [p]. *)
Fixpoint starts (p s : str) : bool :=
  match p, s with
  | [], _ => true
  | a :: p', b :: s' => Ascii.eqb a b && starts p' s'
  | _ :: _, [] => false
  end.

(** std::string::compare(0, n, p) == 0 with n the length of p: the first n characters of the line
    (fewer if it is shorter) are p. *)
Definition compare0 (s p : str) : bool := starts p s.

(** std::string::find(p, pos): the first position from [pos] on where [p] occurs; None is npos. *)
Fixpoint find_from (i : nat) (p s : str) : option nat :=
  if starts p s then Some i else
  match s with
  | [] => None
  | _ :: s' => find_from (S i) p s'
  end.
Definition find (p s : str) (pos : nat) : option nat := if pos <=? length s then find_from pos p (skipn pos s) else None.

(** std::string::substr(pos): throws out_of_range if pos is behind the end. *)
Definition substr (s : str) (pos : nat) : res str := if pos <=? length s then Ok (skipn pos s) else Fatal.
(** std::string::substr(0, n). *)
Definition substr0 (s : str) (n : nat) : str := firstn n s.
(** std::string::replace(pos, n, r): throws out_of_range if pos is behind the end. *)
Definition replace (s : str) (pos n : nat) (r : str) : res str :=
  if pos <=? length s then Ok (firstn pos s ++ r ++ skipn (pos + n) s) else Fatal.

(** std::atoi: white space, a sign, digits; 0 without digits.  A value outside the range of int is
    undefined behaviour. *)
Definition is_space (c : ascii) : bool := Ascii.eqb c " " || ascii_in "009" "013" c.
Fixpoint skip_spaces (s : str) : str :=
  match s with c :: s' => if is_space c then skip_spaces s' else s | [] => [] end.
Definition digit_value (c : ascii) : Z := Z.of_nat (nat_of_ascii c) - 48.
Fixpoint digits_value (acc : Z) (s : str) : Z :=
  match s with c :: s' => if is_digit c then digits_value (10 * acc + digit_value c) s' else acc | [] => acc end.
Definition int_range (z : Z) : bool := (- 2147483648 <=? z)%Z && (z <=? 2147483647)%Z.
Definition atoi (s : str) : res Z :=
  let s1 := skip_spaces s in
  let z := match s1 with
           | "-" :: s2 => (- digits_value 0 s2)%Z
           | "+" :: s2 => digits_value 0 s2
           | _ => digits_value 0 s1
           end in
  if int_range z then Ok z else UB.
(** The conversion of an int to unsigned int. *)
Definition to_uint (z : Z) : Z := (z mod 2 ^ 32)%Z.

(** Decimal digits of a number, as printed by std::ostream and sprintf("%d"). *)
Definition digit_char (z : Z) : ascii := ascii_of_nat (48 + Z.to_nat z).
Fixpoint decimal_loop (fuel : nat) (z : Z) (acc : str) : str :=
  match fuel with
  | 0 => acc
  | S f => let acc' := digit_char (z mod 10) :: acc in if (z <? 10)%Z then acc' else decimal_loop f (z / 10) acc'
  end.
Definition decimal (z : Z) : str := decimal_loop (S (Z.to_nat (Z.log2 z))) z [].

(** src/util/ConfigParsing.cpp.  A result [Fatal] stands for std::out_of_range, which nothing catches. *)
From Coq Require Import Ascii String List.
From Verif Require Import Base Str_Model.
Local Open Scope string_scope.
Local Open Scope list_scope.
Local Open Scope nat_scope.

(** Lines 17-19. *)
Definition starts_with_identifier (line identifier : str) : bool := compare0 line identifier.

(** Lines 21-27. *)
Definition parse_uint (line identifier : str) : res Z :=
  if compare0 line identifier then
    sub <- substr line (length identifier + 1) ;;
    z <- atoi sub ;;
    Ok (to_uint z)
  else Ok 0%Z.

(** Lines 42-48, for lines that start with the identifier (the code is only called for those). *)
Definition parse_string (line identifier : str) : res str :=
  if compare0 line identifier then substr line (length identifier + 1) else UB.

(** Lines 50-54. *)
Definition parse_string_if_possible (line identifier value : str) : res str :=
  if starts_with_identifier line identifier then parse_string line identifier else Ok value.
(** Lines 79-83. *)
Definition parse_uint_if_possible (line identifier : str) (value : Z) : res Z :=
  if starts_with_identifier line identifier then parse_uint line identifier else Ok value.

(** The text behind [identifier=], cut at the first space behind the start of the name
    (lines 57-68, 111-122 and 128-139); None if the name does not occur. *)
Definition param_text (line identifier : str) : res (option str) :=
  let ilen := length identifier + 1 in
  match find (identifier ++ s_ "=") line 0 with
  | None => Ok None
  | Some size_pos =>
    let line' := match find (s_ " ") line size_pos with Some end_pos => substr0 line end_pos | None => line end in
    sub <- substr line' (size_pos + ilen) ;;
    Ok (Some sub)
  end.
(** Lines 56-70. *)
Definition parse_string_param (line identifier s : str) : res str :=
  o <- param_text line identifier ;;
  Ok (match o with None => s | Some sub => sub end).
(** Lines 110-125. *)
Definition parse_count (line identifier : str) (k : Z) : res Z :=
  o <- param_text line identifier ;;
  match o with None => Ok k | Some size => z <- atoi size ;; Ok (to_uint z) end.

Section Datum.
(** [read_datum]: extraction of a float from a std::stringstream. *)
Context {D : Type} (read_datum : str -> D) (zero : D).
(** Lines 29-40 and 73-77. *)
Definition parse_datum (line identifier : str) : res D :=
  if compare0 line identifier then sub <- substr line (length identifier + 1) ;; Ok (read_datum sub) else Ok zero.
Definition parse_datum_if_possible (line identifier : str) (value : D) : res D :=
  if starts_with_identifier line identifier then parse_datum line identifier else Ok value.
(** Lines 127-147. *)
Definition parse_datum_param (line identifier : str) (k : D) : res D :=
  o <- param_text line identifier ;;
  Ok (match o with None => k | Some size => read_datum size end).
End Datum.

(** Lines 85-108.  None: the variables are not written, so they keep their old values (or stay
    uninitialized).  A position before the value (an [x] in the name itself) wraps around to a number behind
    the end. *)
Definition kernel_size (line identifier : str) : res (option (Z * Z)) :=
  let ilen := length identifier + 1 in
  match find (identifier ++ s_ "=") line 0 with
  | None => Ok None
  | Some size_pos =>
    match find (s_ "x") line size_pos with
    | None => Ok None
    | Some x_pos =>
      let line' := match find (s_ " ") line x_pos with Some end_pos => substr0 line end_pos | None => line end in
      size <- substr line' (size_pos + ilen) ;;
      if x_pos <? size_pos + ilen then Fatal else
      let sizex := substr0 size (x_pos - (size_pos + ilen)) in
      sizey <- substr size (1 + x_pos - (size_pos + ilen)) ;;
      x <- atoi sizex ;; y <- atoi sizey ;;
      Ok (Some (to_uint x, to_uint y))
    end
  end.
Definition parse_kernel_size (line identifier : str) (kx ky : Z) : res (Z * Z) :=
  o <- kernel_size line identifier ;;
  Ok (match o with None => (kx, ky) | Some p => p end).

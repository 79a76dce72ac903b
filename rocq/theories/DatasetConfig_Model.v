(** Dataset configuration files: TensorStreamDataset::CreateFromConfiguration (src/util/TensorStreamDataset.cpp:288-388) and
    TensorStreamPatchDataset::CreateFromConfiguration (src/util/TensorStreamPatchDataset.cpp:331-462).  The file is the list of
    the lines that std::getline returns (the last one is empty if the file ends in a newline); reading a line behind
    the end gives an empty string. *)
From Coq Require Import Ascii String ZArith.
From Verif Require Import Base Str_Model Config_Model.
Local Open Scope list_scope.
Local Open Scope nat_scope.

(** std::strtoul(s, nullptr, 16). *)
Definition hex_digit (c : ascii) : option Z :=
  let n := Z.of_nat (nat_of_ascii c) in
  if is_digit c then Some (n - 48)%Z
  else if ascii_in "a" "f" c then Some (n - 87)%Z
  else if ascii_in "A" "F" c then Some (n - 55)%Z
  else None.
Fixpoint hex_digits (acc : Z) (s : str) : Z :=
  match s with
  | c :: s' => match hex_digit c with Some d => hex_digits (16 * acc + d) s' | None => acc end
  | [] => acc
  end.
Definition skip_0x (s : str) : str :=
  match s with
  | "0"%char :: c :: s' => if (Ascii.eqb c "x" || Ascii.eqb c "X")%char then s' else s
  | _ => s
  end.
Definition ulong_max : Z := 18446744073709551615.
Definition strtoul16 (s : str) : Z :=
  let s1 := skip_spaces s in
  let '(negative, s2) := match s1 with
                         | "-"%char :: r => (true, r)
                         | "+"%char :: r => (false, r)
                         | _ => (false, s1)
                         end in
  let v := hex_digits 0 (skip_0x s2) in
  if (ulong_max <? v)%Z then ulong_max else if negative then ((- v) mod 2 ^ 64)%Z else v.

Section Datasets.
(** [read_datum]: extraction of a float from a std::stringstream; the variable is uninitialised before, which matters for lines without
    a number. *)
Context {D : Type} (read_datum : str -> D) (one : D).

Inductive error_function : Type := DefaultError | KittiError.
Record config : Type := mkConfig {
  c_classes : Z; c_names : list str; c_colors : list Z; c_weights : list D;
  c_error : error_function; c_training : str; c_testing : str; c_no_mmap : bool }.
(** TensorStreamDataset.cpp:289-295. *)
Definition no_config : config := mkConfig 0 [] [] [] DefaultError [] [] false.

(** What the next line is: a line of the outer loop, or one of the [n] + 1 lines that an inner loop still reads. *)
Inductive mode : Type := Line | Name (n : nat) | Color (n : nat) | Weight (n : nat).
Definition next (inner : nat -> mode) (n : nat) : mode := match n with 0 => Line | S k => inner k end.

Definition push_name (c : config) (s : str) : config :=
  mkConfig (c_classes c) (c_names c ++ [s]) (c_colors c) (c_weights c) (c_error c) (c_training c) (c_testing c) (c_no_mmap c).
(** Lines 321-327. *)
Definition push_color (c : config) (s : str) : res config :=
  if (strtoul16 s <? 4294967296)%Z
  then Ok (mkConfig (c_classes c) (c_names c) (c_colors c ++ [strtoul16 s]) (c_weights c) (c_error c) (c_training c) (c_testing c) (c_no_mmap c))
  else Fatal.
(** Lines 334-342. *)
Definition push_weight (c : config) (s : str) : config :=
  mkConfig (c_classes c) (c_names c) (c_colors c) (c_weights c ++ [read_datum s]) (c_error c) (c_training c) (c_testing c) (c_no_mmap c).

(** Lines 306-361 for one line of the outer loop (the lines the inner loops read come after it).  At most one of the tests for classes,
    colors and weights succeeds.  The test for nommap is TensorStreamPatchDataset.cpp:349-352; the other class ignores such lines. *)
Definition config_line (c : config) (line : str) : res (config * mode) :=
  let c0 := if starts_with_identifier line (s_ "nommap")
            then mkConfig (c_classes c) (c_names c) (c_colors c) (c_weights c) (c_error c) (c_training c) (c_testing c) true else c in
  n <- (if starts_with_identifier line (s_ "classes") then parse_count line (s_ "classes") (c_classes c0) else Ok (c_classes c0)) ;;
  let m := if starts_with_identifier line (s_ "classes") then next Name (Z.to_nat n)
           else if starts_with_identifier line (s_ "colors") then next Color (Z.to_nat n)
           else if starts_with_identifier line (s_ "weights") then next Weight (Z.to_nat n)
           else Line in
  e <- (if starts_with_identifier line (s_ "localized_error") then
          f <- parse_string_if_possible line (s_ "localized_error") [] ;;
          Ok (if compare0 f (s_ "kitti") && (length f =? 5) then KittiError
              else if negb (compare0 f (s_ "default") && (length f =? 7)) then DefaultError
              else c_error c0)
        else Ok (c_error c0)) ;;
  tr <- parse_string_if_possible line (s_ "training") (c_training c0) ;;
  te <- parse_string_if_possible line (s_ "testing") (c_testing c0) ;;
  Ok (mkConfig n (c_names c0) (c_colors c0) (c_weights c0) e tr te (c_no_mmap c0), m).

(** Lines 303-362. *)
Definition read_end (m : mode) (c : config) : res config :=
  match m with
  | Line => Ok c
  | Name n => Ok (fold_left (fun c _ => push_name c []) (seq 0 (S n)) c)
  | Color n => foldm (fun c _ => push_color c []) (seq 0 (S n)) c
  | Weight n => Ok (fold_left (fun c _ => push_weight c []) (seq 0 (S n)) c)
  end.
Fixpoint read_lines (lines : list str) (m : mode) (c : config) : res config :=
  match lines with
  | [] => read_end m c
  | line :: rest =>
    match m with
    | Line => r <- config_line c line ;; read_lines rest (snd r) (fst r)
    | Name n => read_lines rest (next Name n) (push_name c line)
    | Color n => c' <- push_color c line ;; read_lines rest (next Color n) c'
    | Weight n => read_lines rest (next Weight n) (push_weight c line)
    end
  end.

(** Lines 368-371. *)
Definition fill_weights (c : config) : config :=
  mkConfig (c_classes c) (c_names c) (c_colors c)
    (if (Z.of_nat (length (c_weights c)) =? c_classes c)%Z then c_weights c else c_weights c ++ repeat one (Z.to_nat (c_classes c)))
    (c_error c) (c_training c) (c_testing c) (c_no_mmap c).
Definition read_config (lines : list str) : res config := c <- read_lines lines Line no_config ;; Ok (fill_weights c).

(** Lines 373-383: the files that are loaded (None: an empty stream). *)
Inductive selection : Type := LoadBoth | LoadTrainingOnly | LoadTestingOnly.
Definition training_source (c : config) (dont_load : bool) (s : selection) : option str :=
  if negb dont_load && (match s with LoadBoth | LoadTrainingOnly => true | LoadTestingOnly => false end) && (0 <? length (c_training c)) then Some (c_training c) else None.
Definition testing_source (c : config) (dont_load : bool) (s : selection) : option str :=
  if negb dont_load && (match s with LoadBoth | LoadTestingOnly => true | LoadTrainingOnly => false end) && (0 <? length (c_testing c)) then Some (c_testing c) else None.

(** TensorStreamPatchDataset.cpp:419-450: the two streams and the file descriptors for memory mapping (0: none). *)
Variable good : str -> bool.
Variable open : str -> Z.
Definition patch_sources (c : config) (dont_load : bool) (s : selection) : res (option str * option str * Z * Z) :=
  tr <- match training_source c dont_load s with
        | None => Ok (None, 0%Z)
        | Some f =>
          if negb (good f) then Fatal else
          let fd := if c_no_mmap c then 0%Z else open (c_training c) in
          if (fd <? 0)%Z then Fatal else Ok (Some f, fd)
        end ;;
  te <- match testing_source c dont_load s with
        | None => Ok (None, 0%Z)
        | Some f =>
          if negb (good f) then Fatal else
          let fd := if c_no_mmap c then 0%Z else open (c_training c) in
          if (fd <? 0)%Z then Fatal else Ok (Some f, fd)
        end ;;
  Ok (fst tr, fst te, snd tr, snd te).
End Datasets.

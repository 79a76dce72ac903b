(** Model of class Conv::CSVStatSink (src/util/CSVStatSink.cpp, include/cn24/util/CSVStatSink.h), which writes the statistics of
    an experiment to a file csv/NAME.csv.

    Printing of numbers is a parameter.  Files are a function from names to contents; [writable] says which files can be
    opened.  Closing a stream and flushing have no effect on the contents. *)
From Coq Require Import Ascii String.
From Verif Require Import Base Str_Model Stat_Model.
Local Open Scope list_scope.
Local Open Scope nat_scope.

Definition newline : ascii := "010"%char.
Definition comma : ascii := ","%char.

(** std::isalnum((int)c), lines 52-54, in the C locale: a char above 127 is a negative int, for which isalnum is undefined. *)
Definition isnalnum (c : ascii) : res bool :=
  if nat_of_ascii c <? 128 then Ok (negb (is_lower c || is_upper c || is_digit c)) else UB.
(** Lines 84-85: std::remove_if keeps the other characters in order. *)
Fixpoint strip (s : str) : res str :=
  match s with
  | [] => Ok []
  | c :: s' => b <- isnalnum c ;; r <- strip s' ;; Ok (if b then r else c :: r)
  end.

Section Csv.
Variable V : Type.
(** operator<<(double) after std::setprecision(16), and operator<<(unsigned long). *)
Variable show_real : V -> str.
Variable show_count : nat -> str.
Variable writable : str -> bool.

(** hardcoded_stats as far as it is written, and the statistics. *)
Record row : Type := mkRow { r_training : bool; r_epoch : nat; r_iterations : nat; r_seconds : V; r_stats : list (stat V) }.
(** stat_descriptors_, the file csv_stream_ is open on, and the files. *)
Record csv : Type := mkCsv { c_descs : list str; c_open : option str; c_files : str -> option str }.

(** Lines 23-25. *)
Definition csv_initialize (descs : list str) (st : csv) : csv := mkCsv descs (c_open st) (c_files st).

(** Writing to the open file. *)
Definition append (text : str) (st : csv) : csv :=
  match c_open st with
  | None => st
  | Some f => mkCsv (c_descs st) (c_open st)
      (fun g => if list_eq_dec ascii_dec g f then Some (match c_files st f with Some old => old ++ text | None => text end) else c_files st g)
  end.

(** Lines 38-46 and 81-89: the texts, a comma behind all but the last. *)
Definition separated (n : nat) (s : nat) (text : str) : str := text ++ (if s <? n - 1 then [comma] else []).

(** Lines 27-50. *)
Definition process (r : row) (st : csv) : res csv :=
  match c_open st with
  | None => Ok st
  | Some _ =>
    let st1 := append ((if r_training r then s_ "1" else s_ "0") ++ [comma]) st in
    let st2 := append (show_count (r_epoch r) ++ [comma]) st1 in
    let st3 := append (show_count (r_iterations r) ++ [comma]) st2 in
    let st4 := append (show_real (r_seconds r) ++ [comma]) st3 in
    st5 <- foldm (fun st' s =>
             v <- load (r_stats r) s ;;
             Ok (append (separated (length (c_descs st)) s (if s_null v then [] else show_real (s_value v))) st'))
           (seq 0 (length (c_descs st))) st4 ;;
    Ok (append [newline] st5)
  end.

(** Lines 63-66. *)
Definition csv_name (experiment : str) : str := s_ "csv/" ++ experiment ++ s_ ".csv".

(** Lines 56-92.  A file that cannot be opened leaves csv_stream_ null, and line 78 writes through it. *)
Definition csv_experiment (experiment : str) (st : csv) : res csv :=
  let f := csv_name experiment in
  if writable f then
    let opened := mkCsv (c_descs st) (Some f) (fun g => if list_eq_dec ascii_dec g f then Some [] else c_files st g) in
    let st1 := append (s_ "IsTraining,Epoch,Iterations,SecondsElapsed,") opened in
    st2 <- foldm (fun st' s =>
             d <- load (c_descs st) s ;;
             d' <- strip d ;;
             Ok (append (separated (length (c_descs st)) s d') st'))
           (seq 0 (length (c_descs st))) st1 ;;
    Ok (append [newline] st2)
  else UB.
End Csv.

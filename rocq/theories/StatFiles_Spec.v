(** What the files of the experiments should hold. *)
From Coq Require Import Ascii String.
From Verif Require Import Base Str_Model Stat_Model Csv_Props Session_Spec.
Local Open Scope list_scope.
Local Open Scope nat_scope.

Section Kept.
Context {V : Type}.
Variable experiment : nat -> str.

Definition same_name (a b : str) : bool := if list_eq_dec ascii_dec a b then true else false.

(** The reports made since the experiment of this name began for the last time, while it was the current one; none: there was no such
    experiment.  [now]: it is the current one. *)
Fixpoint kept (name : str) (now : bool) (before : option (list (hardcoded * list (stat V)))) (es : list (sink_event V)) : option (list (hardcoded * list (stat V))) :=
  match es with
  | [] => before
  | SinkExperiment k :: es' => if same_name (experiment k) name then kept name true (Some []) es' else kept name false before es'
  | SinkProcess h outs :: es' => kept name now (if now then option_map (fun l => l ++ [(h, outs)]) before else before) es'
  | SinkInitialize _ :: es' => kept name now before es'
  end.
(** The same for the rows of a session. *)
Fixpoint kept_rows (name : str) (now : bool) (before : option (list item)) (is : list item) : option (list item) :=
  match is with
  | [] => before
  | Experiment k :: is' => if same_name (experiment k) name then kept_rows name true (Some []) is' else kept_rows name false before is'
  | r :: is' => kept_rows name now (if now then option_map (fun l => l ++ [r]) before else before) is'
  end.
End Kept.

(** What one sink is told. *)
Definition told {V} (s : nat) (calls : list (nat * sink_event V)) : list (sink_event V) := map snd (filter (fun c => fst c =? s) calls).

(** The file of an experiment. *)
Definition file_of (name : str) : str := s_ "csv/" ++ name ++ s_ ".csv".

(** A table: lines, all of them ended, of fields separated by commas. *)
Definition table (text : str) (lines : list (list str)) : Prop := map (pieces ","%char) (pieces (ascii_of_nat 10) text) = lines ++ [[[]]].

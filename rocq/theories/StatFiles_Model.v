(** Model of a CSVStatSink that is registered with the StatAggregator: the calls the aggregator makes (src/util/StatAggregator.cpp:33-36,
    62-66, 146-150) run the functions of the sink (src/util/CSVStatSink.cpp).

    In the model of the aggregator experiments are numbers; [experiment] gives their names.  [description] gives the descriptions of the
    registered statistics, and [of_ticks] the double for a number of clock ticks.  The sink keeps pointers to the descriptors, which are
    not changed after their registration. *)
From Coq Require Import Ascii.
From Verif Require Import Base Str_Model Stat_Model Csv_Model.
Local Open Scope list_scope.
Local Open Scope nat_scope.

Section Files.
Variable V : Type.
Variable show_real : V -> str.
Variable show_count : nat -> str.
Variable writable : str -> bool.
Variable of_ticks : Z -> V.
Variables (experiment description : nat -> str).

(** CSVStatSink.cpp:23-25, 27-50 and 56-92, as called by the aggregator. *)
Definition csv_event (st : csv) (e : sink_event V) : res csv :=
  match e with
  | SinkInitialize n => Ok (csv_initialize (map description (seq 0 n)) st)
  | SinkProcess h outs => process V show_real show_count (mkRow V (is_training h) (epoch h) (iterations h) (of_ticks (seconds h)) outs) st
  | SinkExperiment k => csv_experiment writable (experiment k) st
  end.

(** CSVStatSink.h: a new sink has no descriptors and no open stream. *)
Definition new_csv (files : str -> option str) : csv := mkCsv [] None files.

(** What sink number [s] does in the course of all the calls of the aggregator. *)
Definition csv_sink (s : nat) (files : str -> option str) (calls : list (nat * sink_event V)) : res csv :=
  foldm csv_event (map snd (filter (fun c => fst c =? s) calls)) (new_csv files).
End Files.

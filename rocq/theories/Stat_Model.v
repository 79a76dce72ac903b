(** Model of class Conv::StatAggregator (include/cn24/util/StatAggregator.h,
    src/util/StatAggregator.cpp).

    Simplifications: [double] is a type parameter (the aggregator never computes with
    values itself, it hands them to the functions of the descriptors); clock readings are
    arguments of the calls that read the clock, counted in integer ticks; descriptor
    functions are pure; a sink is represented by the calls it receives. *)
From Verif Require Import Base.

Section StatModel.
Variable D : Type.
Variable d_zero : D.

(** StatAggregator.h:32-46. *)
Record hardcoded : Type := mkHC {
  seconds : Z; iterations : nat; weights : nat; epoch : nat; is_training : bool }.
Definition hc_reset (h : hardcoded) : hardcoded := mkHC 0 0 0 (epoch h) (is_training h).

(** StatAggregator.h:48-51. *)
Record stat : Type := mkStat { s_value : D; s_null : bool }.
Definition new_stat : stat := mkStat d_zero false.

(** StatAggregator.h:53-66 (description and unit only label the output). *)
Record descriptor : Type := mkDesc {
  d_init : stat -> stat;
  d_update : stat -> D -> stat;
  d_output : hardcoded -> stat -> stat }.

(** StatAggregator.h:88-89. *)
Inductive mode := INIT | STOPPED | RECORDING.

(** Calls a sink receives. *)
Inductive sink_event : Type :=
| SinkInitialize (stat_count : nat)
| SinkProcess (h : hardcoded) (outputs : list stat)
| SinkExperiment (name : nat).

(** StatAggregator.h:86-103.  [experiment] is hardcoded_stats_.current_experiment, which
    no code ever changes; names are numbers here. *)
Record aggregator : Type := mkAgg {
  state : mode;
  start_time : Z;
  hc : hardcoded;
  stats : list stat;
  descs : list descriptor;
  sinks : nat;
  trace : list (nat * sink_event) }.   (* sink number, call; oldest first *)

Definition new_agg : aggregator := mkAgg INIT 0 (mkHC 0 0 0 0 false) [] [] 0 [].
Definition default_experiment : nat := 0.

Definition broadcast (n : nat) (e : sink_event) : list (nat * sink_event) :=
  map (fun s => (s, e)) (seq 0 n).

(** StatAggregator.cpp:88-101; init_function on a statistic without storage is UB. *)
Fixpoint init_all (ds : list descriptor) (ss : list stat) : res (list stat) :=
  match ds, ss with
  | [], _ => Ok ss
  | d :: ds', s :: ss' => r <- init_all ds' ss' ;; Ok (d_init d s :: r)
  | _ :: _, [] => UB
  end.
Definition reset (a : aggregator) : res aggregator :=
  match state a with
  | STOPPED =>
    ss <- init_all (descs a) (stats a) ;;
    Ok (mkAgg (state a) (start_time a) (hc_reset (hc a)) ss (descs a) (sinks a) (trace a))
  | _ => Ok a
  end.

(** StatAggregator.cpp:142-151. *)
Definition set_experiment (a : aggregator) (name : nat) : aggregator :=
  match state a with
  | STOPPED => mkAgg (state a) (start_time a) (hc a) (stats a) (descs a) (sinks a)
                     (trace a ++ broadcast (sinks a) (SinkExperiment name))
  | _ => a
  end.

(** StatAggregator.cpp:28-50. *)
Definition initialize (a : aggregator) : res aggregator :=
  match state a with
  | INIT =>
    let a1 := mkAgg STOPPED (start_time a) (hc a)
                    (stats a ++ map (fun _ => new_stat) (descs a)) (descs a) (sinks a)
                    (trace a ++ broadcast (sinks a) (SinkInitialize (length (descs a)))) in
    a2 <- reset a1 ;;
    Ok (set_experiment a2 default_experiment)
  | _ => Ok a
  end.

(** StatAggregator.cpp:52-73: the outputs, then one Process call per sink. *)
Fixpoint outputs (h : hardcoded) (ds : list descriptor) (ss : list stat) : res (list stat) :=
  match ds, ss with
  | [], _ => Ok []
  | d :: ds', s :: ss' => r <- outputs h ds' ss' ;; Ok (d_output d h s :: r)
  | _ :: _, [] => UB
  end.
Definition generate (a : aggregator) : res aggregator :=
  out <- outputs (hc a) (descs a) (stats a) ;;
  Ok (mkAgg (state a) (start_time a) (hc a) (stats a) (descs a) (sinks a)
            (trace a ++ broadcast (sinks a) (SinkProcess (hc a) out))).

(** StatAggregator.cpp:76-86. *)
Definition update (a : aggregator) (id : nat) (v : D) : res aggregator :=
  match state a with
  | RECORDING =>
    match nth_error (descs a) id with
    | Some d =>
      s <- load (stats a) id ;;
      Ok (mkAgg (state a) (start_time a) (hc a) (upd (stats a) id (d_update d s v))
                (descs a) (sinks a) (trace a))
    | None => Ok a
    end
  | _ => Ok a
  end.

(** StatAggregator.cpp:103-113. *)
Definition start_recording (a : aggregator) (now : Z) : aggregator :=
  match state a with
  | STOPPED => mkAgg RECORDING now (hc a) (stats a) (descs a) (sinks a) (trace a)
  | _ => a
  end.

(** StatAggregator.cpp:115-129. *)
Definition stop_recording (a : aggregator) (now : Z) : aggregator :=
  match state a with
  | RECORDING =>
    let h := hc a in
    mkAgg STOPPED (start_time a)
          (mkHC (seconds h + (now - start_time a)) (iterations h) (weights h) (epoch h) (is_training h))
          (stats a) (descs a) (sinks a) (trace a)
  | _ => a
  end.

(** StatAggregator.cpp:131-140; [t1] is read by StopRecording, [t2] by StartRecording. *)
Definition snapshot (a : aggregator) (t1 t2 : Z) : res aggregator :=
  match state a with
  | RECORDING =>
    a1 <- generate (stop_recording a t1) ;;
    a2 <- reset a1 ;;
    Ok (start_recording a2 t2)
  | _ => Ok a
  end.

(** StatAggregator.cpp:15-26. *)
Definition register_sink (a : aggregator) : aggregator :=
  mkAgg (state a) (start_time a) (hc a) (stats a) (descs a) (S (sinks a)) (trace a).
Definition register_stat (a : aggregator) (d : descriptor) : aggregator :=
  mkAgg (state a) (start_time a) (hc a) (stats a) (descs a ++ [d]) (sinks a) (trace a).

(** Calls a program can make.  [IterationDone], [SetWeights], [SetEpochNumber] and
    [SetTraining] are the direct accesses of the friend classes (Trainer.cpp:234, 244,
    253, 284, 316, 398, NetStatus.h:37). *)
Inductive call : Type :=
| RegisterStat (d : descriptor) | RegisterSink | Initialize
| Update (id : nat) (v : D) | Generate
| StartRecording (now : Z) | StopRecording (now : Z) | Reset | Snapshot (t1 t2 : Z)
| SetExperiment (name : nat)
| IterationDone | SetWeights (n : nat) | SetEpochNumber (n : nat) | SetTraining (b : bool).

Definition with_hc (a : aggregator) (h : hardcoded) : aggregator :=
  mkAgg (state a) (start_time a) h (stats a) (descs a) (sinks a) (trace a).

Definition step (a : aggregator) (c : call) : res aggregator :=
  let h := hc a in
  match c with
  | RegisterStat d => Ok (register_stat a d)
  | RegisterSink => Ok (register_sink a)
  | Initialize => initialize a
  | Update id v => update a id v
  | Generate => generate a
  | StartRecording now => Ok (start_recording a now)
  | StopRecording now => Ok (stop_recording a now)
  | Reset => reset a
  | Snapshot t1 t2 => snapshot a t1 t2
  | SetExperiment name => Ok (set_experiment a name)
  | IterationDone => Ok (with_hc a (mkHC (seconds h) (S (iterations h)) (weights h) (epoch h) (is_training h)))
  | SetWeights n => Ok (with_hc a (mkHC (seconds h) (iterations h) n (epoch h) (is_training h)))
  | SetEpochNumber n => Ok (with_hc a (mkHC (seconds h) (iterations h) (weights h) n (is_training h)))
  | SetTraining b => Ok (with_hc a (mkHC (seconds h) (iterations h) (weights h) (epoch h) b))
  end.

Definition run (history : list call) : res aggregator := foldm step history new_agg.

End StatModel.

Arguments mkStat {D} _ _. Arguments s_value {D} _. Arguments s_null {D} _.
Arguments mkDesc {D} _ _ _. Arguments d_init {D} _ _. Arguments d_update {D} _ _ _. Arguments d_output {D} _ _ _.
Arguments SinkInitialize {D} _. Arguments SinkProcess {D} _ _. Arguments SinkExperiment {D} _.
Arguments mkAgg {D} _ _ _ _ _ _ _. Arguments state {D} _. Arguments start_time {D} _. Arguments hc {D} _.
Arguments stats {D} _. Arguments descs {D} _. Arguments sinks {D} _. Arguments trace {D} _.
Arguments new_agg {D}. Arguments broadcast {D} _ _.
Arguments init_all {D} _ _. Arguments outputs {D} _ _ _.
Arguments reset {D} _. Arguments set_experiment {D} _ _. Arguments initialize {D} _ _. Arguments generate {D} _.
Arguments update {D} _ _ _. Arguments start_recording {D} _ _. Arguments stop_recording {D} _ _.
Arguments snapshot {D} _ _ _. Arguments register_sink {D} _. Arguments register_stat {D} _ _.
Arguments RegisterStat {D} _. Arguments RegisterSink {D}. Arguments Initialize {D}. Arguments Update {D} _ _.
Arguments Generate {D}. Arguments StartRecording {D} _. Arguments StopRecording {D} _. Arguments Reset {D}.
Arguments Snapshot {D} _ _. Arguments SetExperiment {D} _. Arguments IterationDone {D}. Arguments SetWeights {D} _.
Arguments SetEpochNumber {D} _. Arguments SetTraining {D} _.
Arguments with_hc {D} _ _. Arguments step {D} _ _ _. Arguments run {D} _ _.

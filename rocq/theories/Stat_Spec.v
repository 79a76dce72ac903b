(** What a user of the statistics expects, as a log book: which phase the aggregator is
    in, which updates were accepted since the last reset, and what was reported. *)
From Verif Require Import Base Stat_Model.

Section StatSpec.
Variable D : Type.

Record logbook : Type := mkLog {
  l_mode : mode;
  l_descs : list (descriptor D);
  l_sinks : nat;
  l_since : Z;                      (* when the running recording began *)
  l_hc : hardcoded;                 (* counters *)
  l_updates : list (nat * D);       (* accepted since the last reset, oldest first *)
  l_reports : list (nat * sink_event D) }.

Definition empty_log : logbook := mkLog INIT [] 0 0 (mkHC 0 0 0 0 false) [] [].

(** The values for one statistic, oldest first. *)
Definition values_for (id : nat) (us : list (nat * D)) : list D :=
  map snd (filter (fun u => fst u =? id) us).

(** Its accumulated value: the updates applied to the freshly initialized statistic. *)
Definition accumulated (fresh : stat D) (d : descriptor D) (id : nat) (us : list (nat * D)) : stat D :=
  fold_left (d_update d) (values_for id us) (d_init d fresh).

Definition report (fresh : stat D) (h : hardcoded) (ds : list (descriptor D)) (us : list (nat * D)) : list (stat D) :=
  map (fun '(id, d) => d_output d h (accumulated fresh d id us)) (combine (seq 0 (length ds)) ds).

Definition elapsed (l : logbook) (now : Z) : hardcoded :=
  let h := l_hc l in
  mkHC (seconds h + (now - l_since l)) (iterations h) (weights h) (epoch h) (is_training h).
Definition cleared (h : hardcoded) : hardcoded := mkHC 0 0 0 (epoch h) (is_training h).

Definition to_all (n : nat) (e : sink_event D) : list (nat * sink_event D) := map (fun s => (s, e)) (seq 0 n).

Definition log_step (fresh : stat D) (l : logbook) (c : call D) : logbook :=
  let 'mkLog m ds n since h us rs := l in
  match c, m with
  | RegisterStat d, _ => mkLog m (ds ++ [d]) n since h us rs
  | RegisterSink, _ => mkLog m ds (S n) since h us rs
  | Initialize, INIT =>
      mkLog STOPPED ds n since (cleared h) []
            (rs ++ to_all n (SinkInitialize (length ds)) ++ to_all n (SinkExperiment 0))
  | Update id v, RECORDING =>
      if id <? length ds then mkLog m ds n since h (us ++ [(id, v)]) rs else l
  | Generate, _ => mkLog m ds n since h us (rs ++ to_all n (SinkProcess h (report fresh h ds us)))
  | StartRecording now, STOPPED => mkLog RECORDING ds n now h us rs
  | StopRecording now, RECORDING => mkLog STOPPED ds n since (elapsed l now) us rs
  | Reset, STOPPED => mkLog m ds n since (cleared h) [] rs
  | Snapshot t1 t2, RECORDING =>
      mkLog RECORDING ds n t2 (cleared (elapsed l t1)) []
            (rs ++ to_all n (SinkProcess (elapsed l t1) (report fresh (elapsed l t1) ds us)))
  | SetExperiment name, STOPPED => mkLog m ds n since h us (rs ++ to_all n (SinkExperiment name))
  | IterationDone, _ => mkLog m ds n since (mkHC (seconds h) (S (iterations h)) (weights h) (epoch h) (is_training h)) us rs
  | SetWeights k, _ => mkLog m ds n since (mkHC (seconds h) (iterations h) k (epoch h) (is_training h)) us rs
  | SetEpochNumber k, _ => mkLog m ds n since (mkHC (seconds h) (iterations h) (weights h) k (is_training h)) us rs
  | SetTraining b, _ => mkLog m ds n since (mkHC (seconds h) (iterations h) (weights h) (epoch h) b) us rs
  | _, _ => l
  end.

Definition log_of (fresh : stat D) (history : list (call D)) : logbook := fold_left (log_step fresh) history empty_log.

(** Statistics are registered before Initialize and outputs are generated after it. *)
Fixpoint disciplined (initialized : bool) (history : list (call D)) : bool :=
  match history with
  | [] => true
  | RegisterStat _ :: t => negb initialized && disciplined initialized t
  | Generate :: t => initialized && disciplined initialized t
  | Initialize :: t => disciplined true t
  | _ :: t => disciplined initialized t
  end.

(** The init function sets the statistic, whatever it was (all descriptors in the code
    base that are given an init function do). *)
Definition resets (d : descriptor D) : Prop := forall s s', d_init d s = d_init d s'.
Definition registered (history : list (call D)) : list (descriptor D) :=
  flat_map (fun c => match c with RegisterStat d => [d] | _ => [] end) history.

End StatSpec.
Arguments mkLog {D} _ _ _ _ _ _ _.
Arguments l_mode {D} _. Arguments l_descs {D} _. Arguments l_sinks {D} _. Arguments l_since {D} _.
Arguments l_hc {D} _. Arguments l_updates {D} _. Arguments l_reports {D} _.
Arguments empty_log {D}. Arguments values_for {D} _ _. Arguments accumulated {D} _ _ _ _.
Arguments report {D} _ _ _ _. Arguments elapsed {D} _ _. Arguments to_all {D} _ _.
Arguments log_step {D} _ _ _. Arguments log_of {D} _ _. Arguments disciplined {D} _ _.
Arguments resets {D} _. Arguments registered {D} _.

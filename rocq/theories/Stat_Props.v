(** C15 C16: the statistics aggregator. *)
From Verif Require Import Base BaseFacts Stat_Model Stat_Spec Stat_Proofs.

Section Props.
Variable D : Type.
Variable zero : D.
Notation fresh := (mkStat zero false).

(** ** C15 *)
(** After any history of calls (statistics registered before Initialize), no call has
    failed, the phase is the one the log book says, and every statistic holds exactly the
    updates that were accepted since the last reset. *)
Theorem C15_history history :
  Forall resets (registered history) -> disciplined false history = true ->
  exists a, run zero history = Ok a /\
    let l := log_of fresh history in
    state a = l_mode l /\ hc a = l_hc l /\ descs a = registered history /\
    (l_mode l <> INIT ->
     length (stats a) = length (registered history) /\
     forall id d, nth_error (registered history) id = Some d ->
       nth_error (stats a) id = Some (accumulated fresh d id (l_updates l))).
Proof.
  intros Hr Hd. destruct (run_ok D zero history Hr Hd) as (a & E & R).
  exists a. split; [exact E|]. cbv zeta.
  assert (Hds : forall h l, l_descs (fold_left (log_step fresh) h l) = l_descs l ++ registered h).
  { clear. induction h as [|c h IH]; intros l; cbn [fold_left]; [now rewrite app_nil_r|].
    rewrite IH, log_step_descs, <- app_assoc. reflexivity. }
  destruct R as (R1 & R2 & R3 & R4 & R5 & R6 & R7).
  unfold log_of in *. rewrite (Hds history empty_log) in *. cbn [l_descs empty_log app] in *.
  split; [exact R1|]. split; [exact R3|]. split; [exact R4|].
  intros Hm. destruct (l_mode (fold_left (log_step fresh) history empty_log)); [congruence| |]; exact R7.
Qed.

(** Updates outside a recording, or for an unknown id, change nothing. *)
Theorem C15_update_ignored (a : aggregator D) id v :
  state a <> RECORDING \/ length (descs a) <= id -> update a id v = Ok a.
Proof.
  intros [H|H]; unfold update; destruct (state a); try reflexivity; try congruence.
  apply nth_error_None in H. now rewrite H.
Qed.

(** Initialize gives every registered statistic what its init function makes of the value 0 that is not null. *)
Theorem C15_initialize (a : aggregator D) : state a = INIT -> stats a = [] ->
  exists a', initialize zero a = Ok a' /\ state a' = STOPPED /\ descs a' = descs a /\
    stats a' = map (fun d => d_init d (mkStat zero false)) (descs a).
Proof.
  intros Hm Hs. unfold initialize. rewrite Hm, Hs. cbn [app]. unfold reset. cbn [state descs stats].
  assert (G : forall ds : list (descriptor D), init_all ds (map (fun _ => new_stat D zero) ds) = Ok (map (fun d => d_init d (mkStat zero false)) ds)).
  { induction ds as [|d ds IH]; [reflexivity|]. cbn [init_all map]. now rewrite IH. }
  rewrite G. eexists. split; [reflexivity|]. unfold set_experiment. cbn. auto.
Qed.
Print Assumptions C15_initialize.

(** While recording, an update changes that statistic and nothing else. *)
Theorem C15_update_recorded (a : aggregator D) id d s v :
  state a = RECORDING -> nth_error (descs a) id = Some d -> nth_error (stats a) id = Some s ->
  exists a', update a id v = Ok a' /\
    nth_error (stats a') id = Some (d_update d s v) /\
    (forall other, other <> id -> nth_error (stats a') other = nth_error (stats a) other) /\
    state a' = state a /\ start_time a' = start_time a /\ hc a' = hc a /\ descs a' = descs a /\
    sinks a' = sinks a /\ trace a' = trace a.
Proof.
  intros Hm Hd Hs. unfold update. rewrite Hm, Hd, (load_ok _ _ _ Hs). cbn [bind].
  eexists. split; [reflexivity|]. cbn. split.
  - apply nth_error_upd_eq. apply nth_error_Some. congruence.
  - split; [|auto 10]. intros other Ho. apply nth_error_upd_neq. congruence.
Qed.

(** Control calls made in the wrong phase change nothing. *)
Theorem C15_wrong_phase_ignored (a : aggregator D) now t1 t2 name :
  (state a <> STOPPED -> start_recording a now = a /\ reset a = Ok a /\ set_experiment a name = a) /\
  (state a <> RECORDING -> stop_recording a now = a /\ snapshot a t1 t2 = Ok a) /\
  (state a <> INIT -> initialize zero a = Ok a).
Proof.
  repeat split; intros; unfold start_recording, reset, set_experiment, stop_recording, snapshot, initialize;
    destruct (state a); try reflexivity; congruence.
Qed.

(** Registering a statistic after Initialize and then updating it writes outside the
    statistics' memory; so does generating output before Initialize. *)
Theorem C15_late_registration_refuted (d : descriptor D) v :
  run zero [Initialize; RegisterStat d; StartRecording 0; Update 0 v] = UB /\
  run zero [RegisterStat d; Generate] = UB.
Proof. split; reflexivity. Qed.

(** ** C16 *)
(** Everything the sinks were ever told is what the log book says. *)
Theorem C16_reports history :
  Forall resets (registered history) -> disciplined false history = true ->
  exists a, run zero history = Ok a /\ trace a = l_reports (log_of fresh history).
Proof.
  intros Hr Hd. destruct (run_ok D zero history Hr Hd) as (a & E & R).
  exists a. split; [exact E|]. apply R.
Qed.

(** A snapshot while recording: every sink is told, in order, the counters with the time
    up to now and one output per statistic, computed from the updates since the last
    reset; afterwards recording goes on with fresh statistics and counters. *)
Theorem C16_snapshot history t1 t2 :
  Forall resets (registered history) -> disciplined false history = true ->
  l_mode (log_of fresh history) = RECORDING ->
  let l := log_of fresh history in
  let h := elapsed l t1 in
  exists a a', run zero history = Ok a /\ run zero (history ++ [Snapshot t1 t2]) = Ok a' /\
    trace a' = trace a ++ map (fun s => (s, SinkProcess h (report fresh h (registered history) (l_updates l))))
                              (seq 0 (sinks a)) /\
    state a' = RECORDING /\ start_time a' = t2 /\
    hc a' = mkHC 0 0 0 (epoch (hc a)) (is_training (hc a)) /\
    length (stats a') = length (registered history) /\
    forall id d, nth_error (registered history) id = Some d -> nth_error (stats a') id = Some (d_init d fresh).
Proof.
  intros Hr Hd Hm. cbv zeta. destruct (run_ok D zero history Hr Hd) as (a & E & R).
  assert (Hr2 : Forall resets (registered (history ++ [Snapshot t1 t2]))).
  { unfold registered. rewrite flat_map_app. cbn. now rewrite app_nil_r. }
  assert (Hd2 : disciplined false (history ++ [Snapshot t1 t2]) = true).
  { clear - Hd. revert Hd. generalize false. induction history as [|c h IH]; intros b H; [reflexivity|].
    destruct c; cbn in *; rewrite ?andb_true_iff in *; intuition. }
  destruct (run_ok D zero _ Hr2 Hd2) as (a' & E' & R').
  exists a, a'. split; [exact E|]. split; [exact E'|].
  assert (Hds : forall h l, l_descs (fold_left (log_step fresh) h l) = l_descs l ++ registered h).
  { clear. induction h as [|c h IH]; intros l; cbn [fold_left]; [now rewrite app_nil_r|].
    rewrite IH, log_step_descs, <- app_assoc. reflexivity. }
  unfold log_of in R'. rewrite fold_left_app in R'. cbn [fold_left] in R'.
  fold (log_of fresh history) in R'. pose proof (Hds history empty_log) as Hds1.
  fold (log_of fresh history) in Hds1. cbn [l_descs empty_log app] in Hds1.
  destruct (log_of fresh history) as [m ds n since h us rs]. cbn [l_mode l_descs] in Hm, Hds1. subst m ds.
  destruct R as (R1 & R2 & R3 & R4 & R5 & R6 & R7).
  destruct R' as (Q1 & Q2 & Q3 & Q4 & Q5 & Q6 & Q7).
  cbn in *. rewrite Q6, R6, Q3, R3, R5. split; [reflexivity|]. split; [exact Q1|]. split; [exact Q2|].
  split; [reflexivity|]. destruct Q7 as [Q7 Q8]. split; [exact Q7|]. exact Q8.
Qed.
End Props.

(** ** A concrete history: two statistics (a sum and a last value), one sink *)
Definition ex_sum : descriptor nat :=
  mkDesc (fun _ => mkStat 0 true) (fun s v => mkStat (s_value s + v) false) (fun _ s => s).
Definition ex_last : descriptor nat :=
  mkDesc (fun _ => mkStat 0 true) (fun _ v => mkStat v false) (fun h s => mkStat (s_value s + iterations h) (s_null s)).
Definition ex_history : list (call nat) :=
  [RegisterStat ex_sum; RegisterStat ex_last; RegisterSink; Update 0 100; Initialize; Update 0 100;
   StartRecording 10; Update 0 3; Update 1 8; IterationDone; Update 0 4; Update 2 50; Reset].
Example ex_history_ok : Forall resets (registered ex_history) /\ disciplined false ex_history = true /\
  l_mode (log_of (mkStat 0 false) ex_history) = RECORDING.
Proof. split; [|split; reflexivity]. repeat constructor; intros s s'; reflexivity. Qed.
Example ex_snapshot :
  rmap (fun a => (stats a, trace a)) (run 0 (ex_history ++ [Snapshot 25 26])) =
  Ok ([mkStat 0 true; mkStat 0 true],
      [(0, SinkInitialize 2); (0, SinkExperiment 0);
       (0, SinkProcess (mkHC 15 1 0 0 false) [mkStat 7 false; mkStat 9 false])]).
Proof. reflexivity. Qed.

Print Assumptions C15_history.
Print Assumptions C15_update_ignored.
Print Assumptions C15_update_recorded.
Print Assumptions C15_wrong_phase_ignored.
Print Assumptions C15_late_registration_refuted.
Print Assumptions C16_reports.
Print Assumptions C16_snapshot.

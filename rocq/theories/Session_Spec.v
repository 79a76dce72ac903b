(** What a user of trainNetwork expects from a session. *)
From Coq Require Import String List.
From Verif Require Import Base Str_Model Stat_Model Trainer_Model Session_Model.
Local Open Scope list_scope.
Local Open Scope nat_scope.

(** What one sink of the statistics is told: a row of the statistics, or the name of a new experiment. *)
Inductive item : Type :=
| Row (training : bool) (epoch iterations weights : nat)
| Experiment (name : nat).
Definition items {V} (sink : nat) (told : list (nat * sink_event V)) : list item :=
  flat_map (fun '(k, e) =>
    if k =? sink then
      match e with
      | SinkProcess h _ => [Row (is_training h) (Stat_Model.epoch h) (Stat_Model.iterations h) (weights h)]
      | SinkExperiment n => [Experiment n]
      | SinkInitialize _ => []
      end
    else []) told.

(** The rows of a session: [its] iterations with [wc] weights for every epoch of training, [tits] iterations with
    [twc] weights for every test.  [e]: the epoch the trainer is at; [last]: the number of the epoch trained last,
    which is what the row of a test shows. *)
Section Rows.
Variables (its wc tits twc : nat) (experiment : str -> nat).
Fixpoint rows (e last : nat) (cs : list command) : list item :=
  match cs with
  | [] => []
  | CTrain n no_snapshots :: cs' =>
    let n := Z.to_nat n in
    let last' := if n =? 0 then last else to_u32 (e + (n - 1)) in
    (if (no_snapshots =? 1)%Z then [Row true last' (n * its) wc]
     else map (fun i => Row true (to_u32 (e + i)) its wc) (seq 0 n)) ++ rows (to_u32 (e + n)) last' cs'
  | CTest :: cs' => Row false last tits twc :: rows e last cs'
  | CSetExperiment (c :: name) :: cs' => Experiment (experiment (c :: name)) :: rows e last cs'
  | CSetEpoch x :: cs' => rows (Z.to_nat x) last cs'
  | _ :: cs' => rows e last cs'
  end.
End Rows.

(** Epoch numbers fit into 32 bits. *)
Definition in_range (c : command) : Prop := match c with CSetEpoch x => (0 <= x < 2 ^ 32)%Z | _ => True end.

(** Before the first command only statistics and sinks are registered. *)
Definition registration {V} (c : call V) : Prop := match c with RegisterStat _ | RegisterSink => True | _ => False end.
Definition sink_count {V} (cs : list (call V)) : nat := length (filter (fun c => match c with RegisterSink => true | _ => false end) cs).

(** How many parameters every layer has. *)
Definition layout {D} (ls : list (D * list (list D))) : list nat := map (fun l => length (snd l)) ls.
(** The same layers with the same local rates and parameter sizes. *)
Definition sizes {D} (ls : list (D * list (list D))) : list (D * list nat) := map (fun '(r, ps) => (r, map (@length D) ps)) ls.

(** Commands that only look: they may print, write files, switch or submit statistics. *)
Definition looks (c : command) : bool :=
  match c with CTrain _ _ | CLoad _ _ | CSetEpoch _ | CReset => false | _ => true end.
(** Commands that write a file. *)
Definition writes (c : command) : option str :=
  match c with CSave f | CGraph f _ => Some f | _ => None end.

(** Model of the command loop of tools/trainNetwork.cpp: the commands, what they do to the two networks, the
    trainers, the statistics and the files, and how the loop ends.

    Simplifications: the networks are the parameters of [Trainer_Model]; the calls the trainers and the layers make
    to the statistics are derived from the events of [Trainer_Model], updates other than that of the aggregate loss
    are arbitrary ([updates]); the layer view and the log output are left out; the dot text, the parameter file
    format (C20) and the initialization of weights (C63) are arguments.  Of a combined tensor only the data is
    modelled; the code shadows the gradients in the same statements. *)
From Coq Require Import Ascii String List.
From Verif Require Import Base Str_Model Config_Model Stat_Model Trainer_Model.
Local Open Scope string_scope.
Local Open Scope list_scope.
Local Open Scope nat_scope.

Inductive command : Type :=
| CQuit
| CTrain (epochs : Z) (no_snapshots : Z)
| CTest
| CLoad (file : str) (last_layer : Z)
| CSave (file : str)
| CSetExperiment (name : str)
| CSetEpoch (epoch : Z)
| CReset
| CHelp
| CGraph (file : str) (of_testing : bool)
| CStat                               (* wstat and dstat only print *)
| CTstat (enable : Z)
| CUnknown.

Definition str_eqb (a b : str) : bool := (length a =? length b) && starts a b.

(** trainNetwork.cpp:293-482: which branch a line selects and the parameters it reads there; lines 302 and 319 read
    the parameter of the layer view, which is not used here. *)
Definition parse_command (line : str) : res command :=
  if str_eqb line (s_ "q") || str_eqb line (s_ "quit") then Ok CQuit
  else if compare0 line (s_ "train") then
    _ <- parse_count line (s_ "view") 0 ;;
    epochs <- parse_count line (s_ "epochs") 1 ;;
    no_snapshots <- parse_count line (s_ "no_snapshots") 0 ;;
    Ok (CTrain epochs no_snapshots)
  else if compare0 line (s_ "test") then
    _ <- parse_count line (s_ "view") 0 ;;
    Ok CTest
  else if compare0 line (s_ "load") then
    file <- parse_string_param line (s_ "file") [] ;;
    last <- parse_count line (s_ "last_layer") 0 ;;
    Ok (CLoad file last)
  else if compare0 line (s_ "save") then
    file <- parse_string_param line (s_ "file") [] ;; Ok (CSave file)
  else if compare0 line (s_ "set experiment") then
    name <- parse_string_param line (s_ "name") [] ;; Ok (CSetExperiment name)
  else if compare0 line (s_ "set epoch") then
    e <- parse_count line (s_ "epoch") 0 ;; Ok (CSetEpoch e)
  else if compare0 line (s_ "reset") then Ok CReset
  else if compare0 line (s_ "help") then Ok CHelp
  else if compare0 line (s_ "graph") then
    file <- parse_string_param line (s_ "file") [] ;;
    Ok (CGraph file (match find (s_ "test") line 0 with Some _ => true | None => false end))
  else if compare0 line (s_ "wstat") then
    _ <- parse_string_param line (s_ "node") [] ;; Ok CStat
  else if compare0 line (s_ "dstat") then
    _ <- parse_string_param line (s_ "node") [] ;; Ok CStat
  else if compare0 line (s_ "tstat") then
    e <- parse_count line (s_ "enable") 1 ;; Ok (CTstat e)
  else Ok CUnknown.

(** The memory of a parameter of the testing network: its own, or that of a training parameter. *)
Inductive memory (D : Type) : Type :=
| Own (data : list D)
| Shadow (block : nat).
Arguments Own {D}. Arguments Shadow {D}.

Section Session.
Context {D W V B : Type}.
Variable A : arith D.
(** Method PATCH: a testing network of its own (trainNetwork.cpp:186-234). *)
Variable hybrid : bool.
(** The training network and its trainer. *)
Variable cfg : settings D.
Variable dl : data_layer D.
Variable pass : W -> list (list (list D)) -> W * list D * list (list D).
Variable forward : W -> list (list (list D)) -> W * list D.
Variable set_mode : bool -> W -> W.
Variable lr_at : nat -> D.
Variable scaling : nat -> D -> nat.
Variable weight_count : nat.
(** The testing network and its trainer, in hybrid mode. *)
Variable tcfg : settings D.
Variable tdl : data_layer D.
Variable tforward : W -> list (list (list D)) -> W * list D.
Variable tset_mode : bool -> W -> W.
Variable tweight_count : nat.
(** Statistics: the number of the aggregate loss, its conversion to double, the other updates made before the
    [n]-th call to the aggregator, the clock, the names of experiments as numbers. *)
Variable loss_stat : nat.
Variable to_double : D -> V.
Variable updates : nat -> list (nat * V).
Variable clock : nat -> Z.
Variable experiment : str -> nat.
(** Weights (NetGraph::InitializeWeights) and files; [writable]: files the process can open for writing. *)
Variable init_weights : W -> list (D * list (list D)) -> W * list (D * list (list D)).
Variable save_params : list (D * list (list D)) -> list B.
Variable load_params : list B -> Z -> list (D * list (list D)) -> res (list (D * list (list D))).
Variable writable : str -> bool.
Variable dot : bool -> list B.

Record session : Type := mkSession {
  training : trainer D W;
  training_stats : bool;                    (* settings_.stats_during_training of the two trainers *)
  testing : trainer D W;                    (* hybrid mode; its [layers] give the structure only *)
  testing_stats : bool;
  blocks : list nat;                        (* the memory block of every training parameter *)
  view : list (memory D);                   (* the memory of every testing parameter *)
  next_block : nat;                         (* blocks from here on were never used *)
  calls : list (call V);                    (* calls to the aggregator, oldest first *)
  files : str -> option (list B) }.

Definition with_stats (c : settings D) (b : bool) : settings D :=
  mkSettings (l1_weight c) (l2_weight c) (momentum c) (mu c) (epoch_training_ratio c) (testing_ratio c)
             (optimization c) b (sbatchsize c) (iterations c).
Definition with_training (s : session) (t : trainer D W) : session :=
  mkSession t (training_stats s) (testing s) (testing_stats s) (blocks s) (view s) (next_block s) (calls s) (files s).
Definition with_testing (s : session) (t : trainer D W) : session :=
  mkSession (training s) (training_stats s) t (testing_stats s) (blocks s) (view s) (next_block s) (calls s) (files s).
Definition with_calls (s : session) (cs : list (call V)) : session :=
  mkSession (training s) (training_stats s) (testing s) (testing_stats s) (blocks s) (view s) (next_block s) cs (files s).
Definition with_view (s : session) (v : list (memory D)) : session :=
  mkSession (training s) (training_stats s) (testing s) (testing_stats s) (blocks s) v (next_block s) (calls s) (files s).
Definition with_files (s : session) (f : str -> option (list B)) : session :=
  mkSession (training s) (training_stats s) (testing s) (testing_stats s) (blocks s) (view s) (next_block s) (calls s) f.
Definition call_ (s : session) (c : call V) : session := with_calls s (calls s ++ [c]).

Definition all_params (ls : list (D * list (list D))) : list (list D) := concat (map snd ls).

(** What the trainer tells the aggregator at an event: NetStatus.h:37, Trainer.cpp:316, 284-288 and 397-402,
    241-245. *)
Definition event_calls (weights n : nat) (e : event D) : list (call V) :=
  match e with
  | EGraphTesting b => [SetTraining (negb b)]
  | EEpoch k => [SetEpochNumber k]
  | EIteration loss => [IterationDone; Update loss_stat (to_double loss)]
  | ESnapshot => [Snapshot (clock n) (clock (S n)); SetWeights weights]
  | _ => []
  end.
Definition note_event (weights : nat) (cs : list (call V)) (e : event D) : list (call V) :=
  cs ++ map (fun '(id, v) => Update id v) (updates (length cs)) ++ event_calls weights (length cs) e.
Definition note_events (weights : nat) (cs : list (call V)) (es : list (event D)) : list (call V) :=
  fold_left (note_event weights) es cs.

(** Trainer.cpp:232-249 and 251-312, with the statement that reports the number of weights. *)
Definition do_train (s : session) (epochs : nat) (snapshots : bool) : res session :=
  r <- train D A (with_stats cfg (training_stats s)) dl W pass set_mode lr_at scaling epochs snapshots (training s, []) ;;
  let '(t, es) := r in
  Ok (with_calls (with_training s t) (note_events weight_count (calls s ++ [SetWeights weight_count]) es)).
Definition do_test (s : session) (c : settings D) (d : data_layer D) fwd mode weights (t : trainer D W) : res (trainer D W * list (call V)) :=
  r <- test D A c d W fwd mode scaling (t, []) ;;
  let '(t', es) := r in Ok (t', note_events weights (calls s ++ [SetWeights weights]) es).

(** What the testing network computes with: a block that no training parameter has any more is freed memory. *)
Fixpoint index_of (b : nat) (l : list nat) : option nat :=
  match l with
  | [] => None
  | x :: l' => if x =? b then Some 0 else match index_of b l' with Some i => Some (S i) | None => None end
  end.
Definition read_memory (s : session) (m : memory D) : res (list D) :=
  match m with
  | Own data => Ok data
  | Shadow b => match index_of b (blocks s) with Some p => load (all_params (layers (training s))) p | None => UB end
  end.
Fixpoint read_all (s : session) (ms : list (memory D)) : res (list (list D)) :=
  match ms with
  | [] => Ok []
  | m :: ms' => v <- read_memory s m ;; vs <- read_all s ms' ;; Ok (v :: vs)
  end.
(** The parameters distributed over the layers again. *)
Fixpoint regroup (ls : list (D * list (list D))) (vs : list (list D)) : list (D * list (list D)) :=
  match ls with
  | [] => []
  | (r, ps) :: ls' => (r, firstn (length ps) vs) :: regroup ls' (skipn (length ps) vs)
  end.
Definition with_layers (t : trainer D W) (ls : list (D * list (list D))) : trainer D W :=
  mkTrainer (world t) ls (last_deltas t) (last_gradients t) (accumulated t) (epoch t) (first_iteration t).

(** trainNetwork.cpp:214-225, 346-357 and 404-415: every testing parameter is made to use the memory of the training
    parameter with the same number; a testing parameter that does not exist is read out of bounds. *)
Definition shadow (s : session) : res session :=
  v <- exec (for_ (length (blocks s)) (fun p => [(p, b <- load (blocks s) p ;; Ok (Shadow b))])) (view s) ;;
  Ok (with_view s v).

(** testing_trainer.SetEpoch (trainer.epoch()); in FCN mode both names are the same trainer. *)
Definition sync_epoch (s : session) : session :=
  if hybrid then with_testing s (set_epoch D A W (testing s) (epoch (training s)))
  else with_training s (set_epoch D A W (training s) (epoch (training s))).

(** Tensor::Deserialize resizes a parameter, which moves it iff the number of elements changes (Tensor.cpp:132-167, 287):
    the new blocks of the parameters. *)
Fixpoint moved (old new : list (list D)) (bs : list nat) (fresh : nat) : list nat * nat :=
  match old, new, bs with
  | o :: old', n :: new', b :: bs' =>
    if length o =? length n then let '(r, f) := moved old' new' bs' fresh in (b :: r, f)
    else let '(r, f) := moved old' new' bs' (S fresh) in (fresh :: r, f)
  | _, _, _ => (bs, fresh)
  end.

Definition put_file (f : str -> option (list B)) (name : str) (text : list B) : str -> option (list B) :=
  fun n => if str_eqb n name then Some text else f n.

(** trainNetwork.cpp:293-482. *)
Definition exec_command (s : session) (c : command) : res session :=
  match c with
  | CTrain epochs no_snapshots =>
    let s := call_ s (StartRecording (clock (length (calls s)))) in
    s <- do_train s (Z.to_nat epochs) (negb (no_snapshots =? 1)%Z) ;;
    let s := sync_epoch s in
    let s := call_ s (StopRecording (clock (length (calls s)))) in
    let s := if (no_snapshots =? 1)%Z then call_ s Generate else s in
    Ok (call_ s Reset)
  | CTest =>
    let s := call_ s (StartRecording (clock (length (calls s)))) in
    let s := sync_epoch s in
    s <- (if hybrid then
            vs <- read_all s (view s) ;;
            r <- do_test s (with_stats tcfg (testing_stats s)) tdl tforward tset_mode tweight_count
                         (with_layers (testing s) (regroup (layers (testing s)) vs)) ;;
            Ok (with_calls (with_testing s (fst r)) (snd r))
          else
            r <- do_test s (with_stats cfg (training_stats s)) dl forward set_mode weight_count (training s) ;;
            Ok (with_calls (with_training s (fst r)) (snd r))) ;;
    let s := call_ s (StopRecording (clock (length (calls s)))) in
    Ok (call_ (call_ s Generate) Reset)
  | CLoad file last =>
    match file, files s file with
    | [], _ | _, None => Ok s
    | _, Some bytes =>
      ls <- load_params bytes last (layers (training s)) ;;
      let '(bs, f) := moved (all_params (layers (training s))) (all_params ls) (blocks s) (next_block s) in
      let s := mkSession (with_layers (training s) ls) (training_stats s) (testing s) (testing_stats s) bs (view s) f (calls s) (files s) in
      if hybrid then shadow s else Ok s
    end
  | CSave file =>
    match file with
    | [] => Ok s
    | _ => Ok (if writable file then with_files s (put_file (files s) file (save_params (layers (training s)))) else s)
    end
  | CSetExperiment name =>
    match name with
    | [] => Ok s
    | _ => Ok (call_ s (SetExperiment (experiment name)))
    end
  | CSetEpoch e =>
    let s := with_training s (set_epoch D A W (training s) (Z.to_nat e)) in
    let s := sync_epoch s in
    Ok (with_training s (Trainer_Model.reset D A W (training s)))
  | CReset =>
    let '(w, ls) := init_weights (world (training s)) (layers (training s)) in
    let s := with_training s (Trainer_Model.reset D A W (with_layers (with_world D W (training s) w) ls)) in
    if hybrid then shadow s else Ok s
  | CGraph file of_testing =>
    match file with
    | [] => Ok s
    | _ => Ok (if writable file then with_files s (put_file (files s) file (dot (of_testing && hybrid))) else s)
    end
  | CTstat enable =>
    let b := (enable =? 1)%Z in
    Ok (mkSession (training s) b (testing s) b (blocks s) (view s) (next_block s) (calls s) (files s))
  | CQuit | CHelp | CStat | CUnknown => Ok s
  end.

(** trainNetwork.cpp:293-295, 481: one line; false: the program ends. *)
Definition run_line (s : session) (line : str) : res (session * bool) :=
  c <- parse_command line ;;
  match c with
  | CQuit => Ok (s, false)
  | _ => s' <- exec_command s c ;; Ok (s', true)
  end.

(** The lines std::getline reads from a text, the last one with eof set. *)
Fixpoint getlines (text : str) (cur : str) : list str :=
  match text with
  | [] => [rev cur]
  | c :: t => if Ascii.eqb c "010" then rev cur :: getlines t [] else getlines t (c :: cur)
  end.

(** trainNetwork.cpp:247-253. *)
Fixpoint run_script (s : session) (lines : list str) : res session :=
  match lines with
  | [] => Ok s
  | line :: rest =>
    r <- run_line s line ;;
    let '(s', go_on) := r in
    if go_on then run_script s' rest else Ok s'
  end.
(** trainNetwork.cpp:257-264: at the end of the input std::getline yields an empty line, and the loop does not look at
    the state of std::cin.  [fuel] iterations; None: still running. *)
Fixpoint run_console (fuel : nat) (s : session) (lines : list str) : option (res session) :=
  match fuel with
  | 0 => None
  | S fuel' =>
    match run_line s (hd [] lines) with
    | Ok (s', true) => run_console fuel' s' (tl lines)
    | Ok (s', false) => Some (Ok s')
    | Fatal => Some Fatal
    | UB => Some UB
    end
  end.

(** trainNetwork.cpp:181-236: the state at the first command; [own]: memory of the testing network's parameters. *)
Definition start (t tt : trainer D W) (setup : list (call V)) (fs : str -> option (list B)) : res session :=
  let n := length (all_params (layers t)) in
  let s := mkSession t (stats_during_training cfg) tt (stats_during_training tcfg) (seq 0 n)
                     (map Own (all_params (layers tt))) n setup fs in
  if hybrid then shadow s else Ok s.

End Session.
Arguments session : clear implicits.

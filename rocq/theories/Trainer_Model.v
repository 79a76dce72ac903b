(** Model of class Conv::Trainer (include/cn24/net/Trainer.h, src/net/Trainer.cpp).

    The arithmetic is a parameter: every operation of the C++ code is an application of
    one of the functions of [arith], in the order of the source, so the results hold for
    rounding arithmetic as well as for exact numbers.  The network is a parameter too: a
    pass takes its state and the parameters to a new state, the losses of the loss nodes
    and the gradients.  OpenCL transfers, log output and progress bars are not modelled;
    the QuickProp counters are, their statistics are not. *)
From Verif Require Import Base.

Record arith (D : Type) : Type := mkArith {
  zero : D;
  add : D -> D -> D;
  sub : D -> D -> D;
  mul : D -> D -> D;
  div : D -> D -> D;
  opp : D -> D;
  absv : D -> D;
  ltb : D -> D -> bool;
  leb : D -> D -> bool;
  of_Z : Z -> D;
  eps_flat : D;       (* 1e-15, Trainer.cpp:487 *)
  eps_zero : D        (* 0.1, Trainer.cpp:488 *)
}.
Arguments zero {D}. Arguments add {D}. Arguments sub {D}. Arguments mul {D}. Arguments div {D}. Arguments opp {D}.
Arguments absv {D}. Arguments ltb {D}. Arguments leb {D}. Arguments of_Z {D}. Arguments eps_flat {D}. Arguments eps_zero {D}.

Inductive optimization_method : Type := GradientDescent | QuickProp.   (* Trainer.h:27-30 *)

Section TrainerModel.
Variable D : Type.
Variable A : arith D.

(** Trainer.h:32-49 (fields the modelled code reads). *)
Record settings : Type := mkSettings {
  l1_weight : D; l2_weight : D; momentum : D; mu : D;
  epoch_training_ratio : D; testing_ratio : D;
  optimization : optimization_method;
  stats_during_training : bool;
  sbatchsize : nat; iterations : nat }.

(** What the trainer knows about the first training layer (Trainer.cpp:225-227). *)
Record data_layer : Type := mkData {
  sample_count : nat; batch_size : nat; loss_probability : D; training_samples : nat; testing_samples : nat }.

Definition to_u32 (n : nat) : nat := N.to_nat (N.modulo (N.of_nat n) (2 ^ 32)).

(** Trainer.cpp:34-36 and 452. *)
Definition sgn (x : D) : Z := ((if ltb A (zero A) x then 1 else 0) - (if ltb A x (zero A) then 1 else 0))%Z.

Variable cfg : settings.
Variable dl : data_layer.

(** Trainer.cpp:450-467: the averaged, regularized gradient of one weight. *)
Definition weight_delta (layer_lr weight w_gradient : D) : D :=
  add A
    (mul A layer_lr (mul A (div A w_gradient (of_Z A (Z.of_nat (to_u32 (sample_count dl * sbatchsize cfg))))) (loss_probability dl)))
    (mul A layer_lr (add A (mul A (l2_weight cfg) weight) (mul A (l1_weight cfg) (of_Z A (sgn weight))))).

Inductive qp_case : Type := CaseFirst | CaseA | CaseB | CaseC.

(** Trainer.cpp:505-514. *)
Definition quadratic_step (current_slope last_step last_slope : D) : D * qp_case :=
  if ltb A (absv A current_slope) (absv A (mul A (mu cfg) (sub A last_slope current_slope)))
     && negb (Z.eqb (sgn last_step) (sgn (sub A last_slope current_slope)))
  then (div A (mul A last_step current_slope) (sub A last_slope current_slope), CaseB)
  else (mul A (mu cfg) last_step, CaseA).

(** Trainer.cpp:482-523: the step QuickProp adds to a weight. *)
Definition quickprop_step (first : bool) (lr current_slope last_step last_slope : D) : D * qp_case :=
  if first then (mul A (opp A (eps_zero A)) current_slope, CaseFirst)
  else if leb A (absv A current_slope) (eps_flat A) then (mul A (opp A current_slope) lr, CaseC)
  else
    let '(quadratic, c) := quadratic_step current_slope last_step last_slope in
    if Z.eqb (sgn current_slope) (sgn last_slope)
    then (sub A quadratic (mul A lr current_slope), c)
    else (quadratic, c).

(** State of the loops of ApplyGradients for one parameter tensor: first_iteration, the
    weights, the last steps, the last gradients. *)
Definition weights_state : Type := bool * list D * list D * list D.

(** Trainer.cpp:450-535: one weight. *)
Definition update_weight (lr layer_lr : D) (accumulated : list D) (st : weights_state) (w : nat) : res weights_state :=
  let '(first, data, last_deltas, last_gradients) := st in
  weight <- load data w ;;
  w_gradient <- load accumulated w ;;
  let delta := weight_delta layer_lr weight w_gradient in
  last_step <- load last_deltas w ;;
  match optimization cfg with
  | GradientDescent =>
    let step := add A (mul A lr delta) (mul A (momentum cfg) last_step) in
    data' <- store data w (sub A weight step) ;;
    last_deltas' <- store last_deltas w step ;;
    Ok (first, data', last_deltas', last_gradients)
  | QuickProp =>
    last_slope <- load last_gradients w ;;
    let step := fst (quickprop_step first lr delta last_step last_slope) in
    data' <- store data w (add A weight step) ;;
    last_deltas' <- store last_deltas w step ;;
    last_gradients' <- store last_gradients w delta ;;
    Ok (false, data', last_deltas', last_gradients')      (* line 494: first_iteration = false, for every weight *)
  end.

(** Trainer.h:115-134.  [layers]: per node, the layer's local learning rate and parameters. *)
Record trainer (W : Type) : Type := mkTrainer {
  world : W;
  layers : list (D * list (list D));
  last_deltas : list (list D);
  last_gradients : list (list D);
  accumulated : list (list D);
  epoch : nat;
  first_iteration : bool }.
Arguments mkTrainer {W}. Arguments world {W}. Arguments layers {W}. Arguments last_deltas {W}.
Arguments last_gradients {W}. Arguments accumulated {W}. Arguments epoch {W}. Arguments first_iteration {W}.

(** Trainer.cpp:444-540: the parameters of one layer, [dp] counts parameters over all layers. *)
Definition tensors_state : Type := bool * list (list D) * list (list D).
Fixpoint apply_params (lr layer_lr : D) (acc : list (list D)) (dp : nat) (ps : list (list D)) (st : tensors_state)
  : res (list (list D) * nat * tensors_state) :=
  match ps with
  | [] => Ok ([], dp, st)
  | data :: ps' =>
    let '(first, lds, lgs) := st in
    a <- load acc dp ;;
    ld <- load lds dp ;;
    lg <- load lgs dp ;;
    r <- foldm (update_weight lr layer_lr a) (seq 0 (length data)) (first, data, ld, lg) ;;
    let '(first', data', ld', lg') := r in
    r' <- apply_params lr layer_lr acc (S dp) ps' (first', upd lds dp ld', upd lgs dp lg') ;;
    let '(ps'', dp', st') := r' in Ok (data' :: ps'', dp', st')
  end.
(** Trainer.cpp:432-541. *)
Fixpoint apply_layers (lr : D) (acc : list (list D)) (dp : nat) (ls : list (D * list (list D))) (st : tensors_state)
  : res (list (D * list (list D)) * tensors_state) :=
  match ls with
  | [] => Ok ([], st)
  | (layer_lr, ps) :: ls' =>
    r <- apply_params lr layer_lr acc dp ps st ;;
    let '(ps', dp', st') := r in
    r' <- apply_layers lr acc dp' ls' st' ;;
    let '(ls'', st'') := r' in Ok ((layer_lr, ps') :: ls'', st'')
  end.

(** Trainer.cpp:428-551. *)
Definition apply_gradients {W} (t : trainer W) (lr : D) : res (trainer W) :=
  r <- apply_layers lr (accumulated t) 0 (layers t) (first_iteration t, last_deltas t, last_gradients t) ;;
  let '(ls, (first, lds, lgs)) := r in
  Ok (mkTrainer (world t) ls lds lgs (accumulated t) (epoch t) first).

(** What the outside can observe while the trainer works. *)
Inductive event : Type :=
| ETestingMode (testing : bool)        (* SetTestingMode on all training layers *)
| EGraphTesting (testing : bool)       (* graph_.SetIsTesting *)
| EStatLayers (enabled : bool)         (* graph_.SetStatLayersEnabled *)
| EPass (losses : list D) (gradients : list (list D))   (* FeedForward, losses, BackPropagate *)
| EForward (losses : list D)           (* FeedForward, losses *)
| EUpdate (lr : D) (accumulated : list (list D))        (* ApplyGradients *)
| EIteration (loss : D)                (* iterations++ and the aggregate loss statistic *)
| EEpoch (number : nat)                (* hardcoded_stats_.epoch *)
| ESnapshot.

Section Passes.
Variable W : Type.
(** FeedForward, CalculateLossFunction of every loss node, BackPropagate. *)
Variable pass : W -> list (list (list D)) -> W * list D * list (list D).
Variable forward : W -> list (list (list D)) -> W * list D.
Variable set_mode : bool -> W -> W.
(** Trainer.h:103-107. *)
Variable calculate_lr : nat -> D.
(** Trainer.cpp:262-263, 327-328: the conversion to datum, the product, the conversion back. *)
Variable scale : nat -> D -> nat.

(** Trainer.cpp:380-382. *)
Definition accumulate_tensor (acc gradients : list D) : res (list D) :=
  exec_with (add A) (for_ (length gradients) (fun e => [(e, load gradients e)])) acc.
(** Trainer.cpp:373-386; [np] counts parameters over all layers.  [gradients] lists the
    gradients of all parameters in that order. *)
Fixpoint accumulate_gradients (np : nat) (gradients acc : list (list D)) : res (list (list D)) :=
  match gradients with
  | [] => Ok acc
  | g :: gs =>
    a <- load acc np ;;
    a' <- accumulate_tensor a g ;;
    accumulate_gradients (S np) gs (upd acc np a')
  end.

Definition with_world (t : trainer W) (w : W) : trainer W :=
  mkTrainer w (layers t) (last_deltas t) (last_gradients t) (accumulated t) (epoch t) (first_iteration t).
Definition with_accumulated (t : trainer W) (a : list (list D)) : trainer W :=
  mkTrainer (world t) (layers t) (last_deltas t) (last_gradients t) a (epoch t) (first_iteration t).
Definition with_epoch (t : trainer W) (e : nat) : trainer W :=
  mkTrainer (world t) (layers t) (last_deltas t) (last_gradients t) (accumulated t) e (first_iteration t).

Definition clear_all (ts : list (list D)) : list (list D) := map (map (fun _ => zero A)) ts.
Definition sum_losses (start : D) (losses : list D) : D := fold_left (add A) losses start.

(** Trainer.cpp:355-387: one of the passes of an iteration. State: trainer, aggregate
    loss, events. *)
Definition one_pass (st : trainer W * D * list event) (b : nat) : res (trainer W * D * list event) :=
  let '(t, loss, es) := st in
  let '(w, losses, gradients) := pass (world t) (map snd (layers t)) in
  acc <- accumulate_gradients 0 gradients (accumulated t) ;;
  Ok (with_accumulated (with_world t w) acc, sum_losses loss losses, es ++ [EPass losses gradients]).

(** Trainer.cpp:337-402: one iteration of [its]. *)
Definition one_iteration (its : nat) (st : trainer W * list event) (i : nat) : res (trainer W * list event) :=
  let '(t, es) := st in
  r <- foldm one_pass (seq 0 (sbatchsize cfg)) (with_accumulated t (clear_all (accumulated t)), zero A, es) ;;
  let '(t1, loss, es1) := r in
  let lr := calculate_lr (to_u32 (epoch t1 * its + i)) in
  t2 <- apply_gradients t1 lr ;;
  let reported := div A loss (mul A (mul A (loss_probability dl) (of_Z A (Z.of_nat (sample_count dl)))) (of_Z A (Z.of_nat (sbatchsize cfg)))) in
  Ok (t2, es1 ++ [EUpdate lr (accumulated t1); EIteration reported]).

(** Trainer.cpp:323-328. *)
Definition epoch_iterations : nat :=
  scale (if iterations cfg =? 0 then training_samples dl else iterations cfg) (epoch_training_ratio cfg).

(** Trainer.cpp:314-426. *)
Definition run_epoch (st : trainer W * list event) : res (trainer W * list event) :=
  let '(t, es) := st in
  let t0 := with_world t (set_mode false (world t)) in
  r <- foldm (one_iteration epoch_iterations) (seq 0 epoch_iterations)
         (t0, es ++ [EEpoch (epoch t); ETestingMode false]) ;;
  let '(t1, es1) := r in
  Ok (with_epoch t1 (to_u32 (S (epoch t1))), es1).

(** Trainer.cpp:239-246. *)
Definition train_epoch (do_snapshots : bool) (st : trainer W * list event) (e : nat) : res (trainer W * list event) :=
  r <- run_epoch st ;;
  let '(t, es) := r in Ok (t, if do_snapshots then es ++ [ESnapshot] else es).
(** Trainer.cpp:232-249. *)
Definition train (epochs : nat) (do_snapshots : bool) (st : trainer W * list event) : res (trainer W * list event) :=
  let '(t, es) := st in
  r <- foldm (train_epoch do_snapshots) (seq 0 epochs)
         (t, es ++ [EGraphTesting false; EStatLayers (stats_during_training cfg)]) ;;
  let '(t1, es1) := r in Ok (t1, es1 ++ [EStatLayers true]).

(** Trainer.cpp:273-288. *)
Definition test_pass (st : trainer W * list event) (i : nat) : res (trainer W * list event) :=
  let '(t, es) := st in
  let '(w, losses) := forward (world t) (map snd (layers t)) in
  Ok (with_world t w,
      es ++ [EForward losses; EIteration (div A (sum_losses (zero A) losses) (of_Z A (Z.of_nat (sample_count dl))))]).
(** Trainer.cpp:260-263. *)
Definition test_iterations : res nat :=
  if batch_size dl =? 0 then UB
  else Ok (scale (testing_samples dl / batch_size dl + 1) (testing_ratio cfg)).
(** Trainer.cpp:251-312. *)
Definition test (st : trainer W * list event) : res (trainer W * list event) :=
  let '(t, es) := st in
  its <- test_iterations ;;
  r <- foldm test_pass (seq 0 its) (with_world t (set_mode true (world t)), es ++ [ETestingMode true; EGraphTesting true]) ;;
  let '(t1, es1) := r in
  Ok (with_world t1 (set_mode false (world t1)), es1 ++ [ETestingMode false]).

(** Trainer.h:81-89. *)
Definition reset (t : trainer W) : trainer W :=
  mkTrainer (world t) (layers t) (clear_all (last_deltas t)) (clear_all (last_gradients t)) (accumulated t) (epoch t) true.
(** Trainer.h:96-99. *)
Definition set_epoch (t : trainer W) (e : nat) : trainer W := reset (with_epoch t e).

(** Trainer.cpp:185-230 (lines 190-193 and the statistics aside). *)
Definition new_trainer (w : W) (ls : list (D * list (list D))) : trainer W :=
  let history := clear_all (concat (map snd ls)) in
  mkTrainer w ls history history history 0 true.

End Passes.
End TrainerModel.

Arguments mkTrainer {D W}. Arguments world {D W}. Arguments layers {D W}. Arguments last_deltas {D W}.
Arguments last_gradients {D W}. Arguments accumulated {D W}. Arguments epoch {D W}. Arguments first_iteration {D W}.
Arguments mkSettings {D}. Arguments mkData {D}.
Arguments l1_weight {D}. Arguments l2_weight {D}. Arguments momentum {D}. Arguments mu {D}. Arguments sbatchsize {D}.
Arguments iterations {D}. Arguments epoch_training_ratio {D}. Arguments testing_ratio {D}. Arguments optimization {D}.
Arguments stats_during_training {D}.
Arguments sample_count {D}. Arguments batch_size {D}. Arguments loss_probability {D}. Arguments training_samples {D}. Arguments testing_samples {D}.
Arguments ETestingMode {D}. Arguments EGraphTesting {D}. Arguments EStatLayers {D}. Arguments EPass {D}. Arguments EForward {D}.
Arguments EUpdate {D}. Arguments EIteration {D}. Arguments EEpoch {D}. Arguments ESnapshot {D}.

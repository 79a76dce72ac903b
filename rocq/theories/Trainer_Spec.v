(** Vocabulary for the trainer properties. *)
From Verif Require Import Base Trainer_Model.

(** Element [w] of tensor [i] in a list of tensors. *)
Definition elem {D} (ts : list (list D)) (i w : nat) : option D :=
  match nth_error ts i with Some t => nth_error t w | None => None end.
Definition shape {D} (ts : list (list D)) : list nat := map (@length D) ts.

(** All parameters in the order of the network, their contents, and where the [p]-th
    parameter of layer [l] is among them. *)
Definition parameters {D W} (t : trainer D W) : list (list D) := concat (map snd (layers t)).
Definition weight {D W} (t : trainer D W) (l p w : nat) : option D :=
  match nth_error (layers t) l with Some (_, ps) => elem ps p w | None => None end.
Definition local_rate {D W} (t : trainer D W) (l : nat) : option D :=
  match nth_error (layers t) l with Some (r, _) => Some r | None => None end.
Definition position {D W} (t : trainer D W) (l p : nat) : nat := length (concat (map snd (firstn l (layers t)))) + p.

(** The trainer's own tensors have the shapes of the parameters. *)
Definition fits {D W} (t : trainer D W) : Prop :=
  shape (last_deltas t) = shape (parameters t) /\ shape (last_gradients t) = shape (parameters t) /\
  shape (accumulated t) = shape (parameters t).

(** Same network: same layers with the same local rates and parameter shapes. *)
Definition structure {D W} (t : trainer D W) : list (D * list nat) := map (fun '(r, ps) => (r, shape ps)) (layers t).

(** Learning rates of the updates, in order. *)
Definition rates {D} (es : list (event D)) : list D :=
  flat_map (fun e => match e with EUpdate lr _ => [lr] | _ => [] end) es.
Definition passes {D} (es : list (event D)) : nat :=
  length (filter (fun e => match e with EPass _ _ => true | _ => false end) es).

(** What is switched, numbered or saved between the passes and updates. *)
Definition controls {D} (es : list (event D)) : list (event D) :=
  filter (fun e => match e with EPass _ _ | EForward _ | EUpdate _ _ | EIteration _ => false | _ => true end) es.

(** Element-wise sum of the gradients of some passes, starting at zero, in order. *)
Definition summed {D} (A : arith D) (gs : list D) : D := fold_left (add A) gs (zero A).

(** What one iteration shows to the outside: its passes, one update with the given rate
    and, element by element, the sums of the gradients of exactly these passes, and the
    report of the sum of their losses. *)
Definition iteration_trace {D} (A : arith D) (cfg : settings D) (dl : data_layer D) (sizes : list nat) (lr : D) (es : list (event D)) : Prop :=
  exists ps acc,
    es = map (fun '(losses, gradients) => EPass losses gradients) ps ++
         [EUpdate lr acc;
          EIteration (div A (summed A (concat (map fst ps)))
                            (mul A (mul A (loss_probability dl) (of_Z A (Z.of_nat (sample_count dl)))) (of_Z A (Z.of_nat (sbatchsize cfg)))))] /\
    length ps = sbatchsize cfg /\ shape acc = sizes /\ Forall (fun p => shape (snd p) = sizes) ps /\
    forall i w v, elem acc i w = Some v ->
      exists gs, Forall2 (fun p g => elem (snd p) i w = Some g) ps gs /\ v = summed A gs.

(** The documented rule of gradient descent with momentum for one weight [x] whose last
    step was [s]: average the summed gradient [g] over the minibatch, add the
    regularization, scale with the layer's rate; the step is the learning rate times that
    plus momentum times the last step. *)
Definition sign_of {D} (A : arith D) (x : D) : Z :=
  if ltb A (zero A) x then 1%Z else if ltb A x (zero A) then (-1)%Z else 0%Z.
Definition descent_step {D} (A : arith D) (cfg : settings D) (dl : data_layer D) (llr : D) (xs : D * D) (update : D * D) : D * D :=
  let '(x, s) := xs in
  let '(lr, g) := update in
  let average := mul A (div A g (of_Z A (Z.of_nat (to_u32 (sample_count dl * sbatchsize cfg))))) (loss_probability dl) in
  let regularization := add A (mul A (l2_weight cfg) x) (mul A (l1_weight cfg) (of_Z A (sign_of A x))) in
  let step := add A (mul A lr (add A (mul A llr average) (mul A llr regularization))) (mul A (momentum cfg) s) in
  (sub A x step, step).

(** No number is both below and above another one. *)
Definition order_ok {D} (A : arith D) : Prop := forall x y, ltb A x y = true -> ltb A y x = false.

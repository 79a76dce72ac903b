(** Model of class Conv::DatasetInputLayer (src/net/DatasetInputLayer.cpp).

    Parameters: the random generator (its states, std::shuffle and the uniform
    distribution), the dataset.  OpenCL transfers and log output are not modelled.
    Numbers are unbounded. *)
From Verif Require Import Base Tensor_Model.

(** The values of [i] in [for (i = a; i < b; i += step)]; [fuel] bounds their number. *)
Fixpoint steps (fuel a b step : nat) : list nat :=
  match fuel with
  | O => []
  | S f => if a <? b then a :: steps f (a + step) b step else []
  end.

Section DatasetInput.
Variable D : Type.
Variable zero : D.
Variable gtb : D -> D -> bool.
Variable G : Type.
(** std::shuffle(perm_.begin(), perm_.end(), generator_). *)
Variable shuffle : G -> list nat -> list nat * G.
(** dist_(generator_). *)
Variable uniform : G -> D * G.

(** The four output tensors: data, label, helper, weight (localized error). *)
Record outputs : Type := mkOut { o_data : tensor D; o_label : tensor D; o_helper : tensor D; o_weight : tensor D }.

(** Dataset::GetTrainingSample and GetTestingSample: outputs, slot, index. *)
Variable training_sample : outputs -> nat -> nat -> res (outputs * bool).
Variable testing_sample : outputs -> nat -> nat -> res (outputs * bool).

(** Dataset::GetMethod() == FCN, and the fields of DatasetInputLayer.h:72-100. *)
Record layer : Type := mkLayer {
  fcn : bool;
  batch_size : nat;
  elements_training : nat;
  elements_testing : nat;
  loss_sampling_p : D;
  testing : bool;
  generator : G;
  perm : list nat;
  current_element : nat;
  current_element_testing : nat }.

(** DatasetInputLayer.cpp:25-60 and 237-240. *)
Definition new_layer (is_fcn : bool) (batch n_training n_testing : nat) (p : D) (seed : G) : layer :=
  let '(perm0, g) := shuffle seed (seq 0 n_training) in
  mkLayer is_fcn batch n_training n_testing p false g perm0 0 0.

(** DatasetInputLayer.cpp:242-255. *)
Definition set_testing_mode (l : layer) (t : bool) : layer :=
  mkLayer (fcn l) (batch_size l) (elements_training l) (elements_testing l) (loss_sampling_p l) t (generator l) (perm l)
    (current_element l) (if negb (Bool.eqb t (testing l)) && t then 0 else current_element_testing l).

(** DatasetInputLayer.cpp:150-176: the element to load and whether its weight is forced to zero. *)
Definition select (l : layer) : res (layer * nat * bool) :=
  if testing l then
    if elements_testing l <=? current_element_testing l then Ok (l, 0, true)
    else Ok (mkLayer (fcn l) (batch_size l) (elements_training l) (elements_testing l) (loss_sampling_p l) (testing l) (generator l) (perm l)
                     (current_element l) (S (current_element_testing l)), current_element_testing l, false)
  else
    e <- load (perm l) (current_element l) ;;
    let next := S (current_element l) in
    let '(perm', g', cur') := if length (perm l) <=? next then let '(p, g) := shuffle (generator l) (perm l) in (p, g, 0)
                              else (perm l, generator l, next) in
    Ok (mkLayer (fcn l) (batch_size l) (elements_training l) (elements_testing l) (loss_sampling_p l) (testing l) g' perm' cur'
                (current_element_testing l), e, false).

Definition with_generator (l : layer) (g : G) : layer :=
  mkLayer (fcn l) (batch_size l) (elements_training l) (elements_testing l) (loss_sampling_p l) (testing l) g (perm l)
    (current_element l) (current_element_testing l).

(** DatasetInputLayer.cpp:192. *)
Definition block_size : nat := 12.

(** DatasetInputLayer.cpp:197-201: the stores of one block. *)
Definition zero_block (w : tensor D) (sample x y : nat) : list (nat * res D) :=
  for_from y (Nat.min (y + block_size) (height w)) (fun iy =>
  for_from x (Nat.min (x + block_size) (width w)) (fun ix =>
    [(offset w ix iy 0 sample, Ok zero)])).

(** DatasetInputLayer.cpp:196-202: one block. *)
Definition sample_block (p : D) (sample y : nat) (st : tensor D * G) (x : nat) : res (tensor D * G) :=
  let '(w, g) := st in
  let '(u, g') := uniform g in
  if gtb u p then w' <- run_stores w (zero_block w sample x y) ;; Ok (w', g') else Ok (w, g').
(** DatasetInputLayer.cpp:191-205. *)
Definition loss_sampling (p : D) (sample : nat) (w : tensor D) (g : G) : res (tensor D * G) :=
  foldm (fun st y => foldm (sample_block p sample y) (steps (width w) 0 (width w) block_size) st)
        (steps (height w) 0 (height w) block_size) (w, g).

Definition with_weight (o : outputs) (w : tensor D) : outputs := mkOut (o_data o) (o_label o) (o_helper o) w.

(** What was loaded: slot, test sample or training sample, index, weight forced to zero. *)
Record draw : Type := mkDraw { d_slot : nat; d_testing : bool; d_element : nat; d_no_weight : bool }.

(** DatasetInputLayer.cpp:149-210: one slot of the batch. *)
Definition feed_slot (st : layer * outputs * list draw) (slot : nat) : res (layer * outputs * list draw) :=
  let '(l, o, ds) := st in
  r <- select l ;;
  let '(l1, element, force_no_weight) := r in
  r1 <- (if testing l1 then testing_sample o slot element else training_sample o slot element) ;;
  let '(o1, success) := r1 in
  if negb success then Fatal
  else
    r2 <- (if negb (testing l1) && negb force_no_weight && fcn l1
           then r <- loss_sampling (loss_sampling_p l1) slot (o_weight o1) (generator l1) ;;
                let '(w, g) := r in Ok (with_generator l1 g, with_weight o1 w)
           else Ok (l1, o1)) ;;
    let '(l2, o2) := r2 in
    o3 <- (if force_no_weight then w <- clear (o_weight o2) zero (Some slot) ;; Ok (with_weight o2 w) else Ok o2) ;;
    Ok (l2, o3, ds ++ [mkDraw slot (testing l1) element force_no_weight]).

(** DatasetInputLayer.cpp:142-211. *)
Definition feed_forward (st : layer * outputs * list draw) : res (layer * outputs * list draw) :=
  let '(l, o, ds) := st in foldm feed_slot (seq 0 (batch_size l)) (l, o, ds).

End DatasetInput.

Arguments mkOut {D}. Arguments o_data {D}. Arguments o_label {D}. Arguments o_helper {D}. Arguments o_weight {D}.
Arguments fcn {D G}. Arguments batch_size {D G}. Arguments elements_training {D G}. Arguments elements_testing {D G}.
Arguments loss_sampling_p {D G}. Arguments testing {D G}. Arguments generator {D G}. Arguments perm {D G}.
Arguments current_element {D G}. Arguments current_element_testing {D G}.
Arguments set_testing_mode {D G}. Arguments select {D G}. Arguments new_layer {D G}.
Arguments with_weight {D}. Arguments with_generator {D G}. Arguments mkLayer {D G}.
Arguments feed_slot {D} zero gtb {G}. Arguments feed_forward {D} zero gtb {G}. Arguments loss_sampling {D} zero gtb {G}.
Arguments zero_block {D}. Arguments sample_block {D} zero gtb {G}.

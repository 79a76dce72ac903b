(** C92: the order of the training samples does not depend on the batch size. *)
From Coq Require Import Permutation.
From Verif Require Import Base BaseFacts Tensor_Model Tensor_Spec DatasetInput_Model DatasetInput_Spec DatasetInput_Proofs DatasetInput_Props SampleOrder_Spec SampleOrder_Proofs.
Local Open Scope list_scope.

(** Two dataset input layers with the same seed and the same number of training samples, of images of the same size, but with batches of [b] and of [b']
    samples and whatever test sets, probabilities and tests between the batches: each shows [b] training samples in every batch it loads for training,
    and the training samples of the one that has shown fewer are the first of those of the other, in the same order. *)
Theorem C92_order {D G} zero gtb (shuffle : G -> list nat -> list nat * G) uniform train test train' test' is_fcn b b' n n_test n_test' p p' seed cs cs' (o o' : outputs D) :
  (forall g l, Permutation l (fst (shuffle g l))) -> 0 < n -> (In (SetTesting true) cs -> 0 < n_test) -> (In (SetTesting true) cs' -> 0 < n_test') ->
  shaped_like o o -> shaped_like o' o' -> b <= samples (o_weight o) -> b' <= samples (o_weight o') ->
  provides train o b n -> provides test o b n_test -> provides train' o' b' n -> provides test' o' b' n_test' ->
  (is_fcn = true -> width (o_weight o') = width (o_weight o) /\ height (o_weight o') = height (o_weight o)) ->
  exists l1 o1 ds l1' o1' ds',
    history zero gtb shuffle uniform train test cs (new_layer shuffle is_fcn b n n_test p seed, o, []) = Ok (l1, o1, ds) /\
    history zero gtb shuffle uniform train' test' cs' (new_layer shuffle is_fcn b' n n_test' p' seed, o', []) = Ok (l1', o1', ds') /\
    length (training_draws ds) = b * training_feeds false cs /\ length (training_draws ds') = b' * training_feeds false cs' /\
    (b * training_feeds false cs <= b' * training_feeds false cs' -> training_draws ds = firstn (b * training_feeds false cs) (training_draws ds')).
Proof.
  intros Hs Hn Hc Hc' So So' Le Le' P1 P2 P1' P2' Sz.
  set (K := if is_fcn then ceil_div (height (o_weight o)) 12 * ceil_div (width (o_weight o)) 12 else 0).
  assert (K' : K = if is_fcn then ceil_div (height (o_weight o')) 12 * ceil_div (width (o_weight o')) 12 else 0).
  { unfold K. destruct is_fcn; [|reflexivity]. destruct (Sz eq_refl) as [-> ->]. reflexivity. }
  destruct (new_core zero gtb shuffle uniform Hs K train test o b n_test n is_fcn Le P1 P2 eq_refl p seed o cs Hn Hc So) as (l1 & o1 & ds & E & Dr).
  destruct (new_core zero gtb shuffle uniform Hs K train' test' o' b' n_test' n is_fcn Le' P1' P2' K' p' seed o' cs' Hn Hc' So') as (l1' & o1' & ds' & E' & Dr').
  exists l1, o1, ds, l1', o1', ds'. split; [exact E|]. split; [exact E'|]. rewrite Dr, Dr', !drawn_length. split; [reflexivity|]. split; [reflexivity|].
  intros H. now apply drawn_prefix.
Qed.
Print Assumptions C92_order.

(** Batches of two with a test after four samples, and batches of one without tests: the same six training samples, in the same order. *)
Example C92_order_hypotheses :
  let cs := [Feed; Feed; SetTesting true; Feed; SetTesting false; Feed] in let cs' := repeat Feed 6 in
  0 < 3 /\ (In (SetTesting true) cs -> 0 < 1) /\ (In (SetTesting true) cs' -> 0 < 0) /\ shaped_like outs outs /\ 2 <= samples (o_weight outs) /\ 1 <= samples (o_weight outs) /\
  provides train outs 2 3 /\ provides test outs 2 1 /\ provides train outs 1 3 /\ provides test outs 1 0 /\
  2 * training_feeds false cs = 1 * training_feeds false cs' /\
  match history 0 (fun a b => b <? a) shuffle uniform train test cs (new_layer shuffle true 2 3 1 5 0, outs, []),
        history 0 (fun a b => b <? a) shuffle uniform train test cs' (new_layer shuffle true 1 3 0 4 0, outs, []) with
  | Ok (_, _, ds), Ok (_, _, ds') => training_draws ds = [2; 1; 0; 0; 1; 2] /\ training_draws ds' = training_draws ds
  | _, _ => False end.
Proof.
  assert (One : forall k n, provides (fun o slot i => w <- clear (o_weight o) (k + i) (Some slot) ;; Ok (with_weight o w, true)) outs 1 n).
  { intros k n o slot i H Hs Hi. apply (provides_ok k n); auto. }
  cbn zeta. split; [lia|]. split; [lia|]. split; [cbn; intuition discriminate|]. split; [exact outs_ok|]. split; [cbn; lia|]. split; [cbn; lia|].
  split; [apply provides_ok|]. split; [apply provides_ok|]. split; [apply One|]. split; [apply One|]. split; [reflexivity|]. vm_compute. auto.
Qed.

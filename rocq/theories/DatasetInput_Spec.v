(** Specification vocabulary for the dataset input layer. *)
From Coq Require Import Permutation.
From Verif Require Import Base Tensor_Model Tensor_Spec DatasetInput_Model.

(** Calls a user of the layer makes. *)
Inductive call : Type := SetTesting (t : bool) | Feed.

Section Spec.
Variable D : Type.
Variable zero : D.
Variable gtb : D -> D -> bool.
Variable G : Type.
Variable shuffle : G -> list nat -> list nat * G.
Variable uniform : G -> D * G.
Variable training_sample testing_sample : outputs D -> nat -> nat -> res (outputs D * bool).

Definition perform (st : layer D G * outputs D * list draw) (c : call) : res (layer D G * outputs D * list draw) :=
  match c with
  | SetTesting t => let '(l, o, ds) := st in Ok (set_testing_mode l t, o, ds)
  | Feed => feed_forward zero gtb shuffle uniform training_sample testing_sample st
  end.
Definition history (cs : list call) (st : layer D G * outputs D * list draw) := foldm perform cs st.

(** The k-th (from 0) random number after generator state [g], and the state before it. *)
Fixpoint advanced (k : nat) (g : G) : G := match k with O => g | S j => advanced j (snd (uniform g)) end.
Definition random (k : nat) (g : G) : D := fst (uniform (advanced k g)).

(** Weights [w'] are [w] with those of batch slot [slot] set to zero. *)
Definition slot_zeroed (w w' : tensor D) (slot : nat) : Prop :=
  wf w' /\ same_shape w' w /\
  forall x y m s, valid_pos w x y m s -> at_pos w' x y m s = if s =? slot then Some zero else at_pos w x y m s.
(** Weights [w'] are [w] with some of those of batch slot [slot] set to zero. *)
Definition slot_thinned (w w' : tensor D) (slot : nat) : Prop :=
  wf w' /\ same_shape w' w /\
  forall x y m s, valid_pos w x y m s ->
    at_pos w' x y m s = at_pos w x y m s \/ (s = slot /\ m = 0 /\ at_pos w' x y m s = Some zero).

(** [loads is_fcn o ds o']: the outputs [o'] arise from [o] by loading the samples [ds] one
    after the other, each into its slot.  Training samples of a fully convolutional dataset
    lose some weights, fillers lose all, nothing else changes what the dataset provided. *)
Inductive loads (is_fcn : bool) : outputs D -> list draw -> outputs D -> Prop :=
| loads_nil o : loads is_fcn o [] o
| loads_cons o d ds o1 w o3 :
    (if d_testing d then testing_sample o (d_slot d) (d_element d) else training_sample o (d_slot d) (d_element d)) = Ok (o1, true) ->
    (if d_no_weight d then slot_zeroed (o_weight o1) w (d_slot d)
     else if negb (d_testing d) && is_fcn then slot_thinned (o_weight o1) w (d_slot d)
     else w = o_weight o1) ->
    loads is_fcn (with_weight o1 w) ds o3 ->
    loads is_fcn o (d :: ds) o3.

(** All outputs are proper tensors of the shapes of [o0]. *)
Definition shaped_like (o0 o : outputs D) : Prop :=
  (wf (o_data o) /\ same_shape (o_data o) (o_data o0)) /\ (wf (o_label o) /\ same_shape (o_label o) (o_label o0)) /\
  (wf (o_helper o) /\ same_shape (o_helper o) (o_helper o0)) /\ (wf (o_weight o) /\ same_shape (o_weight o) (o_weight o0)).

(** Loading a sample into a slot leaves the weights of the other slots alone. *)
Definition weight_local (f : outputs D -> nat -> nat -> res (outputs D * bool)) (o0 : outputs D) : Prop :=
  forall o slot i o', shaped_like o0 o -> f o slot i = Ok (o', true) ->
    shaped_like o0 o' /\
    forall x y m s, valid_pos (o_weight o0) x y m s -> s <> slot -> at_pos (o_weight o') x y m s = at_pos (o_weight o) x y m s.

(** The dataset can provide [n] samples for [b] slots of outputs shaped like [o0]. *)
Definition provides (f : outputs D -> nat -> nat -> res (outputs D * bool)) (o0 : outputs D) (b n : nat) : Prop :=
  forall o slot i, shaped_like o0 o -> slot < b -> i < n -> exists o', f o slot i = Ok (o', true) /\ shaped_like o0 o'.
End Spec.

Arguments loads {D} zero training_sample testing_sample. Arguments history {D} zero gtb {G}. Arguments perform {D} zero gtb {G}.
Arguments advanced {D G}. Arguments random {D G}. Arguments slot_zeroed {D}. Arguments slot_thinned {D}.
Arguments shaped_like {D}. Arguments weight_local {D}. Arguments provides {D}.

(** The training samples among the draws, and the testing draws. *)
Definition training_draws (ds : list draw) : list nat := map d_element (filter (fun d => negb (d_testing d)) ds).
Definition testing_draws (ds : list draw) : list draw := filter d_testing ds.

(** The k-th group of n consecutive members of a list. *)
Definition group {A} (n k : nat) (l : list A) : list A := firstn n (skipn (k * n) l).

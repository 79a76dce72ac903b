(** What a test run must report, in terms of the test set and of the function the network computes. *)
From Verif Require Import Base Float32 Tensor_Model Tensor_Spec Num Trainer_Model DatasetInput_Model DatasetInput_Spec
  StatLayers_Model StatLayers_Spec Evaluate_Model.

(** A picture: the value at column, row and map. *)
Definition picture : Type := nat -> nat -> nat -> f32.
(** A sample of the test set as the network sees it: image, helper maps (positions), label, weights. *)
Record example : Type := mkExample { e_image : picture; e_helper : picture; e_label : picture; e_weight : picture }.
(** The same sample with no weight anywhere. *)
Definition unweighted (zero : f32) (e : example) : example := mkExample (e_image e) (e_helper e) (e_label e) (fun _ _ _ => zero).

(** Slot [s] of a batch tensor shows the picture; slot [s] of the batch holds the sample. *)
Definition slot_is (t : tensor f32) (s : nat) (p : picture) : Prop :=
  forall x y m, valid_pos t x y m s -> at_pos t x y m s = Some (p x y m).
Definition slot_holds (o : outputs f32) (s : nat) (e : example) : Prop :=
  slot_is (o_data o) s (e_image e) /\ slot_is (o_helper o) s (e_helper e) /\ slot_is (o_label o) s (e_label e) /\ slot_is (o_weight o) s (e_weight e).

(** The dataset delivers the [n] samples of [set]: each can be loaded into each of the [b] slots, and the other slots keep
    what they hold. *)
Definition delivers (f : outputs f32 -> nat -> nat -> res (outputs f32 * bool)) (o0 : outputs f32) (b n : nat) (set : nat -> example) : Prop :=
  forall o slot i, shaped_like o0 o -> slot < b -> i < n ->
    exists o', f o slot i = Ok (o', true) /\ shaped_like o0 o' /\ slot_holds o' slot (set i) /\
      forall s e, s <> slot -> slot_holds o s e -> slot_holds o' s e.

(** The network computes [f], from the image and the helper maps of each sample of the batch, whatever the other samples
    are. Its outputs have the shape of the labels. *)
Definition computes {D} (net : list (list (list D)) -> outputs f32 -> res (tensor f32 * list D)) (ps : list (list (list D)))
  (o0 : outputs f32) (f : picture -> picture -> picture) : Prop :=
  forall o, shaped_like o0 o -> exists out losses, net ps o = Ok (out, losses) /\ wf out /\ same_shape out (o_label o0) /\
    forall s e, slot_holds o s e -> slot_is out s (f (e_image e) (e_helper e)).

Section Pixels.
Context {W : Type} (wide : f32 -> W).
(** The pixels of one sample, [w] by [h] pixels, [c] classes: for each the class the network gives it, the class of the label and the
    weight. *)
Definition sample_pixels (w h c : nat) (f : picture -> picture -> picture) (e : example) (px : list (pixel W)) : Prop :=
  exists cls act,
    (forall x y, x < w -> y < h ->
       first_largest c (fun m => f (e_image e) (e_helper e) x y m) f32_lowest (cls x y) /\
       first_largest c (fun m => e_label e x y m) f32_lowest (act x y)) /\
    px = for_ h (fun y => for_ w (fun x => [(cls x y, act x y, wide (e_weight e x y 0))])).

(** Outputs for [b] samples of [c] classes with one weight per pixel. *)
Definition evaluable (o0 : outputs f32) (b c : nat) : Prop :=
  wf (o_label o0) /\ wf (o_weight o0) /\ 0 < maps (o_label o0) /\ maps (o_label o0) <= c /\ 0 < maps (o_weight o0) /\
  samples (o_label o0) = b /\ samples (o_weight o0) = b /\ width (o_weight o0) = width (o_label o0) /\ height (o_weight o0) = height (o_label o0).
End Pixels.

(** Ready for a test: training mode, the matrix is enabled and has seen nothing. *)
Definition ready {D W G} (K : num W) (o0 : outputs f32) (b n c : nat) (t : trainer D (res (bench W G))) : Prop :=
  exists l o ds m, world t = Ok (mkBench (l, o, ds) m) /\ shaped_like o0 o /\
    DatasetInput_Model.batch_size l = b /\ elements_testing l = n /\ testing l = false /\
    cm_classes m = c /\ cm_disabled m = false /\ counts K m [].

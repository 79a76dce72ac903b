(** When the samples of a batch do not influence each other. *)
From Verif Require Import Base Num Float32 Tensor_Model Tensor_Spec DatasetInput_Model Evaluate_Spec Graph_Model Backprop_Model BackpropLayers_Model.
Local Open Scope list_scope.

(** Tensors of one shape for [b] samples; [d] gives width, height and maps. *)
Definition at_batch (b : nat) (d : dims) : dims := mkDims b (d_width d) (d_height d) (d_maps d).
(** The elements of one sample, and those of sample [s] in a batch. *)
Definition sample_size (d : dims) : nat := d_maps d * d_height d * d_width d.
Definition sample_of {D} (d : dims) (s : nat) (l : list D) : list D := firstn (sample_size d) (skipn (s * sample_size d) l).

Section Alike.
Context {D : Type}.
(** Sample [s1] of a batch of [b1] is compared to sample [s2] of a batch of [b2]. *)
Variables b1 b2 s1 s2 : nat.
(** The two batches have the same sample in the two places; the other samples may be anything. *)
Definition alike (d : dims) (l1 l2 : list D) : Prop :=
  length l1 = size (at_batch b1 d) /\ length l2 = size (at_batch b2 d) /\ sample_of d s1 l1 = sample_of d s2 l2.
(** Several tensors; of those with [None] nothing is said. *)
Inductive all_alike : list (option dims) -> list (list D) -> list (list D) -> Prop :=
| alike_nil : all_alike [] [] []
| alike_cons d ds l1 l2 ls1 ls2 : match d with Some d => alike d l1 l2 | None => True end -> all_alike ds ls1 ls2 ->
    all_alike (d :: ds) (l1 :: ls1) (l2 :: ls2).

(** The same layer set up for batches of [b1] and of [b2], with the same parameters: from the same sample in the
    inputs follows the same sample in the outputs. *)
Definition samplewise (layer1 layer2 : behaviour D) (ps : list (list D)) (ins outs : list (option dims)) : Prop :=
  forall x1 x2, all_alike ins x1 x2 -> all_alike outs (b_outputs layer1 x1 ps) (b_outputs layer2 x2 ps).
End Alike.

(** The shapes of the inputs of each node are those of the outputs they are connected to. *)
Definition connected (g : graph) (takes makes : nat -> list (option dims)) : Prop :=
  forall n, In n (nodes g) ->
    Forall2 (fun c d => exists q, c_node c = Some q /\ nth_error (makes q) (c_buffer c) = Some d) (inputs_of (heap g) n) (takes n).

(** ** Networks that predict *)
(** The batch of one sample with this image and these helper maps, and without label and weight. *)
Definition paint (d : dims) (p : picture) : tensor f32 :=
  tensor_of (at_batch 1 d) (map (fun i => p (i mod d_width d) (i / d_width d mod d_height d) (i / (d_width d * d_height d))) (seq 0 (sample_size d))).
Definition single (dd dl dh dw : dims) (img hlp : picture) : outputs f32 :=
  mkOut (paint dd img) (paint dl (fun _ _ _ => f32_zero)) (paint dh hlp) (paint dw (fun _ _ _ => f32_zero)).
(** The first sample of what the network has put out. *)
Definition prediction (r : res (tensor f32 * list f32)) : picture :=
  fun x y m => match r with Ok (out, _) => match at_pos out x y m 0 with Some v => v | None => f32_zero end | _ => f32_zero end.
(** A tensor for [b] samples. *)
Definition sized (b : nat) (d : dims) (t : tensor f32) : Prop :=
  wf t /\ samples t = b /\ width t = d_width d /\ height t = d_height d /\ maps t = d_maps d.

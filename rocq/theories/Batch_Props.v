(** C82: the samples of a batch do not influence each other. *)
From Coq Require Import Relations String List.
From Verif Require Import Base BaseFacts Tensor_Model Tensor_Spec Tensor_Proofs Num Float32 FloatOps Math_Spec Act_Model Pool_Model LRN_Model ConvLayer_Model ConvLayer_Spec
  Graph_Model Graph_Spec Graph_Proofs Graph_Props DatasetInput_Model DatasetInput_Spec Evaluate_Spec Backprop_Model Backprop_Spec BackpropLayers_Model BackpropLayers_Spec
  BackpropLayers_Proofs Backprop_Proofs Batch_Model Batch_Spec Batch_Proofs.
Local Open Scope list_scope.
Local Open Scope nat_scope.

Section C82.
(** Any numbers: in particular floats, whose sums are not associative. *)
Context {D : Type} (K : num D).
(** A batch of [b1] with the sample in slot [s1], a batch of [b2] with the same sample in slot [s2]. *)
Variables b1 b2 s1 s2 : nat.
Hypotheses (Hs1 : s1 < b1) (Hs2 : s2 < b2).
Notation same_samples := (samplewise b1 b2 s1 s2).

(** ** The layers *)
Theorem C82_input (loaded1 loaded2 : list (list D)) ps outs : all_alike b1 b2 s1 s2 outs loaded1 loaded2 ->
  same_samples (input_behaviour K loaded1) (input_behaviour K loaded2) ps [] outs.
Proof. exact (input_alike b1 b2 s1 s2 K loaded1 loaded2 ps outs). Qed.

(** Whatever is computed from each element on its own: logistic function, hyperbolic tangent, rectifier. *)
Theorem C82_activation fwd bp1 bp2 d old1 old2 od1 od2 ps : 0 < sample_size d -> length old1 = size (at_batch b1 d) -> length old2 = size (at_batch b2 d) ->
  same_samples (activation_behaviour K (at_batch b1 d) (act_ff fwd) bp1 old1 od1) (activation_behaviour K (at_batch b2 d) (act_ff fwd) bp2 old2 od2) ps [Some d] [Some d].
Proof. exact (act_alike b1 b2 s1 s2 Hs1 Hs2 K fwd bp1 bp2 d old1 old2 od1 od2 ps). Qed.

Theorem C82_sum d old1 old2 a1 a2 c1 c2 ps : 0 < sample_size d -> length old1 = size (at_batch b1 d) -> length old2 = size (at_batch b2 d) ->
  same_samples (sum_behaviour K (at_batch b1 d) old1 a1 c1) (sum_behaviour K (at_batch b2 d) old2 a2 c2) ps [Some d; Some d] [Some d].
Proof. exact (sum_alike b1 b2 s1 s2 Hs1 Hs2 K d old1 old2 a1 a2 c1 c2 ps). Qed.

Theorem C82_concatenation da db old1 old2 a1 a2 c1 c2 ps : 0 < sample_size da -> 0 < sample_size db -> d_width da = d_width db -> d_height da = d_height db ->
  length old1 = size (at_batch b1 (concat_dims da db)) -> length old2 = size (at_batch b2 (concat_dims da db)) ->
  same_samples (concat_behaviour K (at_batch b1 da) (at_batch b1 db) old1 a1 c1) (concat_behaviour K (at_batch b2 da) (at_batch b2 db) old2 a2 c2) ps
    [Some da; Some db] [Some (concat_dims da db)].
Proof. exact (concat_alike b1 b2 s1 s2 Hs1 Hs2 K da db old1 old2 a1 a2 c1 c2 ps). Qed.

Theorem C82_border bx by_ d old1 old2 od1 od2 ps : 0 < sample_size d ->
  length old1 = size (at_batch b1 (border_dims bx by_ d)) -> length old2 = size (at_batch b2 (border_dims bx by_ d)) ->
  same_samples (border_behaviour K bx by_ (at_batch b1 d) old1 od1) (border_behaviour K bx by_ (at_batch b2 d) old2 od2) ps [Some d] [Some (border_dims bx by_ d)].
Proof. exact (border_alike b1 b2 s1 s2 Hs1 Hs2 K bx by_ d old1 old2 od1 od2 ps). Qed.

Theorem C82_prior ratio d old1 old2 od1 od2 ps : 0 < sample_size d ->
  length old1 = size (at_batch b1 (prior_dims d)) -> length old2 = size (at_batch b2 (prior_dims d)) ->
  same_samples (prior_behaviour K ratio (at_batch b1 d) old1 od1) (prior_behaviour K ratio (at_batch b2 d) old2 od2) ps [Some d] [Some (prior_dims d)].
Proof. exact (prior_alike b1 b2 s1 s2 Hs1 Hs2 K ratio d old1 old2 od1 od2 ps). Qed.

Theorem C82_upscale rw rh d old1 old2 od1 od2 ps : 0 < rw -> 0 < rh -> 0 < sample_size d ->
  length old1 = size (at_batch b1 (upscale_dims rw rh d)) -> length old2 = size (at_batch b2 (upscale_dims rw rh d)) ->
  same_samples (upscale_behaviour K rw rh (at_batch b1 d) old1 od1) (upscale_behaviour K rw rh (at_batch b2 d) old2 od2) ps [Some d] [Some (upscale_dims rw rh d)].
Proof. exact (upscale_alike b1 b2 s1 s2 Hs1 Hs2 K rw rh d old1 old2 od1 od2 ps). Qed.

Theorem C82_pooling (O : order D) rw rh d ix1 ix2 iy1 iy2 old1 old2 od1 od2 ps :
  0 < rw -> 0 < rh -> d_width d mod rw = 0 -> d_height d mod rh = 0 -> 0 < sample_size d ->
  let o := pool_dims rw rh d in
  length ix1 = size (at_batch b1 o) -> length iy1 = size (at_batch b1 o) -> length old1 = size (at_batch b1 o) ->
  length ix2 = size (at_batch b2 o) -> length iy2 = size (at_batch b2 o) -> length old2 = size (at_batch b2 o) ->
  same_samples (pool_behaviour K O rw rh (at_batch b1 d) ix1 iy1 old1 od1) (pool_behaviour K O rw rh (at_batch b2 d) ix2 iy2 old2 od2) ps [Some d] [Some o].
Proof. exact (pool_alike b1 b2 s1 s2 Hs1 Hs2 K O rw rh d ix1 ix2 iy1 iy2 old1 old2 od1 od2 ps). Qed.

Theorem C82_strided_pooling (O : order D) rw rh sw sh d o mask1 mask2 old1 old2 od1 od2 ps : 0 < sw -> 0 < sh ->
  o = mkDims (d_samples d) (positions (d_width d) rw sw) (positions (d_height d) rh sh) (d_maps d) -> 0 < sample_size d -> 0 < sample_size o ->
  length mask1 = size (at_batch b1 o) -> length old1 = size (at_batch b1 o) -> length mask2 = size (at_batch b2 o) -> length old2 = size (at_batch b2 o) ->
  same_samples (strided_behaviour K O rw rh sw sh (at_batch b1 d) (at_batch b1 o) mask1 old1 od1)
    (strided_behaviour K O rw rh sw sh (at_batch b2 d) (at_batch b2 o) mask2 old2 od2) ps [Some d] [Some o].
Proof. exact (strided_alike b1 b2 s1 s2 Hs1 Hs2 K O rw rh sw sh d o mask1 mask2 old1 old2 od1 od2 ps). Qed.

(** Square images (of others the layer leaves a part unwritten, C57). *)
Theorem C82_normalization ndiv two scale power power1 beta method n d sums1 sums2 old1 old2 od1 od2 ps : 0 < n -> d_width d = d_height d -> 0 < sample_size d ->
  length sums1 = size (at_batch b1 d) -> length old1 = size (at_batch b1 d) -> length sums2 = size (at_batch b2 d) -> length old2 = size (at_batch b2 d) ->
  same_samples (normalization_behaviour K ndiv two scale power power1 beta method n (at_batch b1 d) sums1 old1 od1)
    (normalization_behaviour K ndiv two scale power power1 beta method n (at_batch b2 d) sums2 old2 od2) ps [Some d] [Some d].
Proof. exact (lrn_alike b1 b2 s1 s2 Hs1 Hs2 K ndiv two scale power power1 beta method n d sums1 sums2 old1 old2 od1 od2 ps). Qed.

(** A convolution connected for [b] samples, and its output for one sample. *)
Definition convolves (c : conv) (d o : dims) (b : nat) (st : @conv_state D) (old : list D) : Prop :=
  (exists wt bb, conv_ready K c st (d_width d) (d_height d) (d_maps d) b wt bb) /\
  o = mkDims 1 (cs_ow st) (cs_oh st) (cv_omaps c) /\ length old = size (at_batch b o).
(** Its parameters. *)
Definition parameters (c : conv) (d : dims) (ps : list (list D)) : Prop :=
  length (nth 0 ps []) = size (weights_dims c d) /\ length (nth 1 ps []) = size (bias_dims c) /\ 0 < size (weights_dims c d) /\ 0 < cv_omaps c.

(** Without dropout, and with dropout in testing mode. *)
Theorem C82_convolution c d o st1 st2 old1 old2 od1 od2 ps : nzerob K (n0 K) = true -> nzerob K (n1 K) = false ->
  0 < sample_size d -> 0 < sample_size o -> convolves c d o b1 st1 old1 -> convolves c d o b2 st2 old2 -> parameters c d ps ->
  same_samples (conv_behaviour K c (at_batch b1 d) st1 old1 od1) (conv_behaviour K c (at_batch b2 d) st2 old2 od2) ps [Some d] [Some o].
Proof.
  intros Z0 Z1 P P' ((wt1 & bb1 & R1) & E1 & O1) ((wt2 & bb2 & R2) & E2 & O2) (L1 & L2 & Pw & Po) x1 x2 H.
  apply alike_one in H as (l1 & l2 & -> & -> & H). apply alike_single. rewrite E1 in *.
  exact (conv_alike b1 b2 s1 s2 Hs1 Hs2 K c false (n0 K) d st1 st2 wt1 wt2 bb1 bb2 old1 old2 l1 l2 ps Z0 Z1 Z0 P R1 R2 L1 L2 Pw Po P' O1 O2 H).
Qed.
Theorem C82_testing_convolution c dropout d o st1 st2 old1 old2 ps : nzerob K (n0 K) = true -> nzerob K (n1 K) = false ->
  0 < sample_size d -> 0 < sample_size o -> convolves c d o b1 st1 old1 -> convolves c d o b2 st2 old2 -> parameters c d ps ->
  same_samples (testing_conv_behaviour K c dropout (at_batch b1 d) st1 old1) (testing_conv_behaviour K c dropout (at_batch b2 d) st2 old2) ps [Some d] [Some o].
Proof.
  intros Z0 Z1 P P' ((wt1 & bb1 & R1) & E1 & O1) ((wt2 & bb2 & R2) & E2 & O2) (L1 & L2 & Pw & Po) x1 x2 H.
  apply alike_one in H as (l1 & l2 & -> & -> & H). apply alike_single. rewrite E1 in *.
  exact (conv_alike b1 b2 s1 s2 Hs1 Hs2 K c true dropout d st1 st2 wt1 wt2 bb1 bb2 old1 old2 l1 l2 ps Z0 Z1 Z0 P R1 R2 L1 L2 Pw Po P' O1 O2 H).
Qed.

(** Accumulation nodes hand their input on. *)
Theorem C82_accumulation n samples1 samples2 eps1 eps2 old1 old2 d ps :
  same_samples (accumulation_behaviour K n samples1 eps1 old1) (accumulation_behaviour K n samples2 eps2 old2) ps [Some d] (repeat (Some d) n).
Proof. exact (acc_alike b1 b2 s1 s2 K n samples1 samples2 eps1 eps2 old1 old2 d ps). Qed.

(** ** The network *)
(** If every layer treats its samples alike, then so does the network: whatever the batch sizes, the slots, the other samples and what
    was in memory, the sample has the same outputs at every node. *)
Theorem C82_network g (layer1 layer2 : nat -> behaviour D) params takes makes fuel ff1 ff2 m1 m2 :
  sound g -> acyclic (reads (heap g)) (nodes g) -> length (nodes g) < fuel -> connected g takes makes ->
  (forall n, In n (nodes g) -> same_samples (layer1 n) (layer2 n) (params n) (takes n) (makes n)) ->
  exists f1 r1 f2 r2, feed_forward_memory layer1 params fuel g ff1 m1 = Ok (f1, r1) /\ feed_forward_memory layer2 params fuel g ff2 m2 = Ok (f2, r2) /\
    forall n b d, In n (nodes g) -> nth_error (makes n) b = Some (Some d) -> alike b1 b2 s1 s2 d (m_data r1 n b) (m_data r2 n b).
Proof.
  intros S Ac Hf Hc Hs. unfold feed_forward_memory.
  destruct (order_of g fuel ff1 S Ac Hf) as (fl1 & l1 & E1 & O1 & N1). destruct (order_of g fuel ff2 S Ac Hf) as (fl2 & l2 & E2 & O2 & N2).
  rewrite E1, E2. cbn [bind fst snd]. eexists _, _, _, _. split; [reflexivity|]. split; [reflexivity|]. intros n b d Hn E.
  apply (network_alike b1 b2 s1 s2 Hs1 Hs2 g layer1 layer2 params takes makes l1 l2 m1 m2 O1 O2); auto; [|now apply N1].
  intros k Hk. apply N1 in Hk. split; [exact Hk|now apply N2].
Qed.
End C82.
Print Assumptions C82_input.
Print Assumptions C82_activation.
Print Assumptions C82_sum.
Print Assumptions C82_concatenation.
Print Assumptions C82_border.
Print Assumptions C82_prior.
Print Assumptions C82_upscale.
Print Assumptions C82_pooling.
Print Assumptions C82_strided_pooling.
Print Assumptions C82_normalization.
Print Assumptions C82_convolution.
Print Assumptions C82_testing_convolution.
Print Assumptions C82_accumulation.
Print Assumptions C82_network.

(** ** Prediction *)
Section Prediction.
Variables (K : num f32) (g : graph) (fuel input out buffer : nat) (flagged1 flagged : list nat) (m1 m : memory f32).
Variable params_of : list (list (list f32)) -> nat -> list (list f32).
(** The layers set up for one sample and for a batch of [b]; shapes of image, label (and output), helper and weights. *)
Variables (layer1 layer : nat -> behaviour f32) (b : nat) (dd od dh dw : dims) (takes makes : nat -> list (option dims)).
Notation network1 := (graph_net K g fuel flagged1 m1 input layer1 params_of out buffer (at_batch 1 od)).
Notation network := (graph_net K g fuel flagged m input layer params_of out buffer (at_batch b od)).

(** A network of such layers, of which none that puts anything out reads labels or weights, computes for every sample of every batch what it
    computes for the sample alone.  This is what [C81_statistics] and [C81_rates] assume of the network. *)
Theorem C82_computes ps o0 :
  sound g -> acyclic (reads (heap g)) (nodes g) -> length (nodes g) < fuel -> connected g takes makes ->
  In input (nodes g) -> makes input = [Some dd; None; Some dh; None] -> In out (nodes g) -> nth_error (makes out) buffer = Some (Some od) ->
  (forall n s, In n (nodes g) -> n <> input -> s < b -> samplewise b 1 s 0 (layer n) (layer1 n) (params_of ps n) (takes n) (makes n)) ->
  0 < b -> 0 < sample_size dd -> 0 < sample_size dh -> 0 < sample_size od ->
  sized b dd (o_data o0) -> sized b od (o_label o0) -> sized b dh (o_helper o0) ->
  computes network ps o0 (fun img hlp => prediction (network1 ps (single dd od dh dw img hlp))).
Proof.
  intros S Ac Hf Hc Hi Mi Ho Eo Hs Pb Pd Ph Po Sd Sl Sh o ((W1 & X1) & _ & (W3 & X3) & _).
  assert (Sd' : sized b dd (o_data o)) by (destruct Sd as (_ & ? & ? & ? & ?), X1 as (? & ? & ? & ?); split; [exact W1|]; repeat split; congruence).
  assert (Sh' : sized b dh (o_helper o)) by (destruct Sh as (_ & ? & ? & ? & ?), X3 as (? & ? & ? & ?); split; [exact W3|]; repeat split; congruence).
  set (ly := fun n => if n =? input then input_behaviour K (map elements_of [o_data o; o_label o; o_helper o; o_weight o]) else layer n).
  assert (Key : forall s img hlp, s < b -> slot_is (o_data o) s img -> slot_is (o_helper o) s hlp ->
    exists f r r1 ls, feed_forward_memory ly (params_of ps) fuel g flagged m = Ok (f, r) /\
      network1 ps (single dd od dh dw img hlp) = Ok (tensor_of (at_batch 1 od) (m_data r1 out buffer), ls) /\
      alike b 1 s 0 od (m_data r out buffer) (m_data r1 out buffer)).
  { intros s img hlp Hsb Id Ih.
    set (ly1 := fun n => if n =? input then input_behaviour K (map elements_of [o_data (single dd od dh dw img hlp); o_label (single dd od dh dw img hlp); o_helper (single dd od dh dw img hlp); o_weight (single dd od dh dw img hlp)]) else layer1 n).
    destruct (C82_network b 1 s 0 Hsb Nat.lt_0_1 g ly ly1 (params_of ps) takes makes fuel flagged flagged1 m m1 S Ac Hf Hc) as (f & r & f1 & r1 & E & E1 & A).
    { intros n Hn. unfold ly, ly1. destruct (Nat.eqb_spec n input) as [->|Ne]; [|now apply Hs]. intros x1 x2 _. rewrite Mi. cbn [input_behaviour b_outputs map single o_data o_label o_helper o_weight].
      constructor; [now apply paint_alike|]. constructor; [exact I|]. constructor; [now apply paint_alike|]. constructor; [exact I|constructor]. }
    exists f, r, r1. eexists. split; [exact E|]. split; [|now apply A]. unfold graph_net. fold ly1. rewrite E1. cbn [bind snd]. reflexivity. }
  destruct (Key 0 (fun x y mm => match at_pos (o_data o) x y mm 0 with Some v => v | None => f32_zero end) (fun x y mm => match at_pos (o_helper o) x y mm 0 with Some v => v | None => f32_zero end) Pb)
    as (f & r & r1 & ls & E & _ & (L & _)).
  { intros x y mm V. destruct (Math_Proofs.contents_exists 0%Z (o_data o) W1) as (h & C). assert (E : at_pos (o_data o) x y mm 0 = Some (h x y mm 0)) by exact (C x y mm 0 V). now rewrite E. }
  { intros x y mm V. destruct (Math_Proofs.contents_exists 0%Z (o_helper o) W3) as (h & C). assert (E : at_pos (o_helper o) x y mm 0 = Some (h x y mm 0)) by exact (C x y mm 0 V). now rewrite E. }
  eexists _, _. split; [unfold graph_net; fold ly; rewrite E; cbn [bind snd]; reflexivity|].
  split; [apply wf_of; [exact L|rewrite size_batch; nia]|]. split; [destruct Sl as (_ & ? & ? & ? & ?); repeat split; cbn; congruence|].
  intros s e (Id & Ih & _) x y mm V. assert (Hs' : s < b) by apply V.
  destruct (Key s (e_image e) (e_helper e) Hs' Id Ih) as (f' & r' & r1' & ls' & E' & E1 & A). assert (r' = r) by congruence. subst r'.
  pose proof A as (_ & L1 & _). rewrite (contents_val f32_zero (at_batch b od) _ L x y mm s V). f_equal. unfold prediction. rewrite E1.
  assert (V1 : valid_pos (tensor_of (at_batch 1 od) (m_data r1' out buffer)) x y mm 0) by (destruct V as (V1 & V2 & V3 & _); cbn in V1, V2, V3; unfold valid_pos; cbn; lia).
  rewrite (contents_val f32_zero (at_batch 1 od) _ L1 x y mm 0 V1). apply (val_alike b 1 s 0 Hs' Nat.lt_0_1 f32_zero od); exact A.
Qed.
End Prediction.
Print Assumptions C82_computes.

(** ** A network that meets the hypotheses *)
(** Convolution with dropout in testing mode, rectifier, concatenation with the helper maps, a loss and a statistics layer; floats; two samples of 3 by 2
    pixels. *)
Definition ex_heap : list node :=
  let kind := mkKind false false false false in
  [ mkNode (Some (mkKind false false true false)) [] [] 4 ""%string false true;
    mkNode (Some kind) [mkConn (Some 0) 0 true] [] 1 ""%string false false;
    mkNode (Some kind) [mkConn (Some 1) 0 true] [] 1 ""%string false false;
    mkNode (Some kind) [mkConn (Some 2) 0 true; mkConn (Some 0) 2 true] [] 1 ""%string true false;
    mkNode (Some (mkKind false true false false)) [mkConn (Some 3) 0 true; mkConn (Some 0) 1 true; mkConn (Some 0) 3 true] [] 0 ""%string false false;
    mkNode (Some (mkKind true false false false)) [mkConn (Some 3) 0 false; mkConn (Some 0) 1 false; mkConn (Some 0) 3 false] [] 0 ""%string false false ].
Definition ex_history : list nat := [0; 1; 2; 3; 4; 5].
Definition ex_g : graph := graph_of (add_nodes (new_graph ex_heap) (map Some ex_history)).
Definition ex_conv : conv := mkConv 1 1 2 1 1 0 0 1.
Definition ex_dims (maps : nat) : dims := mkDims 1 3 2 maps.
Definition ex_layer (b : nat) (st : @conv_state f32) (n : nat) : behaviour f32 :=
  let z m := repeat f32_zero (size (at_batch b (ex_dims m))) in
  match n with
  | 1 => testing_conv_behaviour f32_num ex_conv f32_one (at_batch b (ex_dims 1)) st (z 2)
  | 2 => rectifier_layer f32_num (fun v => fgt v f32_zero) (at_batch b (ex_dims 2)) (z 2) (z 2)
  | 3 => concat_behaviour f32_num (at_batch b (ex_dims 2)) (at_batch b (ex_dims 2)) (z 4) (z 2) (z 2)
  | 4 => error_behaviour f32_num fdiv f32_one (at_batch b (ex_dims 4)) f32_one (z 4)
  | _ => observer_behaviour f32_num
  end.
Definition ex_takes (n : nat) : list (option dims) :=
  match n with 1 => [Some (ex_dims 1)] | 2 => [Some (ex_dims 2)] | 3 => [Some (ex_dims 2); Some (ex_dims 2)] | 4 | 5 => [Some (ex_dims 4); None; None] | _ => [] end.
Definition ex_makes (n : nat) : list (option dims) :=
  match n with 0 => [Some (ex_dims 1); None; Some (ex_dims 2); None] | 1 | 2 => [Some (ex_dims 2)] | 3 => [Some (ex_dims 4)] | _ => [] end.
Definition ex_params (ps : list (list (list f32))) (n : nat) : list (list f32) := match n with 1 => nth 0 ps [] | _ => [] end.
Definition ex_batch : outputs f32 :=
  let t m := tensor_of (at_batch 2 (ex_dims m)) (repeat f32_zero (size (at_batch 2 (ex_dims m)))) in mkOut (t 1) (t 4) (t 2) (t 1).
Definition ex_memory : memory f32 := mkMemory (fun _ _ => []) (fun _ _ => []) (fun _ => []).

Example C82_hypotheses : exists st1 st, forall w1 w2 bias1 bias2,
  let ps := [[[w1; w2]; [bias1; bias2]]] in
  computes (graph_net f32_num ex_g 7 [] ex_memory 0 (ex_layer 2 st) ex_params 3 0 (at_batch 2 (ex_dims 4))) ps ex_batch
    (fun img hlp => prediction (graph_net f32_num ex_g 7 [] ex_memory 0 (ex_layer 1 st1) ex_params 3 0 (at_batch 1 (ex_dims 4)) ps
       (single (ex_dims 1) (ex_dims 4) (ex_dims 2) (ex_dims 1) img hlp))).
Proof.
  destruct (Conv_Props.C35_connected f32_num (fun _ => f32_zero) ex_conv 3 2 1 1) as (st1 & _ & Rd1 & _); [reflexivity|cbn; lia..|reflexivity|].
  destruct (Conv_Props.C35_connected f32_num (fun _ => f32_zero) ex_conv 3 2 1 2) as (st & _ & Rd & _); [reflexivity|cbn; lia..|reflexivity|].
  exists st1, st. intros w1 w2 bias1 bias2 ps.
  assert (Hnodes : forall n, In n ex_history -> n = 0 \/ n = 1 \/ n = 2 \/ n = 3 \/ n = 4 \/ n = 5) by (intros n Hn; cbn in Hn; intuition lia).
  destruct (C21_built ex_heap ex_history) as (g' & Eg & En & Sg & Ag).
  { repeat constructor; cbn; intuition lia. }
  { intros n Hn. cbn in Hn. decompose [or] Hn; subst; try contradiction; (eexists; split; [reflexivity|]); cbn [n_inputs In];
      intros c Hc; decompose [or] Hc; subst; try contradiction; eexists; (split; [reflexivity|]); cbn; auto 10. }
  { intros n nd Hn E. cbn in Hn. decompose [or] Hn; subst; try contradiction; injection E as <-; discriminate. }
  { intros n nd E. do 6 (destruct n as [|n]; [injection E as <-; reflexivity|]). destruct n; discriminate. }
  assert (Eg' : ex_g = g') by (unfold ex_g; rewrite Eg; reflexivity). rewrite <- Eg' in *. clear Eg' Eg.
  assert (Ac : acyclic (reads (heap ex_g)) (nodes ex_g)).
  { rewrite En. apply Ag. assert (L : forall x y, reads ex_heap x y -> y < x).
    { intros x y (nd & c & E & Hc & Ec). do 6 (destruct x as [|x]; [injection E as <-; cbn in Hc; decompose [or] Hc; subst; try contradiction;
        injection Ec as <-; lia|]). destruct x; discriminate. }
    intros n _ Hc. assert (T : forall a b, clos_trans nat (reads ex_heap) a b -> b < a) by (intros a b H; induction H; [auto|lia]).
    specialize (T n n Hc). lia. }
  assert (Hin : forall n, In n (nodes ex_g) -> In n ex_history) by (intros n; now rewrite En).
  apply (C82_computes f32_num ex_g 7 0 3 0 [] [] ex_memory ex_memory ex_params (ex_layer 1 st1) (ex_layer 2 st) 2 (ex_dims 1) (ex_dims 4) (ex_dims 2) (ex_dims 1) ex_takes ex_makes).
  - exact Sg.
  - exact Ac.
  - rewrite En. cbn. lia.
  - intros n Hn. apply Hin, Hnodes in Hn. decompose [or] Hn; subst; vm_compute inputs_of; cbn [ex_takes]; repeat constructor; cbn [c_node c_buffer]; (eexists; split; reflexivity).
  - rewrite En. cbn. auto.
  - reflexivity.
  - rewrite En. cbn. auto 10.
  - reflexivity.
  - intros n s Hn Ne Hs. apply Hin, Hnodes in Hn. decompose [or] Hn; subst; cbn [ex_layer ex_takes ex_makes ex_params]; try congruence.
    + apply C82_testing_convolution; try (cbn; lia); try reflexivity.
      * split; [eauto|]. rewrite (cr_ow _ _ _ _ _ _ _ _ _ Rd), (cr_oh _ _ _ _ _ _ _ _ _ Rd). split; reflexivity.
      * split; [eauto|]. rewrite (cr_ow _ _ _ _ _ _ _ _ _ Rd1), (cr_oh _ _ _ _ _ _ _ _ _ Rd1). split; reflexivity.
      * repeat split; cbn; lia.
    + apply C82_activation; try (cbn; lia); reflexivity.
    + apply (C82_concatenation f32_num 2 1 s 0 Hs Nat.lt_0_1 (ex_dims 2) (ex_dims 2)); try (cbn; lia); reflexivity.
    + intros x1 x2 _. constructor.
    + intros x1 x2 _. constructor.
  - lia.
  - cbn; lia.
  - cbn; lia.
  - cbn; lia.
  - repeat split; cbn; lia.
  - repeat split; cbn; lia.
  - repeat split; cbn; lia.
Qed.

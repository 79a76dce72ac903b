(** C94: what a test of a configured network with one class reports depends on nothing but the configuration, the parameters and the test set. *)
From Coq Require Import Ascii String List.
From Verif Require Import Base BaseFacts LoopFacts Tensor_Model Tensor_Spec Tensor_Proofs Num Float32 FloatOps FloatOps_Flocq Pool_Model LRN_Model ConvLayer_Model ConvLayer_Spec
  Schedule_Model Trainer_Model Trainer_Props DatasetInput_Model DatasetInput_Spec StatLayers_Model StatLayers_Spec Evaluate_Spec Evaluate_Props
  EvaluateBinary_Model EvaluateBinary_Spec EvaluateBinary_Proofs EvaluateBinary_Props
  Backprop_Model BackpropLayers_Model Batch_Model Batch_Spec Batch_Proofs Batch_Props
  Str_Model Config_Model Graph_Model Graph_Spec Graph_Props Receptive_Model Factory_Model Factory_Spec FactoryRun_Proofs FactoryLines_Proofs Factory_Props Dataset_Model Dataset_Spec
  ConfigNet_Model ConfigNet_Spec ConfigNet_Proofs ConfigNet_Props Reload_Spec Reload_Proofs Reload_Props Report_Props.
Local Open Scope string_scope.
Local Open Scope list_scope.
Local Open Scope nat_scope.

Section Report.
Variables (read_datum : str -> f32) (d0 d1 : f32) (rand : nat -> Z) (cfg : geo) (data : connection) (classes : Z) (add_loss_layer : bool).
Variables (O : order f32) (ndiv : f32 -> f32 -> f32) (nexp : f32 -> f32) (two : f32) (positive : f32 -> bool) (fraction : nat -> nat -> f32)
  (scale_alpha : f32 -> nat -> f32) (power power1 : f32 -> f32 -> f32).
Notation configured := (configured read_datum d0 d1 rand cfg data classes add_loss_layer).
Notation session := (session O ndiv nexp two positive fraction scale_alpha power power1).

(** For the network of a configuration with its parameters there is one list of pixels of the test set, with what the network says about them, and every
    test, with any batch size, in any process, with anything in memory, reports the numbers of these pixels at the best threshold (or, if there is none,
    reads outside of its arrays). *)
Theorem C94_configured : forall text st g input shape out fuel params_of ps b0 layer0,
  configured text st g input shape out -> length (nodes g) < fuel -> session st g shape params_of b0 ps layer0 ->
  forall (set : nat -> example) n ths, 0 < n -> weighted (d_width (shape out 0)) (d_height (shape out 0)) n set ->
  exists f,
  (forall b layer flagged m o0, session st g shape params_of b ps layer -> 0 < b ->
    sized b (shape input 0) (o_data o0) -> sized b (shape out 0) (o_label o0) -> sized b (shape input 2) (o_helper o0) ->
    computes (graph_net f32_num g fuel flagged m input layer params_of out 0 (at_batch b (shape out 0))) ps o0 f) /\
  let pixels := all_elements (d_width (shape out 0)) (d_height (shape out 0)) n set f in
  forall G b layer flagged m (A : arith f32) gtb (shuffle : G -> list nat -> list nat * G) uniform training_sample testing_sample scaling ts dl
    (t : trainer f32 (res (detector G))) es o0,
  session st g shape params_of b ps layer ->
  sized b (shape input 0) (o_data o0) -> sized b (shape out 0) (o_label o0) -> sized b (shape input 2) (o_helper o0) ->
  map snd (layers t) = ps -> Evaluate_Spec.delivers testing_sample o0 b n set -> detectable o0 b -> EvaluateBinary_Spec.ready o0 b n ths t ->
  Trainer_Model.batch_size dl = b -> testing_samples dl = n -> b <> 0 -> n <= scaling (n / b + 1) (testing_ratio ts) * b ->
  let command := detector_command A f32_zero gtb shuffle uniform training_sample testing_sample
      (graph_net f32_num g fuel flagged m input layer params_of out 0 (at_batch b (shape out 0))) scaling ts dl t es in
  (exists k th t' es', EvaluateBinary_Spec.best ths pixels k th /\ command = Ok (report_at th pixels, t', es') /\ EvaluateBinary_Spec.ready o0 b n ths t' /\ layers t' = layers t) \/
  ((forall th, In th ths -> ~ EvaluateBinary_Spec.usable pixels th) /\ command = UB).
Proof.
  intros text st g input shape out fuel params_of ps b0 layer0 Hc Hf Run0 set n ths Hn Hw.
  destruct (C91_function read_datum d0 d1 rand cfg data classes add_loss_layer O ndiv nexp two positive fraction scale_alpha power power1
    text st g input shape out fuel params_of ps b0 layer0 Hc Hf Run0) as (f & F).
  exists f. split; [exact F|]. intros pixels G b layer flagged m A gtb shuffle uniform training_sample testing_sample scaling ts dl t es o0 Run Sd Sl Sh Ep Hs Ho Hr Eb En Nb L command.
  assert (Cm := F b layer flagged m o0 Run (proj1 (Nat.neq_0_lt_0 b) Nb) Sd Sl Sh). rewrite <- Ep in Cm. destruct Sl as (_ & _ & E1 & E2 & _).
  unfold command, pixels. rewrite <- E1, <- E2 in *.
  exact (C94_report A gtb shuffle uniform training_sample testing_sample _ scaling ts dl t es o0 b n ths set f Hs Hn Ho Cm Hr Hw Eb En Nb L).
Qed.
End Report.
Print Assumptions C94_configured.

(** ** A test that meets the hypotheses *)
(** A network with one class: two 1 by 1 convolutions, each followed by a hyperbolic tangent, on images of 4 by 4 pixels; any weights; two test images in a batch. *)
Definition c94_text : str := concat (map (fun l => s_ l ++ ["010"%char]) ["?convolutional size=1x1 kernels=2"; "?tanh"; "?fullyconnected neurons=(o)"; "?output"]).
Definition c94_cfg : geo := mkGeo (mkAxis 0 1) (mkAxis 0 1) false false.
Definition c94_read := @read_config_line f32 (fun _ => f32_one) f32_zero f32_one Z.of_nat c94_cfg ex_data 1%Z true.
Definition c94_made : @fstate f32 :=
  match @add_layers f32 (fun _ => f32_one) f32_zero f32_one Z.of_nat c94_cfg ex_data 1%Z true c94_text ex_graph with Ok (st, _) => st | _ => c87_state end.
Definition c94_graph : graph := graph_of (insert_sweeps 2 (f_graph c94_made)).
Definition c94_shape (p i : nat) : dims :=
  match p with 0 => match i with 2 => c87_dims 4 2 | _ => c87_dims 4 1 end | 1 | 2 => c87_dims 4 2 | _ => c87_dims 4 1 end.
Definition c94_conv (n : nat) : conv := match n with 1 => conv_of 1 1 2 1 1 0 0 1 | _ => conv_of 1 1 1 1 1 0 0 1 end.
Definition c94_layer (b : nat) (st1 st3 : @conv_state f32) (n : nat) : behaviour f32 :=
  let z d := repeat f32_zero (size (at_batch b d)) in
  let d := at_batch b in
  match n with
  | 1 => testing_conv_behaviour f32_num (c94_conv 1) f32_zero (d (c87_dims 4 1)) st1 (z (c87_dims 4 2))
  | 2 => tanh_layer f32_num fdiv (fun v => v) f32_one (d (c87_dims 4 2)) (z (c87_dims 4 2)) []
  | 3 => testing_conv_behaviour f32_num (c94_conv 3) f32_zero (d (c87_dims 4 2)) st3 (z (c87_dims 4 1))
  | 4 => tanh_layer f32_num fdiv (fun v => v) f32_one (d (c87_dims 4 1)) (z (c87_dims 4 1)) []
  | _ => error_behaviour f32_num fdiv f32_one (d (c87_dims 4 1)) f32_one []
  end.
Definition c94_outputs : outputs f32 := mkOut (c91_tensor 2 1) (c91_tensor 2 1) (c91_tensor 2 2) (c91_tensor 2 1).
Definition c94_set : dataset := mkDataset [] [c91_tensor 1 1; c91_tensor 1 1; c91_tensor 1 1; c91_tensor 1 1] 4 4 1 1 [f32_one].
Definition c94_detector : detector unit := mkDetector (new_layer ex_shuffle true 2 0 2 f32_one tt, c94_outputs, []) bin_stat.
Definition c94_trainer (ps : list (list (list f32))) : trainer f32 (res (detector unit)) := mkTrainer (Ok c94_detector) (map (fun p => (f32_one, p)) ps) [] [] [] 0 true.
Notation c94_session := (session f32_order fdiv (fun v => v) f32_one (fun v => fgt v f32_zero) (fun _ _ => f32_one)
    (fun _ _ => f32_one) (fun _ v => v) (fun _ v => v) c94_made c94_graph c94_shape c90_params).
Notation c94_configured := (configured (fun _ => f32_one) f32_zero f32_one Z.of_nat c94_cfg ex_data 1%Z true).

Lemma c94_readable : Forall (@readable f32 (fun _ => f32_one) f32_zero f32_one Z.of_nat c94_cfg ex_data 1%Z true) (lines_of c94_text).
Proof.
  assert (H : forallb (fun l => match c94_read c87_state l with Ok _ => true | _ => false end) (lines_of c94_text) = true) by (vm_compute; reflexivity).
  apply Forall_forall. intros l Hl. rewrite forallb_forall in H. specialize (H l Hl). exists c87_state. unfold c94_read in H.
  destruct (read_config_line _ _ _ _ _ _ _ _ c87_state l) as [st'| |]; try discriminate. now exists st'.
Qed.
Lemma c94_convolves n b maps : In (n, maps) [(1, 1); (3, 2)] -> 0 < b -> exists st,
  convolves f32_num (c94_conv n) (c87_dims 4 maps) (c94_shape n 0) b st (repeat f32_zero (size (at_batch b (c94_shape n 0)))).
Proof.
  intros H Hb. assert (Hc : conv_ctor (c94_conv n) = Ok (c94_conv n)) by (cbn in H; decompose [or] H; try contradiction; match goal with E : _ = _ |- _ => injection E as <- <- end; reflexivity).
  destruct (Conv_Props.C35_connected f32_num (fun _ => f32_zero) (c94_conv n) 4 4 maps b Hc Hb) as (st & _ & Rd & _);
    try (cbn in H; decompose [or] H; try contradiction; match goal with E : _ = _ |- _ => injection E as <- <- end; first [reflexivity | cbn; lia]).
  exists st. split; [exists (fun _ _ _ _ => Num.n0 f32_num), (fun _ => Num.n0 f32_num); exact Rd|]. rewrite (cr_ow _ _ _ _ _ _ _ _ _ Rd), (cr_oh _ _ _ _ _ _ _ _ _ Rd). split; [|apply repeat_length].
  cbn in H. decompose [or] H; try contradiction; match goal with E : _ = _ |- _ => injection E as <- <- end; reflexivity.
Qed.
Lemma c94_layers : f_made c94_made = [(1, LConvolution 1 1 2 1 1 0 0 1 0 f32_zero f32_one); (2, LTanh); (3, LConvolution 1 1 1 1 1 0 0 1 1 f32_zero f32_one); (4, LTanh); (5, LError f32_one)].
Proof. vm_compute. reflexivity. Qed.
Lemma c94_nodes : nodes (f_graph c94_made) = seq 0 6 /\ nodes c94_graph = seq 0 6.
Proof. vm_compute. auto. Qed.

Example C94_configured_hypotheses : forall w1 w3 bias1 bias3,
  length w1 = 2 -> length w3 = 2 -> length bias1 = 2 -> length bias3 = 1 ->
  let ps := [[]; [w1; bias1]; []; [w3; bias3]; []; []] in
  c94_configured c94_text c94_made c94_graph 0 c94_shape 4 /\
  (exists layer, c94_session 2 ps layer) /\
  sized 2 (c94_shape 0 0) (o_data c94_outputs) /\ sized 2 (c94_shape 4 0) (o_label c94_outputs) /\ sized 2 (c94_shape 0 2) (o_helper c94_outputs) /\
  map snd (layers (c94_trainer ps)) = ps /\
  (exists set, Evaluate_Spec.delivers (get_testing_sample ex_position ex_error ex_mul c94_set) c94_outputs 2 2 set /\ weighted 4 4 2 set) /\
  detectable c94_outputs 2 /\ EvaluateBinary_Spec.ready c94_outputs 2 2 thirteen (c94_trainer ps).
Proof.
  intros w1 w3 bias1 bias3 L1 L3 K1 K3 ps.
  assert (S : forall m, 0 < m -> shape_is (c91_tensor 2 m) 2 4 4 m) by (intros m Hm; apply c91_tensor_shape; lia).
  destruct (S 1) as (W1 & A1 & B1 & C1 & D1); [lia|]. destruct (S 2) as (W2 & A2 & B2 & C2 & D2); [lia|].
  split; [|split; [|split; [|split; [|split; [|split; [|split; [|split]]]]]]].
  - exists ex_graph, true, 2, (mkNode (Some (mkKind false false true false)) [] [] 4 "data" false true), LTanh.
    split; [exact ex_healthy|]. split; [exact Factory_Props.ex_outputs|]. repeat (split; [reflexivity|]).
    split; [exact c94_readable|]. split; [apply plain_dec; vm_compute; reflexivity|]. split; [vm_compute; reflexivity|]. split; [lia|]. split; [vm_compute; reflexivity|].
    split; [rewrite c94_layers; cbn [In]; tauto|]. split; [discriminate|]. repeat split; cbn; lia.
  - destruct (c94_convolves 1 2 1) as (s1 & S1); [cbn; auto|lia|]. destruct (c94_convolves 3 2 2) as (s3 & S3); [cbn; auto|lia|].
    exists (c94_layer 2 s1 s3). split.
    + intros p l H. rewrite c94_layers in H. cbn [In] in H.
      decompose [or] H; try contradiction; match goal with E : _ = _ |- _ => injection E as <- <- end;
      match goal with |- context [inputs_of ?h ?n] => let v := eval vm_compute in (inputs_of h n) in replace (inputs_of h n) with v by (vm_compute; reflexivity) end;
      cbn [map seq Factory_Model.buffers_of c94_layer ConfigNet_Spec.delivers c_node c_buffer c94_shape c90_params nth ps]; cbn [c94_shape] in S1, S3.
      * apply (runs_convolution f32_num f32_order _ _ _ _ _ _ _ _ 2 _ 1 1 2 1 1 0 0 1); [cbn; lia|cbn; lia|exact S1|split; [exact L1|split; [exact K1|split; apply Nat.ltb_lt; reflexivity]]].
      * apply runs_tanh; [cbn; lia|apply repeat_length].
      * apply (runs_convolution f32_num f32_order _ _ _ _ _ _ _ _ 2 _ 1 1 1 1 1 0 0 1); [cbn; lia|cbn; lia|exact S3|split; [exact L3|split; [exact K3|split; apply Nat.ltb_lt; reflexivity]]].
      * apply runs_tanh; [cbn; lia|apply repeat_length].
      * apply runs_error.
    + intros n Hn No. destruct c94_nodes as (N1 & N2). rewrite N1 in No. rewrite N2 in Hn. contradiction.
  - split; [exact W1|]. auto.
  - split; [exact W1|]. auto.
  - split; [exact W2|]. auto.
  - reflexivity.
  - assert (Of : outputs_for c94_set 2 c94_outputs) by (split; [|split; [|split]]; apply S; cbn; lia).
    assert (Sm : forall i, i < length (ds_testing c94_set) / 2 -> exists img lab, sample_is c94_set (ds_testing c94_set) i img lab).
    { intros i Hi. change (length (ds_testing c94_set) / 2) with 2 in Hi. exists (c91_tensor 1 1), (c91_tensor 1 1).
      destruct (c91_tensor_shape 1 1) as (V1 & _); [lia|lia|].
      destruct i as [|[|i]]; [| |lia]; (split; [reflexivity|]; split; [reflexivity|]; split; [exact V1|]; split; [exact V1|]; repeat split; cbn; lia). }
    destruct (C81_dataset ex_position ex_error ex_mul c94_set 2 c94_outputs Of) as (set & Hd & Hex); [cbn; lia|exact Sm|].
    exists set. split; [exact Hd|]. intros i x y Hi Hx Hy. destruct (Sm i Hi) as (img & lab & Hsm). destruct (Hex i img lab Hi Hsm) as (_ & _ & _ & Fw). specialize (Fw x y 0 ltac:(lia)).
    destruct ((x <? width img) && (y <? height img)).
    + destruct Fw as (k & cw & _ & Ek & ->). unfold ex_mul. destruct k as [|k]; [injection Ek as <-|destruct k; discriminate]. unfold f32_nonneg, f32_inf, f32_one. lia.
    + rewrite Fw. unfold f32_nonneg, f32_inf, f32_zero. lia.
  - split; [exact W1|]. split; [exact W1|]. repeat split; cbn; lia.
  - exists (new_layer ex_shuffle true 2 0 2 f32_one tt), c94_outputs, [], bin_stat. split; [reflexivity|].
    split. { unfold shaped_like. repeat (split; [split; [assumption|apply same_shape_refl]|]). split; [assumption|apply same_shape_refl]. }
    repeat (split; [reflexivity|]). intros l [<-|[<-|[<-|[<-|[]]]]]; apply Forall_forall; intros v I; apply repeat_spec in I; auto.
Qed.

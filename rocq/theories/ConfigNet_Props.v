(** C87: a network described by a configuration predicts every image on its own. *)
From Coq Require Import Ascii String List.
From Verif Require Import Base BaseFacts Tensor_Model Tensor_Spec Num Float32 FloatOps Pool_Model LRN_Model ConvLayer_Model ConvLayer_Spec
  DatasetInput_Model Evaluate_Spec Backprop_Model BackpropLayers_Model Batch_Model Batch_Spec Batch_Proofs Batch_Props
  Str_Model Config_Model Graph_Model Graph_Spec Graph_Props Receptive_Model Factory_Model Factory_Spec FactoryRun_Proofs FactoryLines_Proofs Factory_Props
  ConfigNet_Model ConfigNet_Spec ConfigNet_Proofs.
Local Open Scope string_scope.
Local Open Scope list_scope.
Local Open Scope nat_scope.

(** ** Labels are only read by loss functions *)
Section Labels.
Context {D : Type} (read_datum : str -> D) (d0 d1 : D) (rand : nat -> Z).
Variables (cfg : geo) (data : connection) (classes : Z) (add_loss_layer : bool).
Notation add_layers := (add_layers read_datum d0 d1 rand cfg data classes add_loss_layer).
Notation readable := (readable read_datum d0 d1 rand cfg data classes add_loss_layer).

(** Whatever the configuration: every layer with an output takes its input from first outputs and from the helper maps. *)
Theorem C87_labels : forall g text st complete p l c, healthy g -> four_outputs g data -> c_buffer data = 0 ->
  Forall readable (lines_of text) -> Forall plain (lines_of text) -> add_layers text g = Ok (st, complete) ->
  In (p, l) (f_made st) -> (forall w, l <> LError w) -> In c (inputs_of (heap (f_graph st)) p) -> no_secret data c.
Proof.
  intros g text st complete p l c Hh Hd Hb R P E Hp Nl Hc. destruct (layers_run read_datum d0 d1 rand cfg data classes add_loss_layer g text st complete Hh Hd R P E) as (Af & _).
  destruct (public_made _ _ (public_after read_datum d0 d1 rand cfg data classes add_loss_layer g _ st Hh Hd Hb R P Af) p l) as (cs & (nd & En & Ei) & F).
  { unfold produced. apply filter_In. split; [exact Hp|]. cbn [snd]. destruct l; try reflexivity. now destruct (Nl loss_weight). }
  unfold inputs_of in Hc. rewrite En, Ei in Hc. apply in_map_iff in Hc as (c' & <- & Hc'). rewrite Forall_forall in F. specialize (F c' Hc').
  unfold settled. destruct (c_node c') as [q|] eqn:Eq; [|exact F]. destruct (c_backprop c' && is_input_at (heap (f_graph st)) q); [|exact F].
  unfold no_secret in *. cbn [c_buffer c_node]. now rewrite <- Eq.
Qed.
End Labels.
Print Assumptions C87_labels.

(** ** Prediction *)
Section Prediction.
Variables (read_datum : str -> f32) (d0 d1 : f32) (rand : nat -> Z) (cfg : geo) (data : connection) (classes : Z) (add_loss_layer : bool).
Variables (O : order f32) (ndiv : f32 -> f32 -> f32) (nexp : f32 -> f32) (two : f32) (positive : f32 -> bool) (fraction : nat -> nat -> f32)
  (scale : f32 -> nat -> f32) (power power1 : f32 -> f32 -> f32).
Notation add_layers := (add_layers read_datum d0 d1 rand cfg data classes add_loss_layer).
Notation readable := (readable read_datum d0 d1 rand cfg data classes add_loss_layer).
Notation runs := (runs f32_num O ndiv nexp two positive fraction scale power power1).

(** [g0]: only the dataset input layer [input].  [st]: what AddLayers makes of the text.  [g]: the network after Initialize has put in accumulation nodes.
    Every layer of the text runs for batches of [b] ([layer]) and of 1 ([layer1]) samples, with outputs of the shapes [shape]; accumulation nodes do
    what they do.  Then every output [out] of a layer is, for every sample of every batch, what the network computes for the sample alone: whatever the
    other samples are, whatever labels and weights are, and whatever was in memory before. *)
Theorem C87_prediction : forall g0 text st complete g sweeps input ndata shape params_of ps (layer layer1 : nat -> behaviour f32) b out l fuel flagged flagged1 m m1 o0 dw,
  healthy g0 -> four_outputs g0 data -> nodes g0 = [input] -> c_node data = Some input -> c_buffer data = 0 ->
  nth_error (heap g0) input = Some ndata -> n_is_input ndata = true -> n_buffers ndata = 4 ->
  Forall readable (lines_of text) -> Forall plain (lines_of text) -> add_layers text g0 = Ok (st, complete) ->
  2 <= sweeps -> insert_sweeps sweeps (f_graph st) = Ok g -> length (nodes g) < fuel ->
  (forall p l, In (p, l) (f_made st) ->
     let ins := map (delivers shape) (inputs_of (heap (f_graph st)) p) in let outs := map (shape p) (seq 0 (Factory_Model.buffers_of l)) in
     runs b (params_of ps p) l ins outs (layer p) /\ runs 1 (params_of ps p) l ins outs (layer1 p)) ->
  (forall n, In n (nodes g) -> ~ In n (nodes (f_graph st)) -> exists samples eps old samples1 eps1 old1,
     layer n = accumulation_behaviour f32_num (Backprop_Model.buffers_of (heap g) n) samples eps old /\
     layer1 n = accumulation_behaviour f32_num (Backprop_Model.buffers_of (heap g) n) samples1 eps1 old1) ->
  In (out, l) (f_made st) -> (forall w, l <> LError w) ->
  0 < b -> 0 < sample_size (shape input 0) -> 0 < sample_size (shape input 2) -> 0 < sample_size (shape out 0) ->
  sized b (shape input 0) (o_data o0) -> sized b (shape out 0) (o_label o0) -> sized b (shape input 2) (o_helper o0) ->
  computes (graph_net f32_num g fuel flagged m input layer params_of out 0 (at_batch b (shape out 0))) ps o0
    (fun img hlp => prediction (graph_net f32_num g fuel flagged1 m1 input layer1 params_of out 0 (at_batch 1 (shape out 0)) ps
       (single (shape input 0) (shape out 0) (shape input 2) dw img hlp))).
Proof.
  intros g0 text st complete g sweeps input ndata shape params_of ps layer layer1 b out l fuel flagged flagged1 m m1 o0 dw
    Hh Hd Hn Hdn Hdb Ei Ii Bi R P E Hsw Hg Hfuel Hruns Hacc Hout Nl Pb Pd Ph Po Sd Sl Sh.
  destruct (layers_run read_datum d0 d1 rand cfg data classes add_loss_layer g0 text st complete Hh Hd R P E) as (_ & G & Bt & _). pose proof (good_graph _ _ _ G) as Hh'.
  destruct (built_same _ _ _ Bt input ndata Ei) as (nd' & Ei' & (_ & _ & Bn & _ & _ & In')).
  assert (Hinput : exists nd, nth_error (heap (f_graph st)) input = Some nd /\ n_is_input nd = true /\ n_buffers nd = 4) by (exists nd'; repeat split; congruence).
  assert (Nodes : forall n, In n (nodes (f_graph st)) -> n = input \/ exists l, In (n, l) (f_made st)).
  { intros n H. rewrite (built_nodes _ _ _ Bt), Hn in H. destruct H as [H|H]; [now left|]. right. apply in_map_iff in H as ((n' & l') & <- & H). eauto. }
  assert (Ne : forall p l, In (p, l) (f_made st) -> p <> input).
  { intros p l' H ->. destruct (built_new _ _ _ Bt input l' H) as (m' & Em' & _ & _ & F & _). congruence. }
  assert (Hin0 : In input (nodes (f_graph st))) by (rewrite (built_nodes _ _ _ Bt), Hn; now left).
  assert (Hone : forall n nd, In n (nodes (f_graph st)) -> n <> input -> nth_error (heap (f_graph st)) n = Some nd -> n_buffers nd <= 1).
  { intros n nd H N En. destruct (Nodes n H) as [->|(l' & H')]; [contradiction|]. destruct (built_new _ _ _ Bt n l' H') as (m' & Em' & _ & B' & _).
    assert (m' = nd) by congruence. subst. rewrite B'. destruct l'; cbn; lia. }
  destruct (joined (f_graph st) g input shape sweeps Hh' Hsw Hg Hin0 Hinput Hone) as (Con & Sg & Ag & Inc & New).
  set (mk := makes (f_graph st) g input shape) in *. set (tk := takes (f_graph st) g input shape) in *.
  assert (Mk : forall p l, In (p, l) (f_made st) -> mk p = map Some (map (shape p) (seq 0 (Factory_Model.buffers_of l)))).
  { intros p l' H. unfold mk, makes. rewrite (proj2 (Nat.eqb_neq _ _) (Ne p l' H)), in_nodes.
    - unfold buffers_at. destruct (built_new _ _ _ Bt p l' H) as (m' & Em' & _ & B' & _). now rewrite Em', B', map_map.
    - rewrite (built_nodes _ _ _ Bt). apply in_or_app. right. apply (in_map fst) in H. exact H. }
  assert (Inp : forall p l, In (p, l) (f_made st) -> In p (nodes (f_graph st))) by (intros p l' H; rewrite (built_nodes _ _ _ Bt); apply in_or_app; right; apply (in_map fst) in H; exact H).
  apply (C82_computes f32_num g fuel input out 0 flagged1 flagged m1 m params_of layer1 layer b (shape input 0) (shape out 0) (shape input 2) dw tk mk); auto.
  - unfold mk, makes. now rewrite Nat.eqb_refl.
  - apply Inc. now apply (Inp out l).
  - rewrite (Mk out l Hout). destruct l; try reflexivity. now destruct (Nl loss_weight).
  - intros n s Hng Nn Hs. destruct (in_dec Nat.eq_dec n (nodes (f_graph st))) as [Y|No].
    + destruct (Nodes n Y) as [->|(l' & H')]; [contradiction|]. destruct (Hruns n l' H') as (R1 & R2). cbn zeta in R1, R2. rewrite (Mk n l' H').
      destruct (match l' with LError w => inl w | _ => inr tt end) as [w|] eqn:El.
      * assert (l' = LError w) by (destruct l'; congruence). subst l'. intros x1 x2 _. inversion R1; subst. inversion R2; subst. constructor.
      * assert (Nl' : forall w, l' <> LError w) by (intros w ->; discriminate).
        unfold tk. rewrite (takes_made (f_graph st) g input shape sweeps Hh' Hsw Hg Hin0 Hinput Hone n data Y Hdn).
        -- apply (runs_alike f32_num O ndiv nexp two positive fraction scale power power1 b 1 s 0 Hs Nat.lt_0_1 (params_of ps n) l'); [reflexivity|reflexivity|exact R1|exact R2|].
           destruct l'; try exact I. now destruct (Nl' loss_weight).
        -- apply Forall_forall. intros c Hc. now apply (C87_labels read_datum d0 d1 rand cfg data classes add_loss_layer g0 text st complete n l' c).
    + destruct (New n Hng No) as (d & T & M). destruct (Hacc n Hng No) as (sa & ep & old & sa1 & ep1 & old1 & -> & ->). fold mk tk in T, M. rewrite T, M. apply C82_accumulation.
Qed.
End Prediction.
Print Assumptions C87_prediction.

(** ** A network that meets the hypotheses *)
(** The residual block of C58_witness on images of 4 by 4 pixels, in batches of two: border, convolution, rectifier, accumulation (node 11, for the two readers of
    the rectifier), convolution, sum, pooling, convolution, logistic function, upscaling, error. *)
Definition c87_read := @read_config_line f32 (fun _ => f32_one) f32_zero f32_one Z.of_nat ex_cfg ex_data 3%Z true.
Definition c87_state : @fstate f32 := mkF ex_graph ex_data [ex_data] [ex_data] false 0 [] false.
Definition c87_made : @fstate f32 :=
  match @add_layers f32 (fun _ => f32_one) f32_zero f32_one Z.of_nat ex_cfg ex_data 3%Z true ex_text ex_graph with Ok (st, _) => st | _ => c87_state end.
Definition c87_graph : graph := graph_of (insert_sweeps 2 (f_graph c87_made)).
Definition c87_dims (w maps : nat) : dims := mkDims 1 w w maps.
Definition c87_shape (p i : nat) : dims :=
  match p with
  | 0 => match i with 0 => c87_dims 4 1 | 1 => c87_dims 4 3 | 2 => c87_dims 4 2 | _ => c87_dims 4 1 end
  | 1 => c87_dims 6 1 | 2 | 3 | 4 | 5 => c87_dims 4 4 | 6 => c87_dims 2 4 | 7 | 8 => c87_dims 2 3 | _ => c87_dims 4 3
  end.
Definition c87_conv (n : nat) : conv :=
  match n with 2 => conv_of 3 3 4 1 1 0 0 1 | 4 => conv_of 3 3 4 1 1 1 1 1 | _ => conv_of 1 1 3 1 1 0 0 1 end.
Definition c87_layer (b : nat) (st2 st4 st7 : @conv_state f32) (n : nat) : behaviour f32 :=
  let z d := repeat f32_zero (size (at_batch b d)) in
  let d := at_batch b in
  match n with
  | 1 => border_behaviour f32_num 2 2 (d (c87_dims 4 1)) (z (c87_dims 6 1)) []
  | 2 => testing_conv_behaviour f32_num (c87_conv 2) f32_zero (d (c87_dims 6 1)) st2 (z (c87_dims 4 4))
  | 3 => rectifier_layer f32_num (fun v => fgt v f32_zero) (d (c87_dims 4 4)) (z (c87_dims 4 4)) []
  | 4 => testing_conv_behaviour f32_num (c87_conv 4) f32_zero (d (c87_dims 4 4)) st4 (z (c87_dims 4 4))
  | 5 => sum_behaviour f32_num (d (c87_dims 4 4)) (z (c87_dims 4 4)) [] []
  | 6 => pool_behaviour f32_num f32_order 2 2 (d (c87_dims 4 4)) (z (c87_dims 2 4)) (z (c87_dims 2 4)) (z (c87_dims 2 4)) []
  | 7 => testing_conv_behaviour f32_num (c87_conv 7) f32_zero (d (c87_dims 2 4)) st7 (z (c87_dims 2 3))
  | 8 => sigmoid_layer f32_num fdiv (fun v => v) (d (c87_dims 2 3)) (z (c87_dims 2 3)) []
  | 9 => upscale_behaviour f32_num 2 2 (d (c87_dims 2 3)) (z (c87_dims 4 3)) []
  | 10 => error_behaviour f32_num fdiv f32_one (d (c87_dims 4 3)) f32_one []
  | _ => accumulation_behaviour f32_num 2 b 64 []
  end.
Definition c87_params (ps : list (list (list f32))) (n : nat) : list (list f32) := match n with 2 => nth 0 ps [] | 4 => nth 1 ps [] | 7 => nth 2 ps [] | _ => [] end.
Definition c87_batch : outputs f32 :=
  let t m := tensor_of (at_batch 2 (c87_dims 4 m)) (repeat f32_zero (size (at_batch 2 (c87_dims 4 m)))) in mkOut (t 1) (t 3) (t 2) (t 1).

Lemma c87_readable : Forall (@readable f32 (fun _ => f32_one) f32_zero f32_one Z.of_nat ex_cfg ex_data 3%Z true) (lines_of ex_text).
Proof.
  assert (H : forallb (fun l => match c87_read c87_state l with Ok _ => true | _ => false end) (lines_of ex_text) = true) by (vm_compute; reflexivity).
  apply Forall_forall. intros l Hl. rewrite forallb_forall in H. specialize (H l Hl). exists c87_state. unfold c87_read in H.
  destruct (read_config_line _ _ _ _ _ _ _ _ c87_state l) as [st'| |]; try discriminate. now exists st'.
Qed.
Lemma c87_convolves n b w maps : In (n, w, maps) [(2, 6, 1); (4, 4, 4); (7, 2, 4)] -> 0 < b -> exists st,
  convolves f32_num (c87_conv n) (c87_dims w maps) (c87_shape n 0) b st (repeat f32_zero (size (at_batch b (c87_shape n 0)))).
Proof.
  intros H Hb. assert (Hc : conv_ctor (c87_conv n) = Ok (c87_conv n)) by (cbn in H; decompose [or] H; try contradiction; match goal with E : _ = _ |- _ => injection E as <- <- <- end; reflexivity).
  destruct (Conv_Props.C35_connected f32_num (fun _ => f32_zero) (c87_conv n) w w maps b Hc Hb) as (st & _ & Rd & _);
    try (cbn in H; decompose [or] H; try contradiction; match goal with E : _ = _ |- _ => injection E as <- <- <- end; first [reflexivity | cbn; lia]).
  exists st. split; [exists (fun _ _ _ _ => n0 f32_num), (fun _ => n0 f32_num); exact Rd|]. rewrite (cr_ow _ _ _ _ _ _ _ _ _ Rd), (cr_oh _ _ _ _ _ _ _ _ _ Rd). split; [|apply repeat_length].
  cbn in H. decompose [or] H; try contradiction; match goal with E : _ = _ |- _ => injection E as <- <- <- end; reflexivity.
Qed.

Lemma c87_layers : f_made c87_made = [(1, LResize 2 2); (2, LConvolution 3 3 4 1 1 0 0 1 0 f32_zero f32_one); (3, LReLU); (4, LConvolution 3 3 4 1 1 1 1 1 1 f32_zero f32_one); (5, LSum);
      (6, LMaxPooling 2 2); (7, LConvolution 1 1 3 1 1 0 0 1 2 f32_zero f32_one); (8, LSigmoid); (9, LUpscale 2 2); (10, LError f32_one)].
Proof. vm_compute. reflexivity. Qed.
Lemma c87_nodes : nodes (f_graph c87_made) = seq 0 11 /\ nodes c87_graph = seq 0 12 /\ Backprop_Model.buffers_of (heap c87_graph) 11 = 2.
Proof. vm_compute. auto. Qed.

Lemma c87_runs w2 w4 w7 bias2 bias4 bias7 :
  length w2 = 36 -> length w4 = 144 -> length w7 = 12 -> length bias2 = 4 -> length bias4 = 4 -> length bias7 = 3 ->
  let ps := [[w2; bias2]; [w4; bias4]; [w7; bias7]] in
  forall b st2 st4 st7 p l, 0 < b ->
    convolves f32_num (c87_conv 2) (c87_dims 6 1) (c87_shape 2 0) b st2 (repeat f32_zero (size (at_batch b (c87_shape 2 0)))) ->
    convolves f32_num (c87_conv 4) (c87_dims 4 4) (c87_shape 4 0) b st4 (repeat f32_zero (size (at_batch b (c87_shape 4 0)))) ->
    convolves f32_num (c87_conv 7) (c87_dims 2 4) (c87_shape 7 0) b st7 (repeat f32_zero (size (at_batch b (c87_shape 7 0)))) ->
    In (p, l) (f_made c87_made) ->
    runs f32_num f32_order fdiv (fun v => v) f32_one (fun v => fgt v f32_zero) (fun _ _ => f32_one) (fun _ _ => f32_one) (fun _ v => v) (fun _ v => v) b (c87_params ps p) l
      (map (delivers c87_shape) (inputs_of (heap (f_graph c87_made)) p)) (map (c87_shape p) (seq 0 (Factory_Model.buffers_of l))) (c87_layer b st2 st4 st7 p).
Proof.
  intros L1 L2 L3 L4 L5 L6 ps. intros b st2 st4 st7 p l Hb C2 C4 C7 H. rewrite c87_layers in H. cbn [In] in H.
    decompose [or] H; try contradiction; match goal with E : _ = _ |- _ => injection E as <- <- end;
      match goal with |- context [inputs_of ?h ?n] => let v := eval vm_compute in (inputs_of h n) in replace (inputs_of h n) with v by (vm_compute; reflexivity) end;
      cbn [map seq Factory_Model.buffers_of c87_layer delivers c_node c_buffer c87_shape c87_params]; cbn [c87_shape] in C2, C4, C7.
    - apply (runs_border f32_num f32_order _ _ _ _ _ _ _ _ b [] 2 2 (c87_dims 4 1)); [cbn; lia|apply repeat_length].
    - apply (runs_convolution f32_num f32_order _ _ _ _ _ _ _ _ b _ 3 3 4 1 1 0 0 1); [cbn; lia|cbn; lia|exact C2|split; [exact L1|split; [exact L4|split; apply Nat.ltb_lt; reflexivity]]].
    - apply runs_relu; [cbn; lia|apply repeat_length].
    - apply (runs_convolution f32_num f32_order _ _ _ _ _ _ _ _ b _ 3 3 4 1 1 1 1 1); [cbn; lia|cbn; lia|exact C4|split; [exact L2|split; [exact L5|split; apply Nat.ltb_lt; reflexivity]]].
    - apply runs_sum; [cbn; lia|apply repeat_length].
    - apply (runs_pooling f32_num f32_order _ _ _ _ _ _ _ _ b [] 2 2 (c87_dims 4 4)); try (cbn; lia); try reflexivity; apply repeat_length.
    - apply (runs_convolution f32_num f32_order _ _ _ _ _ _ _ _ b _ 1 1 3 1 1 0 0 1); [cbn; lia|cbn; lia|exact C7|split; [exact L3|split; [exact L6|split; apply Nat.ltb_lt; reflexivity]]].
    - apply runs_sigmoid; [cbn; lia|apply repeat_length].
    - apply (runs_upscale f32_num f32_order _ _ _ _ _ _ _ _ b [] 2 2 (c87_dims 2 3)); try (cbn; lia); apply repeat_length.
    - apply runs_error.
Qed.

Example C87_hypotheses : exists s2 s4 s7 t2 t4 t7, forall w2 w4 w7 bias2 bias4 bias7,
  length w2 = 36 -> length w4 = 144 -> length w7 = 12 -> length bias2 = 4 -> length bias4 = 4 -> length bias7 = 3 ->
  let ps := [[w2; bias2]; [w4; bias4]; [w7; bias7]] in
  computes (graph_net f32_num c87_graph 13 [] ex_memory 0 (c87_layer 2 s2 s4 s7) c87_params 9 0 (at_batch 2 (c87_dims 4 3))) ps c87_batch
    (fun img hlp => prediction (graph_net f32_num c87_graph 13 [] ex_memory 0 (c87_layer 1 t2 t4 t7) c87_params 9 0 (at_batch 1 (c87_dims 4 3)) ps
       (single (c87_dims 4 1) (c87_dims 4 3) (c87_dims 4 2) (c87_dims 4 1) img hlp))).
Proof.
  destruct (c87_convolves 2 2 6 1) as (s2 & S2); [cbn; auto|lia|]. destruct (c87_convolves 4 2 4 4) as (s4 & S4); [cbn; auto|lia|]. destruct (c87_convolves 7 2 2 4) as (s7 & S7); [cbn; auto|lia|].
  destruct (c87_convolves 2 1 6 1) as (t2 & T2); [cbn; auto|lia|]. destruct (c87_convolves 4 1 4 4) as (t4 & T4); [cbn; auto|lia|]. destruct (c87_convolves 7 1 2 4) as (t7 & T7); [cbn; auto|lia|].
  exists s2, s4, s7, t2, t4, t7. intros w2 w4 w7 bias2 bias4 bias7 L1 L2 L3 L4 L5 L6 ps.
  pose proof (c87_runs w2 w4 w7 bias2 bias4 bias7 L1 L2 L3 L4 L5 L6) as Runs. cbv zeta in Runs. fold ps in Runs.
  apply (C87_prediction (fun _ => f32_one) f32_zero f32_one Z.of_nat ex_cfg ex_data 3%Z true f32_order fdiv (fun v => v) f32_one (fun v => fgt v f32_zero) (fun _ _ => f32_one)
    (fun _ _ => f32_one) (fun _ v => v) (fun _ v => v) ex_graph ex_text c87_made true c87_graph 2 0 (mkNode (Some (mkKind false false true false)) [] [] 4 "data" false true)
    c87_shape c87_params ps (c87_layer 2 s2 s4 s7) (c87_layer 1 t2 t4 t7) 2 9 (LUpscale 2 2)).
  - exact ex_healthy.
  - exact ex_outputs.
  - reflexivity.
  - reflexivity.
  - reflexivity.
  - reflexivity.
  - reflexivity.
  - reflexivity.
  - exact c87_readable.
  - apply plain_dec. vm_compute. reflexivity.
  - vm_compute. reflexivity.
  - lia.
  - vm_compute. reflexivity.
  - rewrite (proj1 (proj2 c87_nodes)), seq_length. lia.
  - intros p l H. split; [exact (Runs 2 s2 s4 s7 p l Nat.lt_0_2 S2 S4 S7 H)|exact (Runs 1 t2 t4 t7 p l Nat.lt_0_1 T2 T4 T7 H)].
  - intros n Hn No. assert (n = 11) by (destruct c87_nodes as (N1 & N2 & _); rewrite N1 in No; rewrite N2 in Hn; rewrite in_seq in Hn, No; lia). subst n.
    rewrite (proj2 (proj2 c87_nodes)). exists 2, 64, [], 1, 64, []. split; reflexivity.
  - rewrite c87_layers. cbn [In]. tauto.
  - discriminate.
  - lia.
  - cbn; lia.
  - cbn; lia.
  - cbn; lia.
  - repeat split; cbn; lia.
  - repeat split; cbn; lia.
  - repeat split; cbn; lia.
Qed.

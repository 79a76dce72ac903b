(** C91: what a test reports for a configured network depends on nothing but the configuration, the parameters and the test set. *)
From Coq Require Import Ascii String List Reals Lra.
From Verif Require Import Base BaseFacts LoopFacts Tensor_Model Tensor_Spec Tensor_Proofs Num RealNum Float32 FloatOps Pool_Model LRN_Model ConvLayer_Model ConvLayer_Spec
  Schedule_Model Trainer_Model Trainer_Props DatasetInput_Model DatasetInput_Spec StatLayers_Model StatLayers_Spec StatLayers_Proofs StatLayers2_Proofs
  Evaluate_Model Evaluate_Spec Evaluate_Proofs
  Backprop_Model BackpropLayers_Model Batch_Model Batch_Spec Batch_Proofs Batch_Props
  Str_Model Config_Model Graph_Model Graph_Spec Graph_Props Receptive_Model Factory_Model Factory_Spec FactoryRun_Proofs FactoryLines_Proofs Factory_Props Dataset_Model Dataset_Spec Evaluate_Props
  ConfigNet_Model ConfigNet_Spec ConfigNet_Proofs ConfigNet_Props Reload_Spec Reload_Proofs Reload_Props.
Local Open Scope string_scope.
Local Open Scope list_scope.
Local Open Scope nat_scope.

(** A sample has only one list of pixels. *)
Lemma same_pixels {W} (wide : f32 -> W) w h c f e px px' : sample_pixels wide w h c f e px -> sample_pixels wide w h c f e px' -> px = px'.
Proof.
  intros (cls & act & H & ->) (cls' & act' & H' & ->). apply for_ext. intros y Hy. apply for_ext. intros x Hx.
  destruct (H x y Hx Hy) as (H1 & H2). destruct (H' x y Hx Hy) as (H1' & H2').
  now rewrite (first_largest_unique _ _ _ _ _ H1 H1'), (first_largest_unique _ _ _ _ _ H2 H2').
Qed.
Lemma same_tested {W} (wide : f32 -> W) w h c f es px px' : Forall2 (sample_pixels wide w h c f) es px -> Forall2 (sample_pixels wide w h c f) es px' -> px = px'.
Proof.
  intros H. revert px'. induction H as [|e p es px He H IH]; intros px' H'; inversion H'; subst; [reflexivity|]. f_equal; [|now apply IH]. eapply same_pixels; eassumption.
Qed.

(** And it has one. *)
Lemma has_pixels {W} (wide : f32 -> W) w h c f e : exists px, sample_pixels wide w h c f e px.
Proof.
  set (best := fun (v : nat -> f32) => match scan_max fgt c (fun m => Ok (v m)) f32_lowest with Ok r => r | _ => 0 end).
  assert (B : forall v, first_largest c v f32_lowest (best v)).
  { intros v. destruct (scan_max_spec c (fun m => Ok (v m)) v f32_lowest) as (r & E & H); [auto|]. unfold best. now rewrite E. }
  eexists. exists (fun x y => best (fun m => f (e_image e) (e_helper e) x y m)), (fun x y => best (fun m => e_label e x y m)). split; [|reflexivity]. intros; split; apply B.
Qed.
Lemma has_tested {W} (wide : f32 -> W) w h c f es : exists px, Forall2 (sample_pixels wide w h c f) es px.
Proof. induction es as [|e es (px & IH)]; [exists []; constructor|]. destruct (has_pixels wide w h c f e) as (p & H). exists (p :: px). now constructor. Qed.

Section Report.
Variables (read_datum : str -> f32) (d0 d1 : f32) (rand : nat -> Z) (cfg : geo) (data : connection) (classes : Z) (add_loss_layer : bool).
Variables (O : order f32) (ndiv : f32 -> f32 -> f32) (nexp : f32 -> f32) (two : f32) (positive : f32 -> bool) (fraction : nat -> nat -> f32)
  (scale_alpha : f32 -> nat -> f32) (power power1 : f32 -> f32 -> f32).
Notation add_layers := (add_layers read_datum d0 d1 rand cfg data classes add_loss_layer).
Notation readable := (readable read_datum d0 d1 rand cfg data classes add_loss_layer).
Notation session := (session O ndiv nexp two positive fraction scale_alpha power power1).

(** The network [g], made of the text by the factory and Initialize, and one of its layers [out] with an output. *)
Definition configured (text : str) (st : fstate) (g : graph) (input : nat) (shape : nat -> nat -> dims) (out : nat) : Prop :=
  exists g0 complete sweeps ndata l,
  healthy g0 /\ four_outputs g0 data /\ nodes g0 = [input] /\ c_node data = Some input /\ c_buffer data = 0 /\
  nth_error (heap g0) input = Some ndata /\ n_is_input ndata = true /\ n_buffers ndata = 4 /\
  Forall readable (lines_of text) /\ Forall plain (lines_of text) /\ add_layers text g0 = Ok (st, complete) /\
  2 <= sweeps /\ insert_sweeps sweeps (f_graph st) = Ok g /\
  In (out, l) (f_made st) /\ (forall w, l <> LError w) /\
  0 < sample_size (shape input 0) /\ 0 < sample_size (shape input 2) /\ 0 < sample_size (shape out 0).

(** A configured network with the parameters [ps] is a function [f] from image and helper maps to its output: one function for every batch size,
    every process, everything that was in memory, every batch. *)
Theorem C91_function : forall text st g input shape out fuel params_of ps b0 layer0,
  configured text st g input shape out -> length (nodes g) < fuel -> session st g shape params_of b0 ps layer0 ->
  exists f, forall b layer flagged m o0, session st g shape params_of b ps layer -> 0 < b ->
    sized b (shape input 0) (o_data o0) -> sized b (shape out 0) (o_label o0) -> sized b (shape input 2) (o_helper o0) ->
    computes (graph_net f32_num g fuel flagged m input layer params_of out 0 (at_batch b (shape out 0))) ps o0 f.
Proof.
  intros text st g input shape out fuel params_of ps b0 layer0
    (g0 & complete & sweeps & ndata & l & Hh & Hd & Hn & Hdn & Hdb & Ei & Ii & Bi & R & P & E & Hsw & Hg & Hout & Nl & Pd & Ph & Po) Hf Run0.
  destruct (C90_batch_sizes read_datum d0 d1 rand cfg data classes add_loss_layer O ndiv nexp two positive fraction scale_alpha power power1
    g0 text st complete g shape params_of ps layer0 b0 1 Hh Hd R P E Run0 Nat.lt_0_1) as (layer1 & Run1 & Acc1).
  eexists. intros b layer flagged m o0 (Run & Acc) Hb Sd Sl Sh.
  apply (C87_prediction read_datum d0 d1 rand cfg data classes add_loss_layer O ndiv nexp two positive fraction scale_alpha power power1
    g0 text st complete g sweeps input ndata shape params_of ps layer layer1 b out l fuel flagged [] m ex_memory o0 (shape input 3)); auto; [intros p l' H; cbn zeta; split; auto|].
  intros n H1 H2. destruct (Acc n H1 H2) as (a & e & od & Ea). destruct (Acc1 n H1 H2) as (a1 & e1 & od1 & Ea1). exists a, e, od, a1, e1, od1. auto.
Qed.

(** Two tests of the same test set, with different batch sizes and perhaps in different processes, report the same rates: those of all pixels of the
    test set, classified as the network classifies each image on its own. *)
Theorem C91_reports : forall text st g input shape out fuel params_of ps b0 layer0,
  configured text st g input shape out -> length (nodes g) < fuel -> session st g shape params_of b0 ps layer0 ->
  forall (wide : f32 -> R) (set : nat -> example) n c, 0 < n -> wide f32_zero = 0%R ->
  exists f tested,
  (forall b layer flagged m o0, session st g shape params_of b ps layer -> 0 < b ->
    sized b (shape input 0) (o_data o0) -> sized b (shape out 0) (o_label o0) -> sized b (shape input 2) (o_helper o0) ->
    computes (graph_net f32_num g fuel flagged m input layer params_of out 0 (at_batch b (shape out 0))) ps o0 f) /\
  Forall2 (sample_pixels wide (d_width (shape out 0)) (d_height (shape out 0)) (d_maps (shape out 0)) f) (map set (seq 0 n)) tested /\
  forall G b layer flagged m (A : arith f32) gtb (shuffle : G -> list nat -> list nat * G) uniform training_sample testing_sample scaling ts dl
    (t : trainer f32 (res (bench R G))) es o0,
  session st g shape params_of b ps layer -> 
  sized b (shape input 0) (o_data o0) -> sized b (shape out 0) (o_label o0) -> sized b (shape input 2) (o_helper o0) ->
  map snd (layers t) = ps -> Evaluate_Spec.delivers testing_sample o0 b n set -> evaluable o0 b c -> ready R_num o0 b n c t ->
  Trainer_Model.batch_size dl = b -> testing_samples dl = n -> b <> 0 -> n <= scaling (n / b + 1) (testing_ratio ts) * b ->
  exists t' es', test_command A R_num wide f32_zero gtb shuffle uniform training_sample testing_sample
      (graph_net f32_num g fuel flagged m input layer params_of out 0 (at_batch b (shape out 0))) scaling Rltb Rdiv INR ts dl t es =
      Ok (if Rlt_dec (total R_num any (concat tested)) 1 then None
          else Some (overall_rate (concat tested), average_rate c (concat tested), average_iou c (concat tested)), t', es').
Proof.
  intros text st g input shape out fuel params_of ps b0 layer0 Hc Hf Run0 wide set n c Hn Wz.
  destruct (C91_function text st g input shape out fuel params_of ps b0 layer0 Hc Hf Run0) as (f & F).
  destruct (has_tested wide (d_width (shape out 0)) (d_height (shape out 0)) (d_maps (shape out 0)) f (map set (seq 0 n))) as (tested & HT). exists f, tested. split; [exact F|]. split; [exact HT|].
  intros G b layer flagged m A gtb shuffle uniform training_sample testing_sample scaling ts dl t es o0 Run Sd Sl Sh Ep Hs Ho Hr Eb En Nb L.
  assert (Cm := F b layer flagged m o0 Run (proj1 (Nat.neq_0_lt_0 b) Nb) Sd Sl Sh).
  destruct (test_spec A R_num wide f32_zero gtb shuffle uniform training_sample testing_sample _ o0 b n c set Hs Hn Ho ps f Cm scaling ts dl t es Eb Nb En Hr Ep L)
    as (t1 & es1 & l & o & ds & mx & tested' & fill & E & Ew & _ & _ & _ & _ & Cc & Cd & HT' & HZ & HC & HR & _).
  destruct Sl as (_ & _ & E1 & E2 & E3). rewrite E1, E2, E3 in HT'. assert (tested' = tested) by exact (same_tested wide _ _ _ f _ _ _ HT' HT). subst tested'.
  rewrite Wz in HZ. apply (counts_unweighted R_num mx _ fill Rplus_0_r HZ) in HC. apply Forall_app in HR as [HR _].
  destruct (cm_reset_counts R_num mx) as (mx' & Em & _). { destruct HC as (mt & pc & ? & ? & ? & _). eauto. }
  eexists _, es1. unfold test_command. rewrite E. cbn [bind]. rewrite Ew. cbn [bind b_matrix b_input].
  assert (Eu : cm_update_all R_num Rltb Rdiv INR mx = Ok (if Rlt_dec (total R_num any (concat tested)) 1 then None
          else Some (overall_rate (concat tested), average_rate c (concat tested), average_iou c (concat tested)))).
  { destruct (Rlt_dec (total R_num any (concat tested)) 1) as [Lt|Ge].
    - destruct HC as (mt & pc & _ & _ & _ & _ & _ & Et & _). unfold cm_update_all. rewrite Et. change (n1 R_num) with 1%R. now rewrite (proj2 (Rltb_true _ _) Lt).
    - rewrite <- Cc. apply update_all_spec; [exact HC|now rewrite Cc|]. now apply Rnot_lt_le. }
  rewrite Eu. cbn [bind]. rewrite Em. cbn [bind]. reflexivity.
Qed.
End Report.
Print Assumptions C91_function.
Print Assumptions C91_reports.

(** ** A test that meets the hypotheses *)
(** The network of C87_hypotheses with any weights, and two images of 4 by 4 pixels with labels of three classes, tested in batches of two. *)
Definition c91_tensor (b m : nat) : tensor f32 := tensor_of (at_batch b (c87_dims 4 m)) (repeat f32_one (size (at_batch b (c87_dims 4 m)))).
Definition c91_set : dataset := mkDataset [] [c91_tensor 1 1; c91_tensor 1 3; c91_tensor 1 1; c91_tensor 1 3] 4 4 1 3 [f32_one; f32_one; f32_one].
Definition c91_outputs : outputs f32 := mkOut (c91_tensor 2 1) (c91_tensor 2 3) (c91_tensor 2 2) (c91_tensor 2 1).
Definition c91_matrix : confusion R := mkCM 3 (Some (repeat 0%R 9, repeat 0%R 3)) 0%R 0%R false.
Definition c91_bench : bench R unit := mkBench (new_layer ex_shuffle true 2 0 2 f32_one tt, c91_outputs, []) c91_matrix.
Definition c91_trainer (ps : list (list (list f32))) : trainer f32 (res (bench R unit)) := mkTrainer (Ok c91_bench) (map (fun p => (f32_one, p)) ps) [] [] [] 0 true.
Notation c91_configured := (configured (fun _ => f32_one) f32_zero f32_one Z.of_nat ex_cfg ex_data 3%Z true).
Lemma c91_tensor_shape b m : 0 < b -> 0 < m -> shape_is (c91_tensor b m) b 4 4 m.
Proof. intros Hb Hm. unfold shape_is, wf, c91_tensor. cbn [tensor_of samples width height maps elements data at_batch d_samples d_width d_height d_maps c87_dims]. rewrite repeat_length. unfold size. cbn [d_samples d_width d_height d_maps at_batch c87_dims]. repeat split; try nia. Qed.

Example C91_hypotheses : forall w2 w4 w7 bias2 bias4 bias7,
  length w2 = 36 -> length w4 = 144 -> length w7 = 12 -> length bias2 = 4 -> length bias4 = 4 -> length bias7 = 3 ->
  let ps := map (map elements_of) (c90_tensors w2 bias2 w4 bias4 w7 bias7) in
  c91_configured ex_text c87_made c87_graph 0 c87_shape 9 /\
  (exists layer, c90_session 2 ps layer) /\
  sized 2 (c87_shape 0 0) (o_data c91_outputs) /\ sized 2 (c87_shape 9 0) (o_label c91_outputs) /\ sized 2 (c87_shape 0 2) (o_helper c91_outputs) /\
  map snd (layers (c91_trainer ps)) = ps /\
  (exists set, Evaluate_Spec.delivers (get_testing_sample ex_position ex_error ex_mul c91_set) c91_outputs 2 2 set) /\
  evaluable c91_outputs 2 3 /\ ready R_num c91_outputs 2 2 3 (c91_trainer ps).
Proof.
  intros w2 w4 w7 bias2 bias4 bias7 L1 L2 L3 L4 L5 L6 ps.
  assert (S : forall m, 0 < m -> shape_is (c91_tensor 2 m) 2 4 4 m) by (intros m Hm; apply c91_tensor_shape; lia).
  destruct (S 1) as (W1 & A1 & B1 & C1 & D1); [lia|]. destruct (S 2) as (W2 & A2 & B2 & C2 & D2); [lia|]. destruct (S 3) as (W3 & A3 & B3 & C3 & D3); [lia|].
  split; [|split; [|split; [|split; [|split; [|split; [|split; [|split]]]]]]].
  - exists ex_graph, true, 2, (mkNode (Some (mkKind false false true false)) [] [] 4 "data" false true), (LUpscale 2 2).
    split; [exact ex_healthy|]. split; [exact Factory_Props.ex_outputs|]. repeat (split; [reflexivity|]).
    split; [exact c87_readable|]. split; [apply plain_dec; vm_compute; reflexivity|]. split; [vm_compute; reflexivity|]. split; [lia|]. split; [vm_compute; reflexivity|].
    split; [rewrite c87_layers; cbn [In]; tauto|]. split; [discriminate|]. repeat split; cbn; lia.
  - destruct (c87_convolves 2 2 6 1) as (s2 & S2); [cbn; auto|lia|]. destruct (c87_convolves 4 2 4 4) as (s4 & S4); [cbn; auto|lia|]. destruct (c87_convolves 7 2 2 4) as (s7 & S7); [cbn; auto|lia|].
    exists (c87_layer 2 s2 s4 s7). split.
    + intros p l H. pose proof (c87_runs w2 w4 w7 bias2 bias4 bias7 L1 L2 L3 L4 L5 L6 2 s2 s4 s7 p l Nat.lt_0_2 S2 S4 S7 H) as Rn.
      replace (c90_params ps p) with (c87_params [[w2; bias2]; [w4; bias4]; [w7; bias7]] p); [exact Rn|].
      rewrite c87_layers in H. cbn [In] in H. decompose [or] H; try contradiction; match goal with E : _ = _ |- _ => injection E as <- <- end; reflexivity.
    + intros n Hn No. assert (n = 11) by (destruct c87_nodes as (N1 & N2 & _); rewrite N1 in No; rewrite N2 in Hn; rewrite in_seq in Hn, No; lia). subst n.
      rewrite (proj2 (proj2 c87_nodes)). exists 2, 64, []. reflexivity.
  - split; [exact W1|]. auto.
  - split; [exact W3|]. auto.
  - split; [exact W2|]. auto.
  - unfold c91_trainer. cbn [layers]. rewrite map_map. cbn [snd]. apply map_id.
  - assert (Of : outputs_for c91_set 2 c91_outputs) by (split; [|split; [|split]]; apply S; cbn; lia).
    destruct (C81_dataset ex_position ex_error ex_mul c91_set 2 c91_outputs Of) as (set & Hd & _); [cbn; lia| |exists set; exact Hd].
    intros i Hi. change (length (ds_testing c91_set) / 2) with 2 in Hi. exists (c91_tensor 1 1), (c91_tensor 1 3).
    assert (T : forall m, 0 < m -> shape_is (c91_tensor 1 m) 1 4 4 m) by (intros m Hm; apply c91_tensor_shape; lia).
    destruct (T 1) as (V1 & _); [lia|]. destruct (T 3) as (V3 & _); [lia|].
    destruct i as [|[|i]]; [| |lia]; (split; [reflexivity|]; split; [reflexivity|]; split; [exact V1|]; split; [exact V3|]; repeat split; cbn; lia).
  - split; [exact W3|]. split; [exact W1|]. repeat split; cbn; lia.
  - exists (new_layer ex_shuffle true 2 0 2 f32_one tt), c91_outputs, [], c91_matrix. split; [reflexivity|].
    split. { unfold shaped_like. repeat (split; [split; [assumption|apply same_shape_refl]|]). split; [assumption|apply same_shape_refl]. }
    repeat (split; [reflexivity|]).
    exists (repeat 0%R 9), (repeat 0%R 3). repeat (split; [reflexivity|]). split; [|split; [|split; reflexivity]].
    + intros p a Hp Ha. cbn [c91_matrix cm_classes] in *. destruct p as [|[|[|]]], a as [|[|[|]]]; try lia; reflexivity.
    + intros a Ha. cbn [c91_matrix cm_classes] in *. destruct a as [|[|[|]]]; try lia; reflexivity.
Qed.

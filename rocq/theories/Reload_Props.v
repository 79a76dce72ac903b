(** C90: a network predicts the same after its parameters were saved and loaded elsewhere. *)
From Coq Require Import Ascii String List.
From Verif Require Import Base BaseFacts Tensor_Model Tensor_Spec Tensor_Proofs Num Float32 FloatOps Pool_Model LRN_Model ConvLayer_Model ConvLayer_Spec
  DatasetInput_Model DatasetInput_Spec Evaluate_Spec Stream_Model NetParams_Model NetParams_Proofs NetParams_Props
  Backprop_Model BackpropLayers_Model Batch_Model Batch_Spec Batch_Proofs Batch_Props
  Str_Model Config_Model Graph_Model Graph_Spec Graph_Props Receptive_Model Factory_Model Factory_Spec FactoryRun_Proofs FactoryLines_Proofs Factory_Props
  ConfigNet_Model ConfigNet_Spec ConfigNet_Proofs ConfigNet_Props Reload_Spec Reload_Proofs.
Local Open Scope string_scope.
Local Open Scope list_scope.
Local Open Scope nat_scope.

Section Reload.
Variables (read_datum : str -> f32) (d0 d1 : f32) (rand : nat -> Z) (cfg : geo) (data : connection) (classes : Z) (add_loss_layer : bool).
Variables (O : order f32) (ndiv : f32 -> f32 -> f32) (nexp : f32 -> f32) (two : f32) (positive : f32 -> bool) (fraction : nat -> nat -> f32)
  (scale : f32 -> nat -> f32) (power power1 : f32 -> f32 -> f32).
Notation add_layers := (add_layers read_datum d0 d1 rand cfg data classes add_loss_layer).
Notation readable := (readable read_datum d0 d1 rand cfg data classes add_loss_layer).
Notation runs := (runs f32_num O ndiv nexp two positive fraction scale power power1).

(** The network [g] that was made of a configuration ([st]) is connected for batches of [b] samples and has the parameters [ps]: every layer of the
    configuration runs, with outputs of the shapes [shape], and the accumulation nodes do what they do.  What is in memory is arbitrary. *)
Definition session (st : fstate) (g : graph) (shape : nat -> nat -> dims) (params_of : list (list (list f32)) -> nat -> list (list f32))
    (b : nat) (ps : list (list (list f32))) (layer : nat -> behaviour f32) : Prop :=
  (forall p l, In (p, l) (f_made st) ->
     runs b (params_of ps p) l (map (delivers shape) (inputs_of (heap (f_graph st)) p)) (map (shape p) (seq 0 (Factory_Model.buffers_of l))) (layer p)) /\
  (forall n, In n (nodes g) -> ~ In n (nodes (f_graph st)) -> exists samples eps old,
     layer n = accumulation_behaviour f32_num (Backprop_Model.buffers_of (heap g) n) samples eps old).

(** A network that can run for batches of one size can run for batches of every size. *)
Theorem C90_batch_sizes : forall g0 text st complete g shape params_of ps layer b b',
  healthy g0 -> four_outputs g0 data -> Forall readable (lines_of text) -> Forall plain (lines_of text) -> add_layers text g0 = Ok (st, complete) ->
  session st g shape params_of b ps layer -> 0 < b' -> exists layer', session st g shape params_of b' ps layer'.
Proof.
  intros g0 text st complete g shape params_of ps layer b b' Hh Hd R P E (Run & Acc) Hb.
  destruct (layers_run read_datum d0 d1 rand cfg data classes add_loss_layer g0 text st complete Hh Hd R P E) as (_ & _ & Bt & _).
  set (Q := fun p l beh => runs b' (params_of ps p) l (map (delivers shape) (inputs_of (heap (f_graph st)) p)) (map (shape p) (seq 0 (Factory_Model.buffers_of l))) beh).
  destruct (choose Q (layer 0) (f_made st)) as (f & Hf).
  - rewrite (built_fresh _ _ _ Bt). apply seq_NoDup.
  - intros p l H. exact (runs_any _ _ _ _ _ _ _ _ _ _ b b' _ _ _ _ _ Hb (Run p l H)).
  - exists (fun n => if in_dec Nat.eq_dec n (map fst (f_made st)) then f n else layer n). split.
    + intros p l H. destruct (in_dec Nat.eq_dec p (map fst (f_made st))) as [_|N]; [exact (Hf p l H)|]. destruct N. apply in_map_iff. now exists (p, l).
    + intros n Hn No. destruct (in_dec Nat.eq_dec n (map fst (f_made st))) as [Y|_]; [|now apply Acc].
      destruct No. rewrite (built_nodes _ _ _ Bt). apply in_or_app. now right.
Qed.

Lemma holds_shown o s img hlp : wf (o_label o) -> wf (o_weight o) -> shows o s img hlp ->
  exists e, slot_holds o s e /\ e_image e = img /\ e_helper e = hlp.
Proof.
  intros Wl Ww (Hi & Hh). set (pic := fun t x y m => match at_pos t x y m s with Some v => v | None => f32_zero end).
  exists (mkExample img hlp (pic (o_label o)) (pic (o_weight o))). split; [|split; reflexivity].
  split; [exact Hi|]. split; [exact Hh|].
  split; intros x y m V; cbn [e_label e_weight]; unfold pic; [destruct (at_pos_some (o_label o) x y m s Wl V) as (v & ->)|destruct (at_pos_some (o_weight o) x y m s Ww V) as (v & ->)]; reflexivity.
Qed.

(** [g0]: only the dataset input layer [input].  [st]: what AddLayers makes of the text.  [g]: the network after Initialize.  It runs twice, perhaps in
    different processes: for batches of [b] and of [b'] samples, with whatever in memory.  An image that is in slot [s] of a batch [o] and in slot [s'] of a batch
    [o'] gets, bit for bit, the same outputs [out]: whatever the other samples, the labels and the weights of the two batches are. *)
Theorem C90_sessions : forall g0 text st complete g sweeps input ndata shape params_of ps layer layer' b b' out l fuel flagged flagged' m m' o o' s s' img hlp,
  healthy g0 -> four_outputs g0 data -> nodes g0 = [input] -> c_node data = Some input -> c_buffer data = 0 ->
  nth_error (heap g0) input = Some ndata -> n_is_input ndata = true -> n_buffers ndata = 4 ->
  Forall readable (lines_of text) -> Forall plain (lines_of text) -> add_layers text g0 = Ok (st, complete) ->
  2 <= sweeps -> insert_sweeps sweeps (f_graph st) = Ok g -> length (nodes g) < fuel ->
  session st g shape params_of b ps layer -> session st g shape params_of b' ps layer' ->
  In (out, l) (f_made st) -> (forall w, l <> LError w) ->
  0 < sample_size (shape input 0) -> 0 < sample_size (shape input 2) -> 0 < sample_size (shape out 0) ->
  s < b -> sized b (shape input 0) (o_data o) -> sized b (shape out 0) (o_label o) -> sized b (shape input 2) (o_helper o) -> wf (o_weight o) ->
  s' < b' -> sized b' (shape input 0) (o_data o') -> sized b' (shape out 0) (o_label o') -> sized b' (shape input 2) (o_helper o') -> wf (o_weight o') ->
  shows o s img hlp -> shows o' s' img hlp ->
  exists t losses t' losses',
    graph_net f32_num g fuel flagged m input layer params_of out 0 (at_batch b (shape out 0)) ps o = Ok (t, losses) /\
    graph_net f32_num g fuel flagged' m' input layer' params_of out 0 (at_batch b' (shape out 0)) ps o' = Ok (t', losses') /\
    sized b (shape out 0) t /\ sized b' (shape out 0) t' /\ same_sample t s t' s'.
Proof.
  intros g0 text st complete g sweeps input ndata shape params_of ps layer layer' b b' out l fuel flagged flagged' m m' o o' s s' img hlp
    Hh Hd Hn Hdn Hdb Ei Ii Bi R P E Hsw Hg Hf (Run & Acc) (Run' & Acc') Hout Nl Pd Ph Po Hs Sd Sl Sh Ww Hs' Sd' Sl' Sh' Ww' W W'.
  destruct (C90_batch_sizes g0 text st complete g shape params_of ps layer b 1 Hh Hd R P E (conj Run Acc) Nat.lt_0_1) as (layer1 & Run1 & Acc1).
  assert (Self : forall b1 (x : outputs f32), sized b1 (shape input 0) (o_data x) -> sized b1 (shape out 0) (o_label x) -> sized b1 (shape input 2) (o_helper x) -> wf (o_weight x) -> shaped_like x x).
  { intros b1 x X1 X2 X3 X4. unfold shaped_like, same_shape. unfold sized in *. intuition. }
  assert (Both : forall b1 lay1 fl me x s1, session st g shape params_of b1 ps lay1 -> s1 < b1 ->
    sized b1 (shape input 0) (o_data x) -> sized b1 (shape out 0) (o_label x) -> sized b1 (shape input 2) (o_helper x) -> wf (o_weight x) -> shows x s1 img hlp ->
    exists t losses, graph_net f32_num g fuel fl me input lay1 params_of out 0 (at_batch b1 (shape out 0)) ps x = Ok (t, losses) /\ sized b1 (shape out 0) t /\
      slot_is t s1 (prediction (graph_net f32_num g fuel flagged m input layer1 params_of out 0 (at_batch 1 (shape out 0)) ps
        (single (shape input 0) (shape out 0) (shape input 2) (shape input 3) img hlp)))).
  { intros b1 lay1 fl me x s1 (R1 & A1) L1 X1 X2 X3 X4 Sw.
    assert (Cm : computes (graph_net f32_num g fuel fl me input lay1 params_of out 0 (at_batch b1 (shape out 0))) ps x
        (fun img hlp => prediction (graph_net f32_num g fuel flagged m input layer1 params_of out 0 (at_batch 1 (shape out 0)) ps
           (single (shape input 0) (shape out 0) (shape input 2) (shape input 3) img hlp)))).
    { apply (C87_prediction read_datum d0 d1 rand cfg data classes add_loss_layer O ndiv nexp two positive fraction scale power power1
        g0 text st complete g sweeps input ndata shape params_of ps lay1 layer1 b1 out l fuel fl flagged me m x (shape input 3)); auto; try lia; [intros p l' H; cbn zeta; split; auto|].
      intros n H1 H2. destruct (A1 n H1 H2) as (a & e & od & Ea). destruct (Acc1 n H1 H2) as (a1 & e1 & od1 & Ea1). exists a, e, od, a1, e1, od1. auto. }
    destruct (Cm x (Self b1 x X1 X2 X3 X4)) as (t & losses & Et & Wt & (S1 & S2 & S3 & S4) & Hslot).
    destruct (holds_shown x s1 img hlp (proj1 X2) X4 Sw) as (e & He & <- & <-).
    exists t, losses. split; [exact Et|]. split; [|exact (Hslot s1 e He)]. unfold sized in *. intuition congruence. }
  destruct (Both b layer flagged m o s (conj Run Acc) Hs Sd Sl Sh Ww W) as (t & ls & Et & St & Vt).
  destruct (Both b' layer' flagged' m' o' s' (conj Run' Acc') Hs' Sd' Sl' Sh' Ww' W') as (t' & ls' & Et' & St' & Vt').
  exists t, ls, t', ls'. repeat (split; [assumption|]). unfold sized in St, St'. split; [intuition congruence|]. split; [intuition congruence|]. split; [intuition congruence|].
  intros x y k Hx Hy Hk. eexists. split; [apply Vt|apply Vt']; unfold valid_pos; intuition lia.
Qed.

(** The first session saves its parameters [saved]; another process, with a network made of the same configuration and any other parameters [cur], loads the file
    (NetGraph::SerializeParameters and DeserializeParameters).  From then on it predicts what the first session predicts. *)
Theorem C90_reload : forall g0 text st complete g sweeps input ndata shape params_of saved cur junk layer b b' out l fuel flagged flagged' m m' o o' s s' img hlp,
  let values := map (map elements_of) in
  healthy g0 -> four_outputs g0 data -> nodes g0 = [input] -> c_node data = Some input -> c_buffer data = 0 ->
  nth_error (heap g0) input = Some ndata -> n_is_input ndata = true -> n_buffers ndata = 4 ->
  Forall readable (lines_of text) -> Forall plain (lines_of text) -> add_layers text g0 = Ok (st, complete) ->
  2 <= sweeps -> insert_sweeps sweeps (f_graph st) = Ok g -> length (nodes g) < fuel ->
  saved <> [] -> map (@length _) saved = map (@length _) cur -> Forall (Forall wf) cur -> Forall (Forall storable) saved ->
  session st g shape params_of b (values saved) layer ->
  In (out, l) (f_made st) -> (forall w, l <> LError w) ->
  0 < sample_size (shape input 0) -> 0 < sample_size (shape input 2) -> 0 < sample_size (shape out 0) ->
  s < b -> sized b (shape input 0) (o_data o) -> sized b (shape out 0) (o_label o) -> sized b (shape input 2) (o_helper o) -> wf (o_weight o) ->
  s' < b' -> sized b' (shape input 0) (o_data o') -> sized b' (shape out 0) (o_label o') -> sized b' (shape input 2) (o_helper o') -> wf (o_weight o') ->
  shows o s img hlp -> shows o' s' img hlp ->
  exists loaded stream, deserialize_parameters junk cur 0 (open_file (serialize_parameters saved)) = Ok (loaded, stream) /\
    (exists layer', session st g shape params_of b' (values loaded) layer') /\
    forall layer', session st g shape params_of b' (values loaded) layer' ->
    exists t losses t' losses',
      graph_net f32_num g fuel flagged m input layer params_of out 0 (at_batch b (shape out 0)) (values saved) o = Ok (t, losses) /\
      graph_net f32_num g fuel flagged' m' input layer' params_of out 0 (at_batch b' (shape out 0)) (values loaded) o' = Ok (t', losses') /\
      sized b (shape out 0) t /\ sized b' (shape out 0) t' /\ same_sample t s t' s'.
Proof.
  intros g0 text st complete g sweeps input ndata shape params_of saved cur junk layer b b' out l fuel flagged flagged' m m' o o' s s' img hlp values
    Hh Hd Hn Hdn Hdb Ei Ii Bi R P E Hsw Hg Hf Ns Hl Hw Hst Run Hout Nl Pd Ph Po Hs Sd Sl Sh Ww Hs' Sd' Sl' Sh' Ww' W W'.
  destruct (C20_restore junk saved cur Ns Hl Hw Hst) as (stream & Es). exists saved, stream. split; [exact Es|].
  split; [apply (C90_batch_sizes g0 text st complete g shape params_of (values saved) layer b b'); auto; lia|].
  intros layer' Run'. now apply (C90_sessions g0 text st complete g sweeps input ndata shape params_of (values saved) layer layer' b b' out l fuel flagged flagged' m m' o o' s s' img hlp).
Qed.
End Reload.
Print Assumptions C90_batch_sizes.
Print Assumptions C90_sessions.
Print Assumptions C90_reload.

(** ** A network that meets the hypotheses *)
(** The network of C87_hypotheses with any weights: saved from batches of two samples, loaded where images come one at a time and all weights were 1. *)
Definition c90_params (ps : list (list (list f32))) (n : nat) : list (list f32) := nth n ps [].
Definition c90_tensors (w2 bias2 w4 bias4 w7 bias7 : list f32) : list (list (tensor f32)) :=
  [[]; []; [tensor_of (mkDims 4 3 3 1) w2; tensor_of (mkDims 1 4 1 1) bias2]; []; [tensor_of (mkDims 4 3 3 4) w4; tensor_of (mkDims 1 4 1 1) bias4]; []; [];
   [tensor_of (mkDims 3 1 1 4) w7; tensor_of (mkDims 1 3 1 1) bias7]; []; []; []; []].
Definition c90_cur := c90_tensors (repeat f32_one 36) (repeat f32_one 4) (repeat f32_one 144) (repeat f32_one 4) (repeat f32_one 12) (repeat f32_one 3).
Notation c90_session := (session f32_order fdiv (fun v => v) f32_one (fun v => fgt v f32_zero) (fun _ _ => f32_one)
    (fun _ _ => f32_one) (fun _ v => v) (fun _ v => v) c87_made c87_graph c87_shape c90_params).

Example C90_hypotheses : forall w2 w4 w7 bias2 bias4 bias7,
  length w2 = 36 -> length w4 = 144 -> length w7 = 12 -> length bias2 = 4 -> length bias4 = 4 -> length bias7 = 3 ->
  Forall f32_range w2 -> Forall f32_range w4 -> Forall f32_range w7 -> Forall f32_range bias2 -> Forall f32_range bias4 -> Forall f32_range bias7 ->
  let saved := c90_tensors w2 bias2 w4 bias4 w7 bias7 in
  exists layer, c90_session 2 (map (map elements_of) saved) layer /\
  forall o s img hlp, s < 2 -> sized 2 (c87_dims 4 1) (o_data o) -> sized 2 (c87_dims 4 3) (o_label o) -> sized 2 (c87_dims 4 2) (o_helper o) -> wf (o_weight o) ->
  shows o s img hlp ->
  exists loaded stream layer', deserialize_parameters (fun _ => f32_zero) c90_cur 0 (open_file (serialize_parameters saved)) = Ok (loaded, stream) /\
    c90_session 1 (map (map elements_of) loaded) layer' /\
    exists t losses t' losses',
      graph_net f32_num c87_graph 13 [] ex_memory 0 layer c90_params 9 0 (at_batch 2 (c87_dims 4 3)) (map (map elements_of) saved) o = Ok (t, losses) /\
      graph_net f32_num c87_graph 13 [] ex_memory 0 layer' c90_params 9 0 (at_batch 1 (c87_dims 4 3)) (map (map elements_of) loaded)
        (single (c87_dims 4 1) (c87_dims 4 3) (c87_dims 4 2) (c87_dims 4 1) img hlp) = Ok (t', losses') /\
      same_sample t s t' 0.
Proof.
  intros w2 w4 w7 bias2 bias4 bias7 L1 L2 L3 L4 L5 L6 F1 F2 F3 F4 F5 F6 saved.
  destruct (c87_convolves 2 2 6 1) as (s2 & S2); [cbn; auto|lia|]. destruct (c87_convolves 4 2 4 4) as (s4 & S4); [cbn; auto|lia|]. destruct (c87_convolves 7 2 2 4) as (s7 & S7); [cbn; auto|lia|].
  assert (Run : c90_session 2 (map (map elements_of) saved) (c87_layer 2 s2 s4 s7)).
  { split.
    - intros p l H. pose proof (c87_runs w2 w4 w7 bias2 bias4 bias7 L1 L2 L3 L4 L5 L6 2 s2 s4 s7 p l Nat.lt_0_2 S2 S4 S7 H) as Rn.
      replace (c90_params (map (map elements_of) saved) p) with (c87_params [[w2; bias2]; [w4; bias4]; [w7; bias7]] p); [exact Rn|].
      rewrite c87_layers in H. cbn [In] in H. decompose [or] H; try contradiction; match goal with E : _ = _ |- _ => injection E as <- <- end; reflexivity.
    - intros n Hn No. assert (n = 11) by (destruct c87_nodes as (N1 & N2 & _); rewrite N1 in No; rewrite N2 in Hn; rewrite in_seq in Hn, No; lia). subst n.
      rewrite (proj2 (proj2 c87_nodes)). exists 2, 64, []. reflexivity. }
  exists (c87_layer 2 s2 s4 s7). split; [exact Run|]. intros o s img hlp Hs Sd Sl Sh Ww W.
  destruct (C90_reload (fun _ => f32_one) f32_zero f32_one Z.of_nat ex_cfg ex_data 3%Z true f32_order fdiv (fun v => v) f32_one (fun v => fgt v f32_zero) (fun _ _ => f32_one)
    (fun _ _ => f32_one) (fun _ v => v) (fun _ v => v) ex_graph ex_text c87_made true c87_graph 2 0 (mkNode (Some (mkKind false false true false)) [] [] 4 "data" false true)
    c87_shape c90_params saved c90_cur (fun _ => f32_zero) (c87_layer 2 s2 s4 s7) 2 1 9 (LUpscale 2 2) 13 [] [] ex_memory ex_memory
    o (single (c87_dims 4 1) (c87_dims 4 3) (c87_dims 4 2) (c87_dims 4 1) img hlp) s 0 img hlp) as (loaded & stream & Es & (layer' & Run') & All).
  - exact ex_healthy.
  - exact ex_outputs.
  - reflexivity.
  - reflexivity.
  - reflexivity.
  - reflexivity.
  - reflexivity.
  - reflexivity.
  - exact c87_readable.
  - apply plain_dec. vm_compute. reflexivity.
  - vm_compute. reflexivity.
  - lia.
  - vm_compute. reflexivity.
  - rewrite (proj1 (proj2 c87_nodes)), seq_length. lia.
  - discriminate.
  - reflexivity.
  - repeat (constructor; [repeat (constructor; [split; [reflexivity|split; [reflexivity|cbn; lia]]|]); constructor|]). constructor.
  - assert (St : forall d v, length v = size d -> 0 < size d -> Forall f32_range v -> (Z.of_nat (d_samples d) < 2 ^ 64 /\ Z.of_nat (d_width d) < 2 ^ 64 /\ Z.of_nat (d_height d) < 2 ^ 64 /\ Z.of_nat (d_maps d) < 2 ^ 64)%Z -> storable (tensor_of d v)).
    { intros d v Lv Pd Fv Fit. split; [|exact Fit]. split; [|exact Fv]. split; [reflexivity|]. split; [exact Lv|exact Pd]. }
    repeat (constructor; [repeat (constructor; [apply St; [assumption|cbn; lia|assumption|cbn; lia]|]); constructor|]). constructor.
  - exact Run.
  - rewrite c87_layers. cbn [In]. tauto.
  - discriminate.
  - cbn; lia.
  - cbn; lia.
  - cbn; lia.
  - exact Hs.
  - exact Sd.
  - exact Sl.
  - exact Sh.
  - exact Ww.
  - lia.
  - apply paint_sized. cbn; lia.
  - apply paint_sized. cbn; lia.
  - apply paint_sized. cbn; lia.
  - apply paint_sized. cbn; lia.
  - exact W.
  - split; apply paint_slot.
  - destruct (All layer' Run') as (t & ls & t' & ls' & E1 & E2 & _ & _ & Sm). exists loaded, stream, layer'. split; [exact Es|]. split; [exact Run'|].
    exists t, ls, t', ls'. split; [exact E1|]. split; [exact E2|exact Sm].
Qed.

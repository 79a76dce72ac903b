(** C78: the networks of a hybrid training session. *)
From Coq Require Import Ascii String List.
From Verif Require Import Base BaseFacts Str_Model Str_Proofs Config_Model Graph_Model Graph_Spec GraphAdd_Proofs
  Receptive_Model Factory_Model Factory_Spec Factory_Proofs FactoryRun_Proofs FactoryLines_Proofs Factory_Props
  Hybrid_Model Hybrid_Spec Hybrid_Proofs HybridRun_Proofs HybridShape_Proofs.
Local Open Scope string_scope.
Local Open Scope list_scope.
Local Open Scope nat_scope.

(** The factory for testing never cuts patches. *)
Lemma line_patch_kept g line v : read_line false g line = Ok v -> g_patch v = g_patch g.
Proof.
  unfold read_line. destruct (compare0 line (s_ "#")); [now intros [= ->]|].
  unfold read_method. destruct (parse_string_param line (s_ "method") []) as [m| |]; cbn [bind]; try discriminate.
  replace (if compare0 m (s_ "patch") then g else g) with g by (now destruct (compare0 m (s_ "patch"))).
  destruct (read_manual line g) as [g2| |] eqn:E2; cbn [bind]; try discriminate.
  assert (P2 : g_patch g2 = g_patch g).
  { unfold read_manual in E2. destruct (compare0 line (s_ "manual")); [|now injection E2 as <-].
    repeat match type of E2 with bind ?r _ = _ => destruct r; cbn [bind] in E2; try discriminate E2 end.
    injection E2 as <-. now destruct (_ && _)%bool. }
  rewrite <- P2. clear E2 P2. unfold read_layer. destruct (_ && _); [|now intros [= ->]].
  destruct (substr line 1) as [l| |]; cbn [bind]; try discriminate.
  assert (C : forall a v, read_conv l a = Ok v -> g_patch v = g_patch a).
  { intros a w. unfold read_conv. destruct (starts_with_identifier _ _); [|now intros [= ->]].
    intros H. repeat match type of H with bind ?r _ = _ => destruct r; cbn [bind] in H; try discriminate H end. now injection H as <-. }
  assert (P : forall i a v, read_pool i l a = Ok v -> g_patch v = g_patch a).
  { intros i a w. unfold read_pool. destruct (starts_with_identifier _ _); [|now intros [= ->]].
    intros H. repeat match type of H with bind ?r _ = _ => destruct r; cbn [bind] in H; try discriminate H end. now injection H as <-. }
  assert (Ap : forall a v, read_apool l a = Ok v -> g_patch v = g_patch a).
  { intros a w. unfold read_apool. destruct (starts_with_identifier _ _); [|now intros [= ->]].
    intros H. repeat match type of H with bind ?r _ = _ => destruct r; cbn [bind] in H; try discriminate H end. now injection H as <-. }
  destruct (read_conv l g2) as [a1| |] eqn:F1; cbn [bind]; try discriminate.
  destruct (read_pool (s_ "maxpooling") l a1) as [a2| |] eqn:F2; cbn [bind]; try discriminate.
  destruct (read_pool (s_ "downsampling") l a2) as [a3| |] eqn:F3; cbn [bind]; try discriminate.
  intros F4. now rewrite (Ap _ _ F4), (P _ _ _ F3), (P _ _ _ F2), (C _ _ F1).
Qed.
Lemma testing_whole text cfg : factory false text = Ok cfg -> g_patch cfg = false.
Proof.
  unfold factory. intros H. destruct (foldm (read_line false) (lines_of text) geo0) as [v| |] eqn:E; cbn [bind] in H; try discriminate H.
  assert (P : g_patch v = false).
  { assert (K : forall ls a w, foldm (read_line false) ls a = Ok w -> g_patch w = g_patch a).
    { induction ls as [|l ls IH]; intros a w; cbn [foldm]; [now intros [= ->]|].
      destruct (read_line false a l) as [x| |] eqn:Ex; cbn [bind]; try discriminate. intros Hw. rewrite (IH _ _ Hw). exact (line_patch_kept _ _ _ Ex). }
    exact (K _ _ _ E). }
  rewrite P in H. cbn [bind] in H. repeat match type of H with bind ?r _ = _ => destruct r; cbn [bind] in H; try discriminate H end. now injection H as <-.
Qed.

Section Props.
Context {D : Type} (read_datum : str -> D) (d0 d1 : D) (rand : nat -> Z).
Variables (data data' : connection) (classes : Z) (g g' : graph) (text : str) (cfg cfg' : geo).
Notation training := (assemble read_datum d0 d1 rand true text data classes g).
Notation testing := (assemble read_datum d0 d1 rand false text data' classes g').

Lemma session : factory true text = Ok cfg -> g_patch cfg = true -> factory false text = Ok cfg' ->
  only_data g data -> only_data g' data' -> Forall neutral (lines_of text) ->
  match training, testing with
  | Ok (st, b), Ok (st', b') => b = b' /\ exists tw ex, both cfg cfg' data data' g g' st st' tw ex
  | Fatal, Fatal | UB, UB => True
  | _, _ => False
  end.
Proof.
  intros E1 Hp E2 [H1 H2 H3 H4 H5] [H1' H2' H3' H4' H5'] Hn. pose proof (testing_whole _ _ E2) as Hf.
  unfold assemble. rewrite E1, E2. cbn [bind]. unfold add_layers.
  destruct (start_both (D := D) cfg cfg' data data' g g' Hp H1 H2 H1' H2' H3 H3') as (s0 & s0' & tw0 & ex0 & -> & -> & B0). cbn [bind].
  pose proof (lines_both read_datum d0 d1 rand cfg cfg' data data' classes true g g' Hp Hf (lines_of text) Hn s0 s0' tw0 ex0 B0) as Ag. unfold agrees in Ag.
  destruct (foldm _ _ s0) as [st| |], (foldm _ _ s0') as [st'| |]; try contradiction; cbn [bind]; try exact I.
  destruct Ag as (tw & ex & Bo). pose proof (both_sim _ _ _ _ _ _ _ _ _ _ Bo) as S.
  destruct (healthy_complete (f_graph st) (good_graph _ _ _ (sim_good _ _ _ _ _ _ _ _ S))) as (b & -> & Hb).
  destruct (healthy_complete (f_graph st') (good_graph _ _ _ (sim_good' _ _ _ _ _ _ _ _ S))) as (b' & -> & Hb'). cbn [bind].
  split; [|now exists tw, ex].
  assert (In1 : forall gg g0 (md : list (nat * @layer D)), built g0 gg md -> (exists n nd, In n (nodes g0) /\ nth_error (heap g0) n = Some nd /\ n_is_input nd = true) ->
    exists n nd, In n (nodes gg) /\ nth_error (heap gg) n = Some nd /\ n_is_input nd = true).
  { intros gg g0 md Bt (n & nd & Hi & En & Ei). destruct (built_same _ _ _ Bt n nd En) as (m & Em & Sm). exists n, m.
    split; [rewrite (built_nodes _ _ _ Bt); apply in_or_app; now left|]. split; [exact Em|]. destruct Sm as (_ & _ & _ & _ & _ & Hs). congruence. }
  assert (Out : forall gg g0 (md : list (nat * @layer D)), healthy g0 -> built g0 gg md -> (forall n nd, In n (nodes g0) -> nth_error (heap g0) n = Some nd -> n_is_output nd = false) ->
    (exists n nd, In n (nodes gg) /\ nth_error (heap gg) n = Some nd /\ n_is_output nd = true) <-> outputs_of gg md <> []).
  { intros gg g0 md Hg Bt Hno. split.
    - intros (n & nd & Hi & En & Eo) E. rewrite (built_nodes _ _ _ Bt) in Hi. apply in_app_or in Hi. destruct Hi as [Hi|Hi].
      + destruct (sound_closed _ (healthy_sound _ Hg) n Hi) as (m & Em & _). destruct (built_same _ _ _ Bt n m Em) as (m' & Em' & Sm).
        rewrite En in Em'. injection Em' as <-. destruct Sm as (_ & _ & _ & _ & Hs & _). rewrite (Hno n m Hi Em) in Hs. congruence.
      + assert (Hin : In n (outputs_of gg md)) by (apply filter_In; split; [exact Hi|unfold node_has; now rewrite En]). rewrite E in Hin. destruct Hin.
    - intros Ne. destruct (outputs_of gg md) as [|q qs] eqn:Eq; [congruence|]. assert (Hin : In q (outputs_of gg md)) by (rewrite Eq; now left).
      apply filter_In in Hin. destruct Hin as [Hin Ho]. unfold node_has in Ho. destruct (nth_error (heap gg) q) as [m|] eqn:Em; [|discriminate].
      exists q, m. split; [rewrite (built_nodes _ _ _ Bt); apply in_or_app; now right|auto]. }
  pose proof (In1 _ _ _ (both_built _ _ _ _ _ _ _ _ _ _ Bo) H4) as I1. pose proof (In1 _ _ _ (both_built' _ _ _ _ _ _ _ _ _ _ Bo) H4') as I1'.
  pose proof (Out _ _ _ H1 (both_built _ _ _ _ _ _ _ _ _ _ Bo) H5) as O1. pose proof (Out _ _ _ H1' (both_built' _ _ _ _ _ _ _ _ _ _ Bo) H5') as O1'.
  assert (Oq : outputs_of (f_graph st) (f_made st) <> [] <-> outputs_of (f_graph st') (f_made st') <> []).
  { destruct (both_outs _ _ _ _ _ _ _ _ _ _ Bo); [tauto|split; discriminate]. }
  assert (Bb : b = true <-> b' = true) by tauto. destruct b, b'; try reflexivity; exfalso; destruct Bb as [X Y]; [discriminate (X eq_refl)|discriminate (Y eq_refl)].
Qed.

Lemma both_image (st st' : @fstate D) tw ex : both cfg cfg' data data' g g' st st' tw ex -> image_version cfg' data data' st st'.
Proof.
  intros [S Bt Bt' O]. exists tw, ex. split; [apply S|]. split; [apply S|]. split; [|exact O]. intros p p' Hi.
  pose proof (sim_twins _ _ _ _ _ _ _ _ S) as F. rewrite Forall_forall in F. exact (F (p, p') Hi).
Qed.

(** In hybrid mode the configuration is accepted for both networks or for none, and checking the first network for
    completeness checks both (trainNetwork.cpp:204 tests the result for the first one twice). The network for testing is the network for training with layers for whole images in between. *)
Theorem C78_same_network : factory true text = Ok cfg -> g_patch cfg = true -> factory false text = Ok cfg' ->
  only_data g data -> only_data g' data' -> Forall neutral (lines_of text) ->
  match training, testing with
  | Ok (st, b), Ok (st', b') => b = b' /\ image_version cfg' data data' st st'
  | Fatal, Fatal | UB, UB => True
  | _, _ => False
  end.
Proof.
  intros E1 Hp E2 Hd Hd' Hn. pose proof (session E1 Hp E2 Hd Hd' Hn) as S.
  destruct training as [[st b]| |], testing as [[st' b']| |]; try exact S. destruct S as (Eb & tw & ex & Bo). split; [exact Eb|].
  exact (both_image _ _ _ _ Bo).
Qed.

(** Apart from borders and magnification, both networks have the same layers in the same order. *)
Definition resizes (l : @layer D) : bool := match l with LResize _ _ | LUpscale _ _ => true | _ => false end.
Theorem C78_same_layers : forall st st' b b', factory true text = Ok cfg -> g_patch cfg = true -> factory false text = Ok cfg' ->
  only_data g data -> only_data g' data' -> Forall neutral (lines_of text) ->
  training = Ok (st, b) -> testing = Ok (st', b') ->
  filter (fun l => negb (resizes l)) (map snd (f_made st)) = filter (fun l => negb (resizes l)) (map snd (f_made st')).
Proof.
  intros st st' b b' E1 Hp E2 Hd Hd' Hn T T'. pose proof (C78_same_network E1 Hp E2 Hd Hd' Hn) as S. rewrite T, T' in S.
  destruct S as (_ & tw & ex & Al & Ex & _). revert Ex. induction Al as [|m m' tw ex p p' l _ IH|m m' tw ex p' l _ IH]; intros Ex.
  - reflexivity.
  - rewrite !map_app, !filter_app, (IH Ex). reflexivity.
  - apply Forall_app in Ex as [Ex1 Ex2]. rewrite !map_app, !filter_app, (IH Ex1). inversion Ex2 as [|? ? W _]; subst. cbn [map snd filter].
    destruct W as [W|W]; cbn [snd] in W; rewrite W; cbn; now rewrite app_nil_r.
Qed.

(** The networks have the same parameters: as many, in the same order and of the same sizes, if their images have the same number of
    channels (and the other data the same number of maps).  So the weights of the first network fit the second one. *)
Theorem C78_same_parameters : forall st st' b b' source source' ps ps', factory true text = Ok cfg -> g_patch cfg = true -> factory false text = Ok cfg' ->
  only_data g data -> only_data g' data' -> Forall neutral (lines_of text) ->
  training = Ok (st, b) -> testing = Ok (st', b') -> (forall i, d_maps (source i) = d_maps (source' i)) ->
  parameters (heap (f_graph st)) (f_made st) data source ps -> parameters (heap (f_graph st')) (f_made st') data' source' ps' ->
  concat ps = concat ps'.
Proof.
  intros st st' b b' source source' ps ps' E1 Hp E2 Hd Hd' Hn T T' Hs P P'. pose proof (session E1 Hp E2 Hd Hd' Hn) as S. rewrite T, T' in S.
  destruct S as (_ & tw & ex & Bo). pose proof (both_sim _ _ _ _ _ _ _ _ _ _ Bo) as S.
  assert (Fresh : forall gg g0 (md : list (nat * @layer D)) dt, only_data g0 dt -> built g0 gg md -> NoDup (map fst md) /\ forall p, In p (map fst md) -> c_node dt <> Some p).
  { intros gg g0 md dt Od Bt. rewrite (built_fresh _ _ _ Bt). split; [apply seq_NoDup|]. intros p Hi E. apply in_seq in Hi.
    destruct (inside_lt g0 dt (data_healthy _ _ Od) (proj1 (data_outputs _ _ Od))) as (q & Eq & _ & Lq). rewrite E in Eq. injection Eq as <-. lia. }
  destruct (Fresh _ _ _ _ Hd (both_built _ _ _ _ _ _ _ _ _ _ Bo)) as [N F]. destruct (Fresh _ _ _ _ Hd' (both_built' _ _ _ _ _ _ _ _ _ _ Bo)) as [N' F'].
  apply (same_parameters cfg' (heap (f_graph st)) (heap (f_graph st')) data data' (f_made st) (f_made st') tw ex source source'); auto; try apply S.
  intros p p' Hi. pose proof (sim_twins _ _ _ _ _ _ _ _ S) as Ft. rewrite Forall_forall in Ft. exact (Ft (p, p') Hi).
Qed.
End Props.
Print Assumptions C78_same_network.
Print Assumptions C78_same_layers.
Print Assumptions C78_same_parameters.

(** A configuration with a branch, a spatial prior and all layers whose meaning depends on the network, trained on patches of 10x10
    pixels and tested on images of 32x48. *)
Definition hybrid_text : str := concat (map (fun l => s_ l ++ ["010"%char])
  ["method=patch"; "# two branches"; "?convolutional size=3x3 kernels=4"; "?relu"; "pusha"; "?convolutional size=3x3 kernels=4 pad=1x1 group=2";
   "pusha"; "?sum stack=a"; "?maxpooling size=2x2"; "?convolutional size=4x4 kernels=6"; "?flatten"; "?fullyconnected neurons=(o)"; "?output"]).
Definition hybrid_patches (i : nat) : dims := match i with 0 => mkDims 8 10 10 3 | 1 => mkDims 8 1 1 3 | 2 => mkDims 8 1 1 2 | _ => mkDims 8 1 1 1 end.
Definition hybrid_images (i : nat) : dims := match i with 0 => mkDims 1 32 48 3 | 1 => mkDims 1 32 48 3 | 2 => mkDims 1 32 48 2 | _ => mkDims 1 32 48 1 end.
Lemma ex_only_data : only_data ex_graph ex_data.
Proof.
  constructor; [exact ex_healthy|exact ex_outputs|reflexivity|eexists 0, _; repeat split; now left|].
  intros [|n] nd [H|[]] E; [|discriminate H]. now injection E as <-.
Qed.
Definition neutralb (line : str) : bool :=
  negb (mentionsb "flatten" line) || (starts (s_ "?flatten") line && negb (mentionsb "(o)" line) && negb (mentionsb "fullyconnected" line)).
Lemma neutral_dec lines : forallb neutralb lines = true -> Forall neutral lines.
Proof.
  intros H. apply Forall_forall. intros l Hl. rewrite forallb_forall in H. specialize (H l Hl). unfold neutralb in H. apply Bool.orb_true_iff in H. destruct H as [H|H].
  - left. apply mentions_dec. now destruct (mentionsb "flatten" l).
  - right. apply Bool.andb_true_iff in H. destruct H as [H H3]. apply Bool.andb_true_iff in H. destruct H as [H1 H2].
    split; [now apply begins_iff|]. split; apply mentions_dec; [now destruct (mentionsb "(o)" l)|now destruct (mentionsb "fullyconnected" l)].
Qed.
Notation ex_assemble := (assemble (D := Z) (fun _ => 0%Z) 0%Z 1%Z Z.of_nat).
Example C78_witness :
  factory true hybrid_text = Ok (mkGeo (mkAxis 10 2) (mkAxis 10 2) false true) /\ factory false hybrid_text = Ok (mkGeo (mkAxis 8 2) (mkAxis 8 2) false false) /\
  only_data ex_graph ex_data /\ Forall neutral (lines_of hybrid_text) /\ (forall i, d_maps (hybrid_patches i) = d_maps (hybrid_images i)) /\
  exists st st' ps ps',
    ex_assemble true hybrid_text ex_data 3%Z ex_graph = Ok (st, true) /\ ex_assemble false hybrid_text ex_data 3%Z ex_graph = Ok (st', true) /\
    map snd (f_made st) = [LConvolution 3 3 4 1 1 0 0 1 0 0%Z 1%Z; LReLU; LConvolution 3 3 4 1 1 1 1 2 1 0%Z 1%Z; LSum; LMaxPooling 2 2;
      LConvolution 4 4 6 1 1 0 0 1 2 0%Z 1%Z; LConvolution 1 1 3 1 1 0 0 1 3 0%Z 1%Z; LSigmoid; LError 1%Z] /\
    map snd (f_made st') = [LResize 8 8; LConvolution 3 3 4 1 1 0 0 1 0 0%Z 1%Z; LReLU; LConvolution 3 3 4 1 1 1 1 2 1 0%Z 1%Z; LSum; LMaxPooling 2 2;
      LConvolution 4 4 6 1 1 0 0 1 2 0%Z 1%Z; LConvolution 1 1 3 1 1 0 0 1 3 0%Z 1%Z; LSigmoid; LUpscale 2 2; LError 1%Z] /\
    parameters (heap (f_graph st)) (f_made st) ex_data hybrid_patches ps /\ parameters (heap (f_graph st')) (f_made st') ex_data hybrid_images ps' /\
    concat ps = [mkDims 4 3 3 3; mkDims 1 4 1 1; mkDims 4 3 3 2; mkDims 1 4 1 1; mkDims 6 4 4 4; mkDims 1 6 1 1; mkDims 3 1 1 6; mkDims 1 3 1 1].
Proof.
  split; [vm_compute; reflexivity|]. split; [vm_compute; reflexivity|]. split; [exact ex_only_data|]. split; [apply neutral_dec; vm_compute; reflexivity|].
  split; [now intros [|[|[|i]]]|].
  destruct (ex_assemble true hybrid_text ex_data 3%Z ex_graph) as [[st b]| |] eqn:E; [|vm_compute in E; discriminate E..].
  destruct (ex_assemble false hybrid_text ex_data 3%Z ex_graph) as [[st' b']| |] eqn:E'; [|vm_compute in E'; discriminate E'..].
  vm_compute in E, E'. injection E as <- <-. injection E' as <- <-.
  do 2 eexists. eexists. eexists. split; [reflexivity|]. split; [reflexivity|]. split; [reflexivity|]. split; [reflexivity|].
  split; [apply sizes_parameters; vm_compute; reflexivity|]. split; [apply sizes_parameters; vm_compute; reflexivity|]. reflexivity.
Qed.

(** Finding: a layer line in which the word flatten merely occurs (here in a parameter nobody reads) is dropped from the network that is tested
    and kept in the network that is trained, so the two networks of a hybrid session have different layers and the parameters are shadowed
    across different layers (NetGraph::GetParameters by position) or not at all (ConfigurableFactory.cpp:203-208). *)
Definition odd_text : str := concat (map (fun l => s_ l ++ ["010"%char])
  ["method=patch"; "?convolutional size=3x3 kernels=4"; "?convolutional size=1x1 kernels=2 name=flatten1"; "?fullyconnected neurons=(o)"; "?output"]).
Theorem C78_mentioned_flatten_refuted :
  ~ forall text st st' b b',
    ex_assemble true text ex_data 3%Z ex_graph = Ok (st, b) -> ex_assemble false text ex_data 3%Z ex_graph = Ok (st', b') ->
    filter (fun l => negb (resizes l)) (map snd (f_made st)) = filter (fun l => negb (resizes l)) (map snd (f_made st')).
Proof.
  intros H. specialize (H odd_text).
  destruct (ex_assemble true odd_text ex_data 3%Z ex_graph) as [[st b]| |] eqn:E; [|vm_compute in E; discriminate E..].
  destruct (ex_assemble false odd_text ex_data 3%Z ex_graph) as [[st' b']| |] eqn:E'; [|vm_compute in E'; discriminate E'..].
  specialize (H st st' b b' eq_refl eq_refl). vm_compute in E, E'. injection E as <- <-. injection E' as <- <-. vm_compute in H. discriminate H.
Qed.
Print Assumptions C78_mentioned_flatten_refuted.

(** C86: what a network computes in floats is close to what it would compute with exact arithmetic. *)
From Coq Require Import ZArith Bool Lia Reals Lra Relations String.
From Flocq Require Import Core.Core IEEE754.BinarySingleNaN.
From Verif Require Import Base BaseFacts Float32 FloatOps Tensor_Model Tensor_Spec Num RealNum Act_Model Act_Spec Pool_Model Layers_Model ConvLayer_Model ConvLayer_Spec ConvReady_Proofs Conv_Props
  Graph_Model Graph_Spec Graph_Proofs Graph_Props Backprop_Model Backprop_Spec Backprop_Proofs BackpropLayers_Model BackpropLayers_Spec
  Batch_Model Batch_Spec Batch_Proofs Float64_Flocq FloatNonneg Rounding_Spec Rounding_Proofs NetError_Proofs NetExp_Proofs.
Local Open Scope list_scope.
Local Open Scope R_scope.

(** ** The layers *)
(** Inputs that are loaded: of the floats that are loaded the exact network uses the values. *)
Theorem C86_input loaded1 loaded2 ps qs outs : all_near outs loaded1 loaded2 ->
  stays_close (input_behaviour f32_num loaded1) (input_behaviour R_num loaded2) ps qs [] outs.
Proof. intros H x y _. exact H. Qed.

(** The rectifier adds no error. *)
Theorem C86_rectifier d most error old1 old2 od1 od2 ps qs : (0 < size d)%nat -> length old1 = size d -> length old2 = size d ->
  stays_close (rectifier_layer f32_num (fun v => fgt v f32_zero) d old1 od1) (rectifier_layer R_num R_positive d old2 od2) ps qs
    [Some (mkQuality d most error)] [Some (mkQuality d most error)].
Proof. intros P L1 L2. apply act_close; auto. apply rectify_close. Qed.

(** The logistic function divides errors by 4 and adds its own; [nexp] is the exponential function of the C++ library. *)
Theorem C86_sigmoid nexp range delta d most error old1 old2 od1 od2 ps qs : accurate_exp nexp range delta -> range <= 64 -> 0 <= delta <= / 1024 ->
  most + error <= range -> (0 < size d)%nat -> length old1 = size d -> length old2 = size d ->
  stays_close (sigmoid_layer f32_num fdiv nexp d old1 od1) (sigmoid_layer R_num Rdiv exp d old2 od2) ps qs
    [Some (mkQuality d most error)] [Some (mkQuality d 1 (error / 4 + 2 * delta + 7 / IZR (2 ^ 24)))].
Proof. intros He Hr Hd Hm P L1 L2. apply act_close; auto. intros a r H. exact (sigmoid_close nexp range delta He Hr Hd most error a r H Hm). Qed.

(** The hyperbolic tangent does not enlarge errors; it adds its own. *)
Theorem C86_tanh nexp range delta d most error old1 old2 od1 od2 ps qs : accurate_exp nexp range delta -> range <= 64 -> 0 <= delta <= / 1024 ->
  2 * (most + error) <= range -> (0 < size d)%nat -> length old1 = size d -> length old2 = size d ->
  stays_close (tanh_layer f32_num fdiv nexp (f_of_Z 2) d old1 od1) (tanh_layer R_num Rdiv exp 2 d old2 od2) ps qs
    [Some (mkQuality d most error)] [Some (mkQuality d 1 (error + 4 * delta + 16 / IZR (2 ^ 24)))].
Proof. intros He Hr Hd Hm P L1 L2. apply act_close; auto. intros a r H. exact (tangent_close nexp range delta He Hr Hd most error a r H Hm). Qed.

(** A sum has the errors of both inputs and one rounding. *)
Theorem C86_sum d m1 e1 m2 e2 old1 old2 a1 a2 c1 c2 ps qs : (0 < size d)%nat -> length old1 = size d -> length old2 = size d ->
  m1 + e1 + m2 + e2 <= IZR (2 ^ 127) ->
  stays_close (sum_behaviour f32_num d old1 a1 c1) (sum_behaviour R_num d old2 a2 c2) ps qs
    [Some (mkQuality d m1 e1); Some (mkQuality d m2 e2)]
    [Some (mkQuality d (m1 + m2) (e1 + e2 + (m1 + e1 + m2 + e2) / IZR (2 ^ 24) + / IZR (2 ^ 150)))].
Proof. apply sum_near. Qed.

Theorem C86_concatenation da db m1 e1 m2 e2 old1 old2 a1 a2 c1 c2 ps qs : (0 < size da)%nat -> (0 < size db)%nat ->
  d_samples da = d_samples db -> d_width da = d_width db -> d_height da = d_height db ->
  length old1 = size (concat_dims da db) -> length old2 = size (concat_dims da db) ->
  stays_close (concat_behaviour f32_num da db old1 a1 c1) (concat_behaviour R_num da db old2 a2 c2) ps qs
    [Some (mkQuality da m1 e1); Some (mkQuality db m2 e2)] [Some (mkQuality (concat_dims da db) (Rmax m1 m2) (Rmax e1 e2))].
Proof. apply concat_near. Qed.

Theorem C86_border bx by_ d most error old1 old2 od1 od2 ps qs : (0 < size d)%nat ->
  length old1 = size (border_dims bx by_ d) -> length old2 = size (border_dims bx by_ d) ->
  stays_close (border_behaviour f32_num bx by_ d old1 od1) (border_behaviour R_num bx by_ d old2 od2) ps qs
    [Some (mkQuality d most error)] [Some (mkQuality (border_dims bx by_ d) most error)].
Proof. apply border_near. Qed.

(** The coordinates x / width and y / height are rounded. *)
Theorem C86_prior d most error old1 old2 od1 od2 ps qs : (0 < size d)%nat -> (Z.of_nat (d_width d) < 2 ^ 24)%Z -> (Z.of_nat (d_height d) < 2 ^ 24)%Z ->
  length old1 = size (prior_dims d) -> length old2 = size (prior_dims d) ->
  stays_close (prior_behaviour f32_num (fun i n => fdiv (f_of_Z (Z.of_nat i)) (f_of_Z (Z.of_nat n))) d old1 od1) (prior_behaviour R_num (fun i n => INR i / INR n) d old2 od2) ps qs
    [Some (mkQuality d most error)] [Some (mkQuality (prior_dims d) (Rmax most 1) (Rmax error (/ IZR (2 ^ 23))))].
Proof. intros P W H L1 L2. apply prior_near; auto. intros i n Hi [->| ->]; apply ratio_close; lia. Qed.

Theorem C86_upscale rw rh d most error old1 old2 od1 od2 ps qs : (0 < rw)%nat -> (0 < rh)%nat -> (0 < size d)%nat ->
  length old1 = size (upscale_dims rw rh d) -> length old2 = size (upscale_dims rw rh d) ->
  stays_close (upscale_behaviour f32_num rw rh d old1 od1) (upscale_behaviour R_num rw rh d old2 od2) ps qs
    [Some (mkQuality d most error)] [Some (mkQuality (upscale_dims rw rh d) most error)].
Proof. apply upscale_near. Qed.

(** The maximum may be found elsewhere, but its value is as close. *)
Theorem C86_pooling rw rh d most error ix1 ix2 iy1 iy2 old1 old2 od1 od2 ps qs :
  (0 < rw)%nat -> (0 < rh)%nat -> (d_width d mod rw = 0)%nat -> (d_height d mod rh = 0)%nat -> (0 < size d)%nat ->
  let o := pool_dims rw rh d in
  length ix1 = size o -> length iy1 = size o -> length old1 = size o -> length ix2 = size o -> length iy2 = size o -> length old2 = size o -> most <= IZR (2 ^ 127) ->
  stays_close (pool_behaviour f32_num f32_order rw rh d ix1 iy1 old1 od1) (pool_behaviour R_num R_order rw rh d ix2 iy2 old2 od2) ps qs
    [Some (mkQuality d most error)] [Some (mkQuality o most error)].
Proof. apply pool_near. Qed.

Theorem C86_strided_pooling rw rh sw sh d o most error mask1 mask2 old1 old2 od1 od2 ps qs : (0 < rw)%nat -> (0 < rh)%nat -> (0 < sw)%nat -> (0 < sh)%nat ->
  o = strided_dims rw rh sw sh d -> (0 < size d)%nat -> (0 < size o)%nat ->
  length mask1 = size o -> length old1 = size o -> length mask2 = size o -> length old2 = size o -> most <= IZR (2 ^ 127) ->
  stays_close (strided_behaviour f32_num f32_order rw rh sw sh d o mask1 old1 od1) (strided_behaviour R_num R_order rw rh sw sh d o mask2 old2 od2) ps qs
    [Some (mkQuality d most error)] [Some (mkQuality o most error)].
Proof. apply strided_near. Qed.

(** A convolution without dropout, connected for floats and for exact numbers. *)
Theorem C86_convolution c d o st1 st2 old1 old2 od1 od2 ps qs weight bias most error :
  convolves f32_num c d o st1 old1 -> convolves R_num c d o st2 old2 -> parameters_within c d weight bias ps qs ->
  (0 < size d)%nat -> (0 < size (weights_dims c d))%nat -> (0 < size o)%nat ->
  (Z.of_nat (cv_kw c * cv_kh c * (d_maps d / cv_group c)) <= 2 ^ 20)%Z -> bias + weight * (most + error) <= IZR (2 ^ 124) ->
  stays_close (conv_behaviour f32_num c d st1 old1 od1) (conv_behaviour R_num c d st2 old2 od2) ps qs
    [Some (mkQuality d most error)] [Some (convolved c d o weight bias most error)].
Proof.
  intros ((wt1 & bb1 & R1) & E1 & L1) ((wt2 & bb2 & R2) & E2 & L2) Hp Pd Pw Po Hk Hb x y H.
  apply near_one in H as (l & r & -> & -> & H). apply near_single. cbn [b_outputs conv_behaviour nth].
  assert (0 < cv_omaps c)%nat by (rewrite E1 in Po; unfold size in Po; cbn [d_samples d_width d_height d_maps] in Po; destruct (cv_omaps c); [rewrite ?Nat.mul_0_r, ?Nat.mul_0_l in Po|]; lia).
  rewrite E1 in *. eapply (conv_near c false f32_zero 0); eauto; [exact rep32_zero|lra].
Qed.
(** With dropout in testing mode: the output is scaled, nothing is dropped. *)
Theorem C86_testing_convolution c dropout p d o st1 st2 old1 old2 ps qs weight bias most error : value dropout p -> 0 <= p <= 1 ->
  convolves f32_num c d o st1 old1 -> convolves R_num c d o st2 old2 -> parameters_within c d weight bias ps qs ->
  (0 < size d)%nat -> (0 < size (weights_dims c d))%nat -> (0 < size o)%nat ->
  (Z.of_nat (cv_kw c * cv_kh c * (d_maps d / cv_group c)) <= 2 ^ 20)%Z -> bias + weight * (most + error) <= IZR (2 ^ 124) ->
  stays_close (testing_conv_behaviour f32_num c dropout d st1 old1) (testing_conv_behaviour R_num c p d st2 old2) ps qs
    [Some (mkQuality d most error)] [Some (convolved c d o weight bias most error)].
Proof.
  intros V Hd ((wt1 & bb1 & R1) & E1 & L1) ((wt2 & bb2 & R2) & E2 & L2) Hp Pd Pw Po Hk Hb x y H.
  apply near_one in H as (l & r & -> & -> & H). apply near_single. cbn [b_outputs testing_conv_behaviour nth].
  assert (0 < cv_omaps c)%nat by (rewrite E1 in Po; unfold size in Po; cbn [d_samples d_width d_height d_maps] in Po; destruct (cv_omaps c); [rewrite ?Nat.mul_0_r, ?Nat.mul_0_l in Po|]; lia).
  rewrite E1 in *. eapply (conv_near c true dropout p); eauto.
Qed.

Theorem C86_accumulation n samples1 samples2 eps1 eps2 old1 old2 q ps qs :
  stays_close (accumulation_behaviour f32_num n samples1 eps1 old1) (accumulation_behaviour R_num n samples2 eps2 old2) ps qs [Some q] (repeat (Some q) n).
Proof. apply acc_near. Qed.

(** Layers without outputs: losses and statistics. *)
Theorem C86_sink (layer : behaviour f32) (ideal : behaviour R) ps qs ins :
  (forall x, b_outputs layer x ps = []) -> (forall y, b_outputs ideal y qs = []) -> stays_close layer ideal ps qs ins [].
Proof. intros H1 H2 x y _. rewrite H1, H2. constructor. Qed.

(** ** The network *)
(** If the layers stay as close as [takes] and [makes] say, then so does the whole network: after a forward pass with floats and a forward pass with
    exact arithmetic, whatever was in memory before, every output of every node is finite and as close as [makes] says. *)
Theorem C86_network g (layer : nat -> behaviour f32) (ideal : nat -> behaviour R) params exact_params takes makes fuel ff1 ff2 m1 m2 :
  sound g -> acyclic (reads (heap g)) (nodes g) -> (length (nodes g) < fuel)%nat -> qualified g takes makes ->
  (forall n, In n (nodes g) -> stays_close (layer n) (ideal n) (params n) (exact_params n) (takes n) (makes n)) ->
  exists f1 r1 f2 r2, feed_forward_memory layer params fuel g ff1 m1 = Ok (f1, r1) /\ feed_forward_memory ideal exact_params fuel g ff2 m2 = Ok (f2, r2) /\
    forall n b q, In n (nodes g) -> nth_error (makes n) b = Some (Some q) -> near q (m_data r1 n b) (m_data r2 n b).
Proof.
  intros S Ac Hf Hc Hs. unfold feed_forward_memory.
  destruct (order_of g fuel ff1 S Ac Hf) as (fl1 & l1 & E1 & O1 & N1). destruct (order_of g fuel ff2 S Ac Hf) as (fl2 & l2 & E2 & O2 & N2).
  rewrite E1, E2. cbn [bind fst snd]. eexists _, _, _, _. split; [reflexivity|]. split; [reflexivity|]. intros n b q Hn E.
  apply (network_near g layer ideal params exact_params takes makes l1 l2 m1 m2 O1 O2); auto; [|now apply N1].
  intros k Hk. apply N1 in Hk. split; [exact Hk|now apply N2].
Qed.
Print Assumptions C86_input.
Print Assumptions C86_rectifier.
Print Assumptions C86_sigmoid.
Print Assumptions C86_tanh.
Print Assumptions C86_sum.
Print Assumptions C86_concatenation.
Print Assumptions C86_border.
Print Assumptions C86_prior.
Print Assumptions C86_upscale.
Print Assumptions C86_pooling.
Print Assumptions C86_strided_pooling.
Print Assumptions C86_convolution.
Print Assumptions C86_testing_convolution.
Print Assumptions C86_accumulation.
Print Assumptions C86_sink.
Print Assumptions C86_network.

(** ** An exponential function that is accurate, and a network that meets the hypotheses *)
Example C86_exponential : accurate_exp rounded_exp 64 (/ IZR (2 ^ 20)).
Proof. exact rounded_exp_accurate. Qed.

(** Input, convolution, rectifier, maximum pooling, logistic function, statistics; one image of 5 by 5 pixels. *)
Definition ex_heap : list node :=
  let kind := mkKind false false false false in
  [ mkNode (Some (mkKind false false true false)) [] [] 1 ""%string false true;
    mkNode (Some kind) [mkConn (Some 0%nat) 0 true] [] 1 ""%string false false;
    mkNode (Some kind) [mkConn (Some 1%nat) 0 true] [] 1 ""%string false false;
    mkNode (Some kind) [mkConn (Some 2%nat) 0 true] [] 1 ""%string false false;
    mkNode (Some kind) [mkConn (Some 3%nat) 0 true] [] 1 ""%string true false;
    mkNode (Some (mkKind true false false false)) [mkConn (Some 4%nat) 0 false] [] 0 ""%string false false ].
Definition ex_history : list nat := [0; 1; 2; 3; 4; 5]%nat.
Definition ex_g : graph := graph_of (add_nodes (new_graph ex_heap) (map Some ex_history)).
Definition ex_conv : conv := mkConv 2 2 2 1 1 0 0 1.
Definition ex_in : dims := mkDims 1 5 5 1.
Definition ex_mid : dims := mkDims 1 4 4 2.
Definition ex_out : dims := mkDims 1 2 2 2.
Definition ex_layer {D} (K : num D) (O : order D) (ndiv : D -> D -> D) (nexp : D -> D) (positive : D -> bool) (st : @conv_state D) (image : list D) (n : nat) : behaviour D :=
  let z d := repeat (n0 K) (size d) in let p := repeat f32_zero (size ex_out) in
  match n with
  | 0%nat => input_behaviour K [image]
  | 1%nat => conv_behaviour K ex_conv ex_in st (z ex_mid) (z ex_in)
  | 2%nat => rectifier_layer K positive ex_mid (z ex_mid) (z ex_mid)
  | 3%nat => pool_behaviour K O 2 2 ex_mid p p (z ex_out) (z ex_mid)
  | 4%nat => sigmoid_layer K ndiv nexp ex_out (z ex_out) (z ex_out)
  | _ => observer_behaviour K
  end.
Definition ex_weights : list Z := [1; -1; 2; 1; 0; 1; 1; 3]%Z.
Definition ex_biases : list Z := [1; -2]%Z.
Definition ex_params (n : nat) : list (list f32) := match n with 1%nat => [map f_of_Z ex_weights; map f_of_Z ex_biases] | _ => [] end.
Definition ex_values (n : nat) : list (list R) := match n with 1%nat => [map IZR ex_weights; map IZR ex_biases] | _ => [] end.
Definition ex_memory {D} : memory D := mkMemory (fun _ _ => []) (fun _ _ => []) (fun _ => []).

(** Whatever finite image between -1 and 1: the network computed in floats is within 0.00001 of the exact one. *)
Example C86_hypotheses : exists st1 st2, forall nexp image exact,
  accurate_exp nexp 8 (/ IZR (2 ^ 20)) -> near (mkQuality ex_in 1 0) image exact ->
  exists f1 r1 f2 r2,
    feed_forward_memory (ex_layer f32_num f32_order fdiv nexp (fun v => fgt v f32_zero) st1 image) ex_params 7 ex_g [] ex_memory = Ok (f1, r1) /\
    feed_forward_memory (ex_layer R_num R_order Rdiv exp R_positive st2 exact) ex_values 7 ex_g [] ex_memory = Ok (f2, r2) /\
    near (mkQuality ex_out 1 (/ 100000)) (m_data r1 4%nat 0%nat) (m_data r2 4%nat 0%nat).
Proof.
  destruct (C35_connected f32_num (fun _ => f32_zero) ex_conv 5 5 1 1) as (st1 & _ & Rd1 & _); [reflexivity|cbn; lia..|reflexivity|].
  destruct (C35_connected R_num (fun _ => 0) ex_conv 5 5 1 1) as (st2 & _ & Rd2 & _); [reflexivity|cbn; lia..|reflexivity|].
  exists st1, st2. intros nexp image exact He Hi.
  assert (Hnodes : forall n, In n ex_history -> n = 0%nat \/ n = 1%nat \/ n = 2%nat \/ n = 3%nat \/ n = 4%nat \/ n = 5%nat) by (intros n Hn; cbn in Hn; intuition lia).
  destruct (C21_built ex_heap ex_history) as (g' & Eg & En & Sg & Ag).
  { repeat constructor; cbn; intuition lia. }
  { intros n Hn. cbn in Hn. decompose [or] Hn; subst; try contradiction; (eexists; split; [reflexivity|]); cbn [n_inputs In];
      intros c Hc; decompose [or] Hc; subst; try contradiction; eexists; (split; [reflexivity|]); cbn; auto 10. }
  { intros n nd Hn E. cbn in Hn. decompose [or] Hn; subst; try contradiction; injection E as <-; discriminate. }
  { intros n nd E. do 6 (destruct n as [|n]; [injection E as <-; reflexivity|]). destruct n; discriminate. }
  assert (Eg' : ex_g = g') by (unfold ex_g; rewrite Eg; reflexivity). rewrite <- Eg' in *. clear Eg' Eg.
  assert (Ac : acyclic (reads (heap ex_g)) (nodes ex_g)).
  { rewrite En. apply Ag. assert (L : forall x y, reads ex_heap x y -> (y < x)%nat).
    { intros x y (nd & c & E & Hc & Ec). do 6 (destruct x as [|x]; [injection E as <-; cbn in Hc; decompose [or] Hc; subst; try contradiction;
        injection Ec as <-; lia|]). destruct x; discriminate. }
    intros n _ Hc. assert (T : forall a b, clos_trans nat (reads ex_heap) a b -> (b < a)%nat) by (intros a b H; induction H; [auto|lia]).
    specialize (T n n Hc). lia. }
  assert (Hin : forall n, In n (nodes ex_g) -> In n ex_history) by (intros n; now rewrite En).
  set (qc := convolved ex_conv ex_in ex_mid 5 2 1 0). set (e := q_error qc). set (qs := mkQuality ex_out 1 (e / 4 + 2 * / IZR (2 ^ 20) + 7 / IZR (2 ^ 24))).
  assert (Eqc : qc = mkQuality ex_mid 7 e) by (unfold e, qc, convolved; cbn [q_error]; f_equal; lra).
  assert (Hsmall : e / 4 + 2 * / IZR (2 ^ 20) + 7 / IZR (2 ^ 24) <= / 100000 /\ 0 <= e <= 1).
  { unfold e, qc, convolved. cbn [q_error]. change (cv_kw ex_conv * cv_kh ex_conv * (d_maps ex_in / cv_group ex_conv))%nat with 4%nat. rewrite !INR_IZR_INZ.
    change (Z.of_nat (4 + 4)) with 8%Z. change (Z.of_nat (5 * 4 + 4)) with 24%Z.
    assert (S : 0 < / IZR (2 ^ 150) <= / IZR (2 ^ 24)). { split; [apply Rinv_0_lt_compat, IZR_lt; reflexivity|]. apply Rinv_le; [apply IZR_lt; reflexivity|apply IZR_le; vm_compute; discriminate]. }
    unfold Rdiv. set (x := / IZR (2 ^ 150)) in *. change (2 ^ 24)%Z with 16777216%Z in *. change (2 ^ 23)%Z with 8388608%Z. change (2 ^ 20)%Z with 1048576%Z. lra. }
  destruct (C86_network ex_g (ex_layer f32_num f32_order fdiv nexp (fun v => fgt v f32_zero) st1 image) (ex_layer R_num R_order Rdiv exp R_positive st2 exact) ex_params ex_values
    (fun n => match n with 1 => [Some (mkQuality ex_in 1 0)] | 2 | 3 => [Some (mkQuality ex_mid 7 e)] | 4 => [Some (mkQuality ex_out 7 e)] | 5 => [Some qs] | _ => [] end%nat)
    (fun n => match n with 0 => [Some (mkQuality ex_in 1 0)] | 1 | 2 => [Some (mkQuality ex_mid 7 e)] | 3 => [Some (mkQuality ex_out 7 e)] | 4 => [Some qs] | _ => [] end%nat)
    7%nat [] [] ex_memory ex_memory Sg Ac) as (f1 & r1 & f2 & r2 & E1 & E2 & N).
  - rewrite En. cbn. lia.
  - intros n Hn. apply Hin, Hnodes in Hn. decompose [or] Hn; subst; vm_compute inputs_of; repeat constructor; cbn [c_node c_buffer]; (eexists; split; reflexivity).
  - intros n Hn. apply Hin, Hnodes in Hn. decompose [or] Hn; subst n; cbn [ex_layer ex_params ex_values].
    + apply C86_input. now apply near_single.
    + rewrite <- Eqc. apply C86_convolution; try (cbn; lia).
      * split; [eauto|]. rewrite (cr_ow _ _ _ _ _ _ _ _ _ Rd1), (cr_oh _ _ _ _ _ _ _ _ _ Rd1). split; reflexivity.
      * split; [eauto|]. rewrite (cr_ow _ _ _ _ _ _ _ _ _ Rd2), (cr_oh _ _ _ _ _ _ _ _ _ Rd2). split; reflexivity.
      * split; [reflexivity|]. split; [reflexivity|]. split; [|split].
        -- split; [reflexivity|]. intros i Hl. unfold ex_weights in *. cbn [nth map List.length] in *. do 8 (destruct i as [|i]; [apply rep32_int; lia|]). lia.
        -- split; [reflexivity|]. intros i Hl. unfold ex_biases in *. cbn [nth map List.length] in *. do 2 (destruct i as [|i]; [apply rep32_int; lia|]). lia.
        -- intros o Ho. assert (o = 0%nat \/ o = 1%nat) as [->| ->] by (cbn in Ho; lia); unfold absolute_weights, nsum, fn, place, ex_weights, ex_biases; cbn -[IZR Rplus Rabs Rle]; unfold Rabs; repeat destruct Rcase_abs; lra.
      * change (2 ^ 124)%Z with (8 * 2 ^ 121)%Z. rewrite mult_IZR. assert (1 <= IZR (2 ^ 121)) by (apply IZR_le; vm_compute; discriminate). lra.
    + apply C86_rectifier; try reflexivity. cbn; lia.
    + apply (C86_pooling 2 2 ex_mid 7 e); try reflexivity; try (cbn; lia). change (2 ^ 127)%Z with (8 * 2 ^ 124)%Z. rewrite mult_IZR. assert (1 <= IZR (2 ^ 124)) by (apply IZR_le; vm_compute; discriminate). lra.
    + apply (C86_sigmoid nexp 8 (/ IZR (2 ^ 20))); try reflexivity; auto; try lra; try (cbn; lia).
    + apply C86_sink; reflexivity.
  - exists f1, r1, f2, r2. split; [exact E1|]. split; [exact E2|]. destruct (N 4%nat 0%nat qs) as (A & B & C); [rewrite En; cbn; auto 10|reflexivity|]. split; [exact A|]. split; [exact B|].
    intros i Hl. apply (close_more 1 (q_error qs)); [now apply C|apply Rle_refl|exact (proj1 Hsmall)].
Qed.

(** Proofs for C75: the network of a program is ready for its passes. *)
From Coq Require Import Reals Relations Permutation Lra.
From Verif Require Import Base BaseFacts LoopFacts Tensor_Model Tensor_Spec Tensor_Proofs Num RealNum Math_Model Math_Spec Math_Proofs
  Conv_Proofs ConvLayer_Model ConvLayer_Spec ConvReady_Proofs Conv_Props Layers_Model Layers_Proofs Layers_Props Act_Model Act_Spec Act_Proofs Act_Props
  Float32 Pool_Model Pool_Spec Pool_Proofs LRN_Model LRN_Spec LRN_Proofs Conv2_Proofs
  Graph_Model Graph_Spec Dfs_Proofs Graph_Proofs GraphAdd_Proofs Graph_Props Accumulate_Model
  Backprop_Model Backprop_Spec Backprop_Proofs BackpropForward_Proofs BackpropBackward_Proofs BackpropBuilt_Proofs
  BackpropLayers_Model BackpropLayers_Spec BackpropLayers_Proofs BackpropLayers_Props BackpropMap_Proofs BackpropMap_Props Backprop_Props BackpropNet_Spec BackpropNet_Proofs.
Import ListNotations.
Local Open Scope nat_scope.
Local Open Scope list_scope.

Lemma composed_used h0 history parts : closed h0 history -> composed h0 history parts -> well_used h0 history.
Proof.
  intros Cl [Cr Cm Ck Cf Cu Cw]. constructor.
  - intros k nd c q nq Hk Ek Hc Eq Enq. pose proof (Cr k nd Hk Ek) as Hr. apply In_nth_error in Hc as (i & Hi).
    destruct (forall2_nth_error _ _ _ _ _ Hr Hi) as (d & _ & q' & Eq' & Ed). assert (q' = q) by congruence. subst q'.
    destruct (Cl k Hk) as (nd' & Ek' & Hcl). assert (nd' = nd) by congruence. subst nd'.
    destruct (Hcl c (nth_error_In _ _ Hi)) as (q' & Eq2 & Hq). assert (q' = q) by congruence. subst q'.
    rewrite (Cm q nq Hq Enq). apply nth_error_Some. congruence.
  - intros n nd Hn En Hi. destruct (Ck n nd Hn En) as (K1 & _). rewrite Hi in K1. pose proof (Cr n nd Hn En) as Hr.
    destruct (parts n); try discriminate K1. cbn in Hr. now inversion Hr.
  - intros n nd Hn En Hi. destruct (Ck n nd Hn En) as (K1 & _ & K3 & K4). rewrite Hi in K1. split; [|split].
    + unfold is_accumulation, kind_at. rewrite En. unfold layer_has in K3. destruct (n_layer nd); [exact K3|reflexivity].
    + rewrite (Cm n nd Hn En). destruct (parts n); cbn in *; try discriminate; lia.
    + intros Hb. apply (Cw n Hn); [congruence|]. rewrite (Cm n nd Hn En) in Hb. intros Hm. rewrite Hm in Hb. discriminate.
Qed.


(** What the network of a program offers to its layers, whatever they are. *)
Record network_ready (h0 : list node) (history : list nat) (g : graph) (parts : nat -> part) (olds : nat -> list R) : Prop := mkReady {
  nr_nodes : exists extra, nodes g = history ++ extra;
  nr_sound : sound g;
  nr_acyclic : acyclic (reads (heap g)) (nodes g);
  nr_fed : fed g;
  nr_own : forall k, In k history -> stack history parts olds (heap g) k = parts k;
  nr_extra : forall k, In k (nodes g) -> ~ In k history -> exists d n, stack history parts olds (heap g) k = PAccumulation d n (olds k);
  nr_typed : typed (heap g) (nodes g) (stack history parts olds (heap g));
  nr_uses : forall k, In k (nodes g) -> used_well (stack history parts olds (heap g) k) (map (use_of (heap g)) (inputs_of (heap g) k)) /\
    length (map (use_of (heap g)) (inputs_of (heap g) k)) = length (takes (stack history parts olds (heap g) k)) /\
    (In Asked (map (use_of (heap g)) (inputs_of (heap g) k)) <-> do_backprop (heap g) k = true);
  nr_losses : losses g (fun k => acts (stack history parts olds (heap g) k));
  nr_inputs : forall k nd, In k (nodes g) -> nth_error (heap g) k = Some nd -> n_is_input nd = true ->
    n_inputs nd = [] /\ In k history /\ is_input (parts k) = true;
  nr_others : forall k nd, In k (nodes g) -> nth_error (heap g) k = Some nd -> n_is_input nd = false -> is_input (stack history parts olds (heap g) k) = false }.

Lemma network_is_ready h0 history (parts : nat -> part) :
  NoDup history -> closed h0 history -> (forall n nd, In n history -> nth_error h0 n = Some nd -> n_layer nd <> None) ->
  (forall n nd, nth_error h0 n = Some nd -> n_backprop nd = []) -> acyclic (reads h0) history -> composed h0 history parts ->
  exists g0 g, add_nodes (new_graph h0) (map Some history) = Ok g0 /\ insert_sweeps 2 g0 = Ok g /\
    forall olds, network_ready h0 history g parts olds.
Proof.
  intros Nd Cl Ly Bp Ac Co. pose proof (composed_used h0 history parts Cl Co) as Wu.
  destruct (built_network h0 history Nd Cl Ly Bp Ac Wu) as (g0 & g & extra & E0 & E & En & S & Ag & Fd & Ll & Pi & _).
  destruct (built_connections h0 history Nd Cl Ly Bp Ac Wu) as (g0' & g' & extra' & E0' & E' & En' & Hc & Hx).
  assert (g0' = g0) by congruence. subst g0'. assert (g' = g) by congruence. subst g'.
  assert (extra' = extra) by (rewrite En in En'; now apply app_inv_head in En'). subst extra'. clear E0' E' En'.
  exists g0, g. split; [exact E0|]. split; [exact E|]. 
  intros olds. set (network := stack history parts olds (heap g)).
  destruct Co as [Cr Cm Ck Cf Cu Cw].
  assert (Nh : forall k, In k history -> network k = parts k).
  { intros k Hk. unfold network, stack. now rewrite (proj2 (existsb_nat k history) Hk). }
  assert (Nx : forall x nd q, ~ In x history -> nth_error (heap g) x = Some nd -> n_inputs nd = [mkConn (Some q) 0 true] ->
    network x = PAccumulation (nth 0 (makes (parts q)) (mkDims 0 0 0 0)) (n_buffers nd) (olds x)).
  { intros x nd q Hx' Ed Ein. unfold network, stack. rewrite (proj2 (existsb_nat_false x history) Hx'). unfold inputs_of, buffers_of. now rewrite Ed, Ein. }
  assert (Mq : forall q, In q history -> is_input_at h0 q = false -> forall x nd, In x extra -> nth_error (heap g) x = Some nd -> n_inputs nd = [mkConn (Some q) 0 true] ->
     exists dq, makes (parts q) = [dq]).
  { intros q Hq Hi x nd Hxx Ed Ein. destruct (Cl q Hq) as (ndq & Edq & _). unfold is_input_at in Hi. rewrite Edq in Hi.
    destruct (Ck q ndq Hq Edq) as (K1 & _ & _ & K4). rewrite Hi in K1.
    assert (Hb : n_buffers ndq <> 0).
    { destruct (Hc q ndq Hq Edq) as (ndg & Edg & _ & Hig & Hbg & _). rewrite <- Hbg. rewrite Hi in Hig.
      assert (Hin : In q (nodes g)) by (rewrite En; apply in_or_app; now left).
      pose proof (Fd q ndg Hin Edg Hig) as Pm. intros Hz. rewrite Hz in Pm. cbn [seq] in Pm. apply Permutation_sym, Permutation_nil in Pm.
      assert (Hr : In (b_buffer (mkB x 0)) (map b_buffer (flat_map (requests (heap g) q) (nodes g)))).
      { apply in_map. apply in_flat_map. exists x. split; [rewrite En; apply in_or_app; now right|]. unfold requests. rewrite Ed, Ein. cbn. rewrite Nat.eqb_refl. now left. }
      rewrite Pm in Hr. destruct Hr. }
    rewrite (Cm q ndq Hq Edq) in Hb. destruct (parts q); cbn in *; try discriminate; eauto; lia. }
  assert (Ty : typed (heap g) (nodes g) network).
  { intros k Hk. rewrite En in Hk. apply in_app_or in Hk as [Hk|Hk].
    - destruct (Cl k Hk) as (nd0 & Ed0 & Hcl). destruct (Hc k nd0 Hk Ed0) as (nd & Ed & _ & _ & Hb & Hcs). rewrite (Nh k Hk). unfold buffers_of, inputs_of. rewrite Ed.
      split; [rewrite Hb; now apply Cm|]. pose proof (Cr k nd0 Hk Ed0) as Hr. revert Hcl Hr. generalize (takes (parts k)) as ds.
      induction Hcs as [|c0 c cs0 cs [_ Hd] Hcs IH]; intros ds Hcl Hr; inversion Hr as [|? dd ? ds' Hr1 Hr2]; subst; constructor.
      + destruct Hr1 as (q & Eq & Edq). destruct (Hcl c0 (or_introl eq_refl)) as (q' & Eq' & Hq). assert (q' = q) by congruence. subst q'.
        destruct Hd as (q' & Eq2 & [[D1 D2]|(x & ndx & X1 & X2 & X3 & X4 & X5 & X6)]); assert (q' = q) by congruence; subst q'.
        * exists q. split; [rewrite En; apply in_or_app; now left|]. split; [exact D1|]. now rewrite (Nh q Hq), D2.
        * exists x. split; [rewrite En; apply in_or_app; now right|]. split; [exact X3|].
          destruct (Hx x X1) as (X7 & ndx' & q2 & X8 & X9 & _ & _ & X10 & X11). assert (ndx' = ndx) by congruence. subst ndx'. assert (q2 = q) by congruence. subst q2.
          rewrite (Nx x ndx q X7 X2 X5). cbn [makes]. rewrite X6 in Edq. destruct (makes (parts q)) as [|d1 l1]; [discriminate|]. injection Edq as ->. cbn [nth].
          rewrite (nth_error_nth' (repeat dd (n_buffers ndx)) dd) by (now rewrite repeat_length). f_equal. apply nth_repeat.
      + apply IH; [intros c' Hc'; apply Hcl; now right|exact Hr2].
    - destruct (Hx k Hk) as (X7 & nd & q & X8 & X9 & _ & _ & X10 & X11). rewrite (Nx k nd q X7 X9 X10). unfold buffers_of, inputs_of. rewrite X9, X10.
      cbn [makes takes]. split; [symmetry; apply repeat_length|]. constructor; [|constructor]. exists q. split; [rewrite En; apply in_or_app; now left|]. split; [reflexivity|].
      destruct (Mq q X8 X11 k nd Hk X9 X10) as (dq & Edq). rewrite (Nh q X8), Edq. reflexivity. }
  assert (Us : forall k, In k (nodes g) -> used_well (network k) (map (use_of (heap g)) (inputs_of (heap g) k)) /\
    length (map (use_of (heap g)) (inputs_of (heap g) k)) = length (takes (network k)) /\
    (In Asked (map (use_of (heap g)) (inputs_of (heap g) k)) <-> do_backprop (heap g) k = true)).
  { intros k Hk. split; [|split].
    - rewrite En in Hk. apply in_app_or in Hk as [Hk|Hk].
      + destruct (Cl k Hk) as (nd0 & Ed0 & _). destruct (Hc k nd0 Hk Ed0) as (nd & Ed & _ & _ & _ & Hcs). rewrite (Nh k Hk). unfold inputs_of. rewrite Ed.
        pose proof (Cu k nd0 Hk Ed0) as Hu. replace (map (use_of (heap g)) (n_inputs nd)) with (map (fun c => use_of h0 (settled h0 c)) (n_inputs nd0)); [exact Hu|].
        clear - Hcs. induction Hcs as [|c0 c cs0 cs [H _] Hcs IH]; cbn [map]; [reflexivity|]. now rewrite H, IH.
      + destruct (Hx k Hk) as (X7 & nd & q & X8 & X9 & _ & _ & X10 & X11). rewrite (Nx k nd q X7 X9 X10). unfold inputs_of. rewrite X9, X10. reflexivity.
    - destruct (Ty k Hk) as [_ T]. rewrite map_length. apply (Forall2_length T).
    - unfold do_backprop, inputs_of. destruct (nth_error (heap g) k) as [nd|]; [|split; [intros []|discriminate]].
      rewrite in_map_iff, existsb_exists. split; intros (c & H1 & H2).
      + exists c. split; [exact H2|]. unfold use_of in H1. destruct (c_backprop c); [reflexivity|]. destruct (c_node c) as [q|]; [destruct (is_input_at _ _)|]; discriminate.
      + exists c. split; [|exact H1]. unfold use_of. now rewrite H2. }
  constructor; eauto.
  - intros k Hk Hk'. rewrite En in Hk. apply in_app_or in Hk as [Hk|Hk]; [contradiction|].
    destruct (Hx k Hk) as (X7 & nd & q & X8 & X9 & _ & _ & X10 & X11). eexists. eexists. exact (Nx k nd q X7 X9 X10).
  - split; [exact Ll|]. intros k Hk Hkl x q. fold network. rewrite En in Hk. apply in_app_or in Hk as [Hk|Hk].
    + rewrite (Nh k Hk). destruct (Cl k Hk) as (nd0 & Ed0 & _). destruct (Ck k nd0 Hk Ed0) as (_ & K2 & _).
      destruct (Hc k nd0 Hk Ed0) as (nd & Ed & Kl & _). unfold node_has in Hkl. rewrite Ed in Hkl. unfold layer_has in Hkl, K2. rewrite Kl in Hkl. rewrite Hkl in K2.
      destruct (parts k); try discriminate K2; try reflexivity. now match goal with q : mapping |- _ => destruct q end.
    + destruct (Hx k Hk) as (X7 & nd & q' & X8 & X9 & _ & _ & X10 & X11). rewrite (Nx k nd q' X7 X9 X10). reflexivity.
  - intros k nd Hk Ek Hi. destruct (Pi k nd Hk Ek Hi) as [Hh Hin]. split; [exact Hin|]. split; [exact Hh|].
    destruct (Cl k Hh) as (nd0 & Ed0 & _). destruct (Hc k nd0 Hh Ed0) as (nd' & Ed' & _ & Ki & _). assert (nd' = nd) by congruence. subst nd'.
    destruct (Ck k nd0 Hh Ed0) as (K1 & _). congruence.
  - intros k nd Hk Ek Hi. fold network. rewrite En in Hk. apply in_app_or in Hk as [Hk|Hk].
    + destruct (Cl k Hk) as (nd0 & Ed0 & _). destruct (Hc k nd0 Hk Ed0) as (nd' & Ed' & _ & Ki & _). assert (nd' = nd) by congruence. subst nd'.
      destruct (Ck k nd0 Hk Ed0) as (K1 & _). rewrite (Nh k Hk). congruence.
    + destruct (Hx k Hk) as (X7 & nd' & q & X8 & X9 & _ & _ & X10 & X11). rewrite (Nx k nd' q X7 X9 X10). reflexivity.
Qed.

(** The gradients of its parameters have the shapes of the parameters. *)
Lemma part_gradients p enabled uses xs ps deltas :
  fits p -> used_well p uses -> Forall2 shaped (takes p) xs -> Forall2 shaped (tunes p) ps ->
  length uses = length (takes p) -> (In Asked uses <-> enabled = true) -> (is_input p = false -> Forall2 shaped (makes p) deltas) ->
  Forall2 shaped (tunes p) (snd (b_backward (acts p) enabled xs ps deltas)).
Proof.
  intros F U T P L Ea Dl. destruct p as [ds loaded|d out delta|d out delta|d out delta|d out a b|d1 d2 out a b|d w delta|c d st out delta|q|ds|d n delta];
    cbn [tunes]; try (constructor; fail); [|destruct q; constructor].
  cbn [fits used_well takes makes tunes acts length is_input] in *. specialize (Dl eq_refl).
  apply forall2_one in T as (x0 & -> & L0). apply forall2_two in P as (weights & bias & -> & Lw & Lb). apply length_one in L as (u & ->).
  apply forall2_one in Dl as (a & -> & Sa). destruct F as ((wt0 & b0 & Rd) & F2 & F3 & Po & Pw & F6 & F7). destruct U as [U1 U2].
  assert (Hsafe : enabled = true -> cv_pw c = 0 /\ d_height d <= d_width d) by (intros He; apply U2, Ea, He).
  pose proof (cr_ow _ _ _ _ _ _ _ _ _ Rd) as Eow. pose proof (cr_oh _ _ _ _ _ _ _ _ _ Rd) as Eoh.
  assert (Eo : mkDims (d_samples d) (cs_ow st) (cs_oh st) (cv_omaps c) = out_dims c d) by (unfold out_dims; rewrite Eow, Eoh; reflexivity).
  set (o := out_dims c d) in *. set (dw := weights_dims c d) in *. set (db := bias_dims c) in *.
  assert (Pb : 0 < size db). { unfold size in *. cbn in *. nia. }
  set (bf := fun l q => fn db l q 0 0 0).
  assert (Cb : forall l, shaped db l -> contents (tensor_of db l) (fun q _ _ _ => bf l q)).
  { intros l L q y m s V. rewrite (tensor_contents db l L q y m s V). destruct V as (_ & V2' & V3 & V4). cbn in V2', V3, V4. unfold bf.
    replace y with 0 by lia. replace m with 0 by lia. now replace s with 0 by lia. }
  assert (Ry : conv_ready R_num c (with_params c d st [weights; bias]) (d_width d) (d_height d) (d_maps d) (d_samples d) (fn dw weights) (bf bias)).
  { apply (conv_ready_set_params R_num c st _ _ _ _ wt0 b0 (tensor_of dw weights) (tensor_of db bias) _ _ Rd);
      auto using tensor_wf, tensor_shape, tensor_contents; apply tensor_shape. }
  destruct (C35_forward R_num R_ring_laws c (with_params c d st [weights; bias]) _ _ _ _ _ _ false 0%R (tensor_of d x0) (tensor_of o out) (fn d x0) Ry)
    as (st1 & t & E & W & Sh & C & _); auto using tensor_wf, tensor_shape, tensor_contents.
  { cbn [with_params cs_ow cs_oh]. rewrite Eow, Eoh. exact (tensor_shape o out). }
  destruct (C64_backward R_num R_ring_laws c (with_params c d st [weights; bias]) (d_width d) (d_height d) (d_maps d) (d_samples d) (fn dw weights) (bf bias)
    (tensor_of d x0) (tensor_of o out) (tensor_of o a) (tensor_of d delta) (fn d x0) (fn o a) enabled st1 t) as (st2 & id & Eb & Cw & Cbi & Ci & Ci' & Wid & Sid & R2);
    auto using tensor_wf, tensor_shape, tensor_contents, tensor_same.
  { cbn [with_params cs_ow cs_oh]. rewrite Eow, Eoh. exact (tensor_shape o out). }
  destruct (cr_weights_delta _ _ _ _ _ _ _ _ _ R2) as [Ww Sw]. destruct (cr_bias_delta _ _ _ _ _ _ _ _ _ R2) as [Wb Sb].
  destruct (written_at dw _ _ Ww Sw Cw Pw) as [Hw _]. destruct (written_at db _ _ Wb Sb Cbi Pb) as [Hb _].
  cbn [b_backward conv_behaviour nth]. rewrite Eo. change (n0 R_num) with 0%R. rewrite E. cbn [bind fst]. rewrite Eb. cbn [bind fst snd written].
  constructor; [exact Hw|]. constructor; [exact Hb|constructor].
Qed.

Lemma shaped_same ds (ys : list (list R)) zs : Forall2 shaped ds ys -> shape zs = shape ys -> Forall2 shaped ds zs.
Proof.
  intros H. revert zs. induction H as [|d y ds ys Hy H IH]; intros [|z zs] E; try discriminate; constructor.
  - injection E as E _. unfold shaped in *. congruence.
  - apply IH. injection E as _ E. exact E.
Qed.

Section Ready.
Variables (h0 : list node) (history : list nat) (g : graph) (parts : nat -> part) (olds : nat -> list R).
Hypothesis ready : network_ready h0 history g parts olds.
Notation network := (stack history parts olds (heap g)).
Notation layer := (fun k => acts (network k)).
Hypothesis all_fit : forall x, In x (nodes g) -> fits (network x).

Lemma tunes_shaped (theta : nat -> list (list R)) :
  (forall n, In n history -> Forall2 shaped (tunes (parts n)) (theta n)) -> (forall n, ~ In n history -> theta n = []) ->
  forall k, In k (nodes g) -> Forall2 shaped (tunes (network k)) (theta k).
Proof.
  intros Th Th0 k Hk. destruct (existsb (Nat.eqb k) history) eqn:Eb.
  - apply existsb_nat in Eb. rewrite (nr_own _ _ _ _ _ ready k Eb). now apply Th.
  - apply existsb_nat_false in Eb. destruct (nr_extra _ _ _ _ _ ready k Hk Eb) as (d & n & ->). rewrite (Th0 k Eb). constructor.
Qed.

(** The order in which a forward pass runs the layers. *)
Lemma forward_runs fuel ff : length (nodes g) < fuel ->
  exists ff1 l, ordered (heap g) l /\ (forall n, In n l <-> In n (nodes g)) /\
    forall theta m, feed_forward_memory layer theta fuel g ff m = Ok (ff1, fold_left (forward_node layer theta (heap g)) l m).
Proof.
  intros Hf. destruct (C17_feed_forward g ff fuel (sound_closed g (nr_sound _ _ _ _ _ ready)) (nr_acyclic _ _ _ _ _ ready) Hf) as (ff1 & l & Ef & Ndl & Hl & Bf).
  exists ff1, l. split; [|split; [exact Hl|]].
  - split; [exact Ndl|]. intros k c q Hk Hck Eq. apply Bf; [now apply Hl|]. unfold inputs_of in Hck.
    destruct (nth_error (heap g) k) as [nd|] eqn:Ek; [|destruct Hck]. exists nd, c. auto.
  - intros theta m. unfold feed_forward_memory. rewrite Ef. reflexivity.
Qed.

Lemma typed_list l : (forall n, In n l <-> In n (nodes g)) -> typed (heap g) l network.
Proof.
  intros Hl k Hk. destruct (nr_typed _ _ _ _ _ ready k (proj1 (Hl k) Hk)) as [T1 T2]. split; [exact T1|]. clear - T2 Hl.
  induction T2 as [|c dd cs ds (q & Hq & H) T2 IH]; constructor; [|exact IH]. exists q. split; [now apply Hl|exact H].
Qed.

(** The shapes of everything the layers find and make. *)
Lemma forward_shapes (theta : nat -> list (list R)) fuel ff m ff1 m1 : length (nodes g) < fuel ->
  (forall n, In n history -> Forall2 shaped (tunes (parts n)) (theta n)) -> (forall n, ~ In n history -> theta n = []) ->
  feed_forward_memory layer theta fuel g ff m = Ok (ff1, m1) -> forall k, In k (nodes g) ->
  Forall2 shaped (takes (network k)) (input_data (heap g) m1 k) /\
  Forall2 shaped (makes (network k)) (b_outputs (layer k) (input_data (heap g) m1 k) (theta k)) /\
  forall b, b < buffers_of (heap g) k -> m_data m1 k b = nth b (b_outputs (layer k) (input_data (heap g) m1 k) (theta k)) [].
Proof.
  intros Hf Th Th0 E k Hk. destruct (forward_runs fuel ff Hf) as (ffx & l & Or & Hl & Er). rewrite Er in E. injection E as <- <-.
  pose proof (tunes_shaped theta Th Th0) as ThN. pose proof (typed_list l Hl) as Tyl.
  assert (Ti : Forall2 shaped (takes (network k)) (input_data (heap g) (fold_left (forward_node layer theta (heap g)) l m) k)).
  { apply (typed_inputs (heap g) l network theta m Or Tyl); [intros; now apply all_fit, Hl|intros; now apply ThN, Hl|now apply Hl]. }
  split; [exact Ti|].
  assert (To := part_outputs (network k) _ (theta k) (all_fit k Hk) Ti (ThN k Hk)). split; [exact To|].
  intros b Hb. destruct (nr_typed _ _ _ _ _ ready k Hk) as [T1 _]. rewrite T1 in Hb.
  pose proof (forward_equations layer (heap g) theta l m k Or (proj2 (Hl k) Hk) b) as Fq. cbv zeta in Fq. rewrite Fq.
  assert (Hb' : b < length (b_outputs (layer k) (input_data (heap g) (fold_left (forward_node layer theta (heap g)) l m) k) (theta k))).
  { rewrite <- (Forall2_length To). exact Hb. }
  now rewrite (proj2 (Nat.ltb_lt _ _) Hb').
Qed.

Lemma network_differentiates (theta : nat -> list (list R)) fuel ff m ff1 m1 : length (nodes g) < fuel ->
  (forall n, In n history -> Forall2 shaped (tunes (parts n)) (theta n)) -> (forall n, ~ In n history -> theta n = []) ->
  (forall k, In k history -> smooth (parts k) (input_data (heap g) m1 k)) ->
  feed_forward_memory layer theta fuel g ff m = Ok (ff1, m1) -> forall k, In k (nodes g) ->
  differentiates (layer k) (do_backprop (heap g) k) (buffers_of (heap g) k) (map (use_of (heap g)) (inputs_of (heap g) k)) (input_data (heap g) m1 k) (theta k).
Proof.
  intros Hf Th Th0 Sm E k Hk. destruct (forward_shapes theta fuel ff m ff1 m1 Hf Th Th0 E k Hk) as (Ti & _).
  destruct (nr_uses _ _ _ _ _ ready k Hk) as (U1 & U2 & U3). destruct (nr_typed _ _ _ _ _ ready k Hk) as [T1 _]. rewrite T1. apply part_differentiates; auto.
  - destruct (existsb (Nat.eqb k) history) eqn:Eb.
    + apply existsb_nat in Eb. rewrite (nr_own _ _ _ _ _ ready k Eb). now apply Sm.
    + apply existsb_nat_false in Eb. destruct (nr_extra _ _ _ _ _ ready k Hk Eb) as (d & n & ->). exact I.
  - now apply tunes_shaped.
Qed.

Lemma network_plain (params : R -> nat -> list (list R)) : (forall v n, In n history -> Forall2 shaped (tunes (parts n)) (params v n)) -> plain_inputs g params.
Proof.
  intros Th k nd Hk Ek Hi. destruct (nr_inputs _ _ _ _ _ ready k nd Hk Ek Hi) as (H1 & H2 & H3). split; [exact H1|]. intros v.
  specialize (Th v k H2). destruct (parts k); try discriminate H3. now inversion Th.
Qed.

(** One pass, when the parameters move along a curve. *)
Lemma network_gradient (params : R -> nat -> list (list R)) v0 dp fuel ff bp m : length (nodes g) < fuel ->
  (forall v n, In n history -> Forall2 shaped (tunes (parts n)) (params v n)) -> (forall v n, ~ In n history -> params v n = []) ->
  (forall n, In n history -> all_move (fun v => params v n) v0 (dp n)) ->
  (forall ff1 m1, feed_forward_memory layer (params v0) fuel g ff m = Ok (ff1, m1) -> forall k, In k history -> smooth (parts k) (input_data (heap g) m1 k)) ->
  exists (loss : R -> R) ff' bp' m',
    (forall v, exists st, gradient_pass R_num layer (params v) fuel g ff bp m = Ok (loss v, st)) /\
    gradient_pass R_num layer (params v0) fuel g ff bp m = Ok (loss v0, (ff', bp', m')) /\
    derivable_pt_lim loss v0 (rsum (fun n => dots (m_grad m' n) (dp n)) history) /\
    forall n, In n (nodes g) -> Forall2 shaped (tunes (network n)) (m_grad m' n).
Proof.
  intros Hf Th Th0 Mv Sm. destruct (nr_nodes _ _ _ _ _ ready) as (extra & En).
  assert (Hx : forall n, In n extra -> ~ In n history).
  { intros n Hn Hh. pose proof (sound_once g (nr_sound _ _ _ _ _ ready)) as Nd. rewrite En in Nd. clear - Nd Hn Hh.
    induction history as [|a l IH]; [destruct Hh|]. cbn in Nd. inversion Nd as [|? ? N1 N2]; subst. destruct Hh as [->|Hh]; [|now apply IH].
    apply N1, in_or_app. now right. }
  destruct (pass_gradient g layer params v0 (fun n => if existsb (Nat.eqb n) history then dp n else []) fuel ff bp m)
    as (loss & ff' & bp' & m' & H1 & H2 & H3 & m1 & Em1 & H4); try exact Hf; try apply ready.
  - now apply network_plain.
  - intros n Hn. destruct (existsb (Nat.eqb n) history) eqn:Eb; [apply existsb_nat in Eb; now apply Mv|].
    apply existsb_nat_false in Eb. split; [intros v; now rewrite Th0|]. intros i Hi. cbn in Hi. lia.
  - intros ff1 m1 E1. apply (network_differentiates (params v0) fuel ff m ff1 m1); auto. now apply (Sm ff1).
  - exists loss, ff', bp', m'. split; [exact H1|]. split; [exact H2|]. split.
    + replace (rsum (fun n => dots (m_grad m' n) (dp n)) history) with
        (rsum (fun n => dots (m_grad m' n) (if existsb (Nat.eqb n) history then dp n else [])) (nodes g)); [exact H3|].
      rewrite En, rsum_app, (rsum_zero _ extra), Rplus_0_r.
      * apply rsum_ext. intros n Hn. now rewrite (proj2 (existsb_nat n history) Hn).
      * intros n Hn. rewrite (proj2 (existsb_nat_false n history) (Hx n Hn)). apply dots_nil.
    + intros n Hn. destruct (H4 n Hn) as (deltas & Eg & Sd). rewrite Eg.
      destruct (forward_shapes (params v0) fuel ff m ff' m1 Hf (Th v0) (Th0 v0) Em1 n Hn) as (Ti & To & Md).
      destruct (nr_uses _ _ _ _ _ ready n Hn) as (U1 & U2 & U3). destruct (nr_typed _ _ _ _ _ ready n Hn) as [T1 _].
      apply (part_gradients (network n) _ (map (use_of (heap g)) (inputs_of (heap g) n))); auto; [apply tunes_shaped; auto|].
      intros Hi. assert (Hi' : is_input_at (heap g) n = false).
      { destruct (sound_closed g (nr_sound _ _ _ _ _ ready) n Hn) as (nd & End & _). unfold is_input_at. rewrite End. destruct (n_is_input nd) eqn:Ei; [|reflexivity].
        destruct (nr_inputs _ _ _ _ _ ready n nd Hn End Ei) as (_ & Hh & Hp). rewrite (nr_own _ _ _ _ _ ready n Hh) in Hi. congruence. }
      specialize (Sd Hi'). assert (Sd' : shape deltas = shape (b_outputs (layer n) (input_data (heap g) m1 n) (params v0 n))).
      { rewrite Sd, T1, (Forall2_length To). set (ys := b_outputs (layer n) (input_data (heap g) m1 n) (params v0 n)) in *. unfold shape.
        rewrite T1, (Forall2_length To) in Md. fold ys in Md. apply nth_ext with (d := 0) (d' := 0); rewrite !map_length, ?seq_length; [reflexivity|].
        intros i Hi0. rewrite nth_map_seq by exact Hi0. rewrite (Md i Hi0). change 0 with (length (@nil R)). now rewrite map_nth. }
      exact (shaped_same _ _ _ To Sd').
Qed.
End Ready.

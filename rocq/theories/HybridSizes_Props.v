(** C78: the sizes of outputs and parameters that C78 and C79 talk about are those of the tensors the layers create.
    The functions on the right are the layer models used by the other properties (convolution: C17; pooling: C16, ...). *)
From Coq Require Import ZArith List.
From Verif Require Import Base BaseFacts Tensor_Model Tensor_Spec Tensor_Proofs Num Math_Model Layers_Model Pool_Model Act_Model ConvLayer_Model Str_Model Factory_Model
  Hybrid_Model HybridSizes_Model.
Local Open Scope nat_scope.

Section Sizes.
Context {D : Type}.
Notation layer := (@layer D).
Local Notation zn := Z.of_nat.

Definition shape4 (s : nat * nat * nat * nat) : dims := let '(s, w, h, m) := s in mkDims (zn s) (zn w) (zn h) (zn m).
Definition size_of (t : tensor D) : dims := shape4 (samples t, width t, height t, maps t).
Definition accepted {A B} (f : A -> B) (r : res (option A)) : option B := match r with Ok (Some a) => Some (f a) | _ => None end.

(** A convolution as AddLayers makes it. *)
Definition convolution (c : conv) (seed : Z) (dropout llr : D) : layer :=
  LConvolution (zn (cv_kw c)) (zn (cv_kh c)) (zn (cv_omaps c)) (zn (cv_sw c)) (zn (cv_sh c)) (zn (cv_pw c)) (zn (cv_ph c)) (zn (cv_group c)) seed dropout llr.

Lemma eqb_n a b : (zn a =? zn b)%Z = (a =? b).
Proof. apply Bool.eq_true_iff_eq; rewrite Nat.eqb_eq, Z.eqb_eq; lia. Qed.
Lemma eqb_0 a : (zn a =? 0)%Z = (a =? 0).
Proof. exact (eqb_n a 0). Qed.
Lemma eqb_mod a b : (zn a mod zn b =? 0)%Z = (a mod b =? 0).
Proof. rewrite <- Nat2Z.inj_mod. apply eqb_0. Qed.

Lemma window_dim p s k t : window (zn p) (zn s) (zn k) (zn t) = out_dim p s k t.
Proof. unfold window, out_dim. now replace (zn p + zn p + zn s - zn k)%Z with (2 * zn p + zn s - zn k)%Z by lia. Qed.

Theorem C78_sizes : forall i j l : tensor D, wf i -> wf j ->
  (forall bx by_, create_outputs (@LResize D (zn bx) (zn by_)) [size_of i] = Some [shape4 (resize_create bx by_ i)]) /\
  (forall c seed dropout llr, create_outputs (convolution c seed dropout llr) [size_of i] =
     accepted (fun '(w, h) => [mkDims (zn (samples i)) w h (zn (cv_omaps c))]) (conv_create_outputs c (width i) (height i) (maps i))) /\
  (forall kx ky, create_outputs (@LMaxPooling D (zn kx) (zn ky)) [size_of i] =
     accepted (fun '(w, h) => [shape4 (samples i, w, h, maps i)]) (pool_create kx ky (width i) (height i))) /\
  (forall kx ky, create_outputs (@LDownSampling D (zn kx) (zn ky)) [size_of i] = accepted (fun s => [shape4 s]) (downsample_create kx ky i)) /\
  (forall kx ky sx sy, create_outputs (@LAdvancedMaxPooling D (zn kx) (zn ky) (zn sx) (zn sy)) [size_of i] =
     match apool_create kx ky sx sy (width i) (height i) with Ok (w, h) => Some [mkDims (zn (samples i)) w h (zn (maps i))] | _ => None end) /\
  (forall a : layer, In a [LSigmoid; LReLU; LTanh] \/ (exists mu w, a = LHMax mu w) -> create_outputs a [size_of i] = Some [shape4 (act_create i)]) /\
  (forall fx fy, create_outputs (@LUpscale D (zn fx) (zn fy)) [size_of i] = Some [shape4 (upscale_create fx fy i)]) /\
  create_outputs (@LConcatenation D) [size_of i; size_of j] = option_map (fun s => [shape4 s]) (concat_create i j) /\
  create_outputs (@LSum D) [size_of i; size_of j] = option_map (fun s => [shape4 s]) (sum_create i j) /\
  (forall w, create_outputs (@LError D w) [size_of i; size_of j; size_of l] = if error_connect i j l then Some [] else None).
Proof.
  intros i j l Wi Wj. unfold size_of, shape4. repeat split.
  - intros bx by_. cbn. now rewrite !Nat2Z.inj_add.
  - intros c seed dropout llr. unfold convolution, create_outputs, conv_create_outputs, d_width, d_height, d_maps, d_samples.
    rewrite !eqb_0, eqb_mod. rewrite !window_dim.
    destruct (cv_sw c =? 0), (cv_sh c =? 0), (cv_group c =? 0); cbn [orb]; try reflexivity;
      destruct (_ || _)%bool; try reflexivity; now destruct (negb _).
  - intros kx ky. unfold create_outputs, pool_create, d_width, d_height, d_maps, d_samples. rewrite !eqb_0, !eqb_mod.
    destruct (_ || _)%bool; [reflexivity|]. destruct (_ || _)%bool; [reflexivity|]. cbn. now rewrite !Nat2Z.inj_div.
  - intros kx ky. unfold create_outputs, downsample_create, d_width, d_height, d_maps, d_samples. rewrite !eqb_0, !eqb_mod.
    destruct (_ || _)%bool; [reflexivity|]. destruct (_ || _)%bool; [reflexivity|]. cbn. now rewrite !Nat2Z.inj_div.
  - intros kx ky sx sy. unfold create_outputs, apool_create, d_width, d_height, d_maps, d_samples. rewrite !eqb_0.
    destruct (_ || _)%bool; reflexivity.
  - intros a [[<-|[<-|[<-|[]]]]|(mu & w & ->)]; reflexivity.
  - intros fx fy. cbn. now rewrite !Nat2Z.inj_mul.
  - unfold create_outputs, concat_create, d_width, d_height, d_maps, d_samples. rewrite eqb_n. destruct (negb _); [reflexivity|]. cbn. now rewrite Nat2Z.inj_add.
  - unfold create_outputs, sum_create, d_width, d_height, d_maps, d_samples. rewrite !eqb_n. destruct (negb _); [reflexivity|]. now destruct (negb _).
  - intros w. unfold create_outputs, error_connect, d_width, d_height, d_maps, d_samples. 
    replace (Hybrid_Model.elements (mkDims (zn (samples i)) (zn (width i)) (zn (height i)) (zn (maps i)))) with (zn (Tensor_Model.elements i))
      by (rewrite (proj1 Wi); unfold Hybrid_Model.elements; cbn; lia).
    replace (Hybrid_Model.elements (mkDims (zn (samples j)) (zn (width j)) (zn (height j)) (zn (maps j)))) with (zn (Tensor_Model.elements j))
      by (rewrite (proj1 Wj); unfold Hybrid_Model.elements; cbn; lia).
    rewrite !eqb_n. destruct (samples i =? samples j), (Tensor_Model.elements i =? Tensor_Model.elements j), (samples i =? samples l); reflexivity.
Qed.

(** The parameters: weights and bias of a convolution, the two weights of HMax, none for the other layers. *)
Theorem C78_parameters : forall (K : num D) (junk : nat -> D) (i o : tensor D),
  (forall c seed dropout llr ow oh st, 0 < cv_omaps c * cv_kw c * cv_kh c * (maps i / cv_group c) ->
     conv_state_of K junk c (width i) (height i) (maps i) (samples i) ow oh = Ok st ->
     parameters_of (convolution c seed dropout llr) [size_of i] = [size_of (cs_weights st); size_of (cs_bias st)]) /\
  (forall mu w t, hmax_connect K junk i o = Ok (Some t) -> parameters_of (@LHMax D mu w) [size_of i] = [size_of t]) /\
  (forall (a : layer) ds, (forall c1 c2 c3 c4 c5 c6 c7 c8 c9 c10 c11, a <> LConvolution c1 c2 c3 c4 c5 c6 c7 c8 c9 c10 c11) -> (forall mu w, a <> LHMax mu w) ->
     parameters_of a ds = []).
Proof.
  intros K junk i o.
  assert (Cl : forall s w h m v t, 0 < s * w * h * m -> clear (new_tensor junk s w h m) v None = Ok t -> size_of t = mkDims (zn s) (zn w) (zn h) (zn m)).
  { intros s w h m v t P E. destruct (clear_all_spec (new_tensor junk s w h m) v) as (t' & E' & _ & S & _); [apply wf_resize, wf_empty|].
    rewrite E in E'. injection E' as <-. destruct S as (S1 & S2 & S3 & S4). unfold size_of, shape4. rewrite S1, S2, S3, S4.
    unfold new_tensor, resize, reshape. cbn [data empty_tensor]. destruct (s * m * w * h =? 0) eqn:Z; [apply Nat.eqb_eq in Z; nia|reflexivity]. }
  split; [|split].
  - intros c seed dropout llr ow oh st P E. unfold conv_state_of in E.
    repeat match type of E with bind ?r _ = _ => let F := fresh "F" in destruct r eqn:F; cbn [bind] in E; try discriminate E end.
    injection E as <-. cbn [cs_weights cs_bias]. rewrite (Cl _ _ _ _ _ _ P F1). rewrite (Cl 1 (cv_omaps c) 1 1 _ _ ltac:(nia) F0).
    unfold convolution, parameters_of, size_of, shape4, d_maps. now rewrite Nat2Z.inj_div.
  - intros mu w t E. unfold hmax_connect in E. destruct (act_connect i o); [|discriminate E].
    destruct (clear (new_tensor junk 1 2 1 1) (n1 K) None) as [t'| |] eqn:F; cbn [bind] in E; try discriminate E. injection E as <-.
    now rewrite (Cl 1 2 1 1 _ _ ltac:(lia) F).
  - intros [] [|d ds] C H; try reflexivity; try (exfalso; eapply C; reflexivity); exfalso; eapply H; reflexivity.
Qed.
End Sizes.
Print Assumptions C78_sizes.
Print Assumptions C78_parameters.

(** A 5x3 convolution with two groups and stride 2 on four maps of 9x8 pixels; the parameters of HMax behind it. *)
Example C78_sizes_hypotheses :
  let i := new_tensor (fun _ => 0%Z) 2 9 8 4 in let c := mkConv 5 3 6 2 1 0 1 2 in
  wf i /\ size_of i = mkDims 2 9 8 4 /\ create_outputs (convolution c 0 0%Z 1%Z) [size_of i] = Some [mkDims 2 3 8 6] /\
  (exists st, conv_state_of Z_num (fun _ => 0%Z) c 9 8 4 2 3 8 = Ok st /\ size_of (cs_weights st) = mkDims 6 5 3 2 /\ size_of (cs_bias st) = mkDims 1 6 1 1) /\
  exists t, hmax_connect Z_num (fun _ => 0%Z) i i = Ok (Some t) /\ size_of t = mkDims 1 2 1 1.
Proof.
  split; [apply wf_resize, wf_empty|]. split; [reflexivity|]. split; [vm_compute; reflexivity|].
  split; eexists; repeat split; vm_compute; reflexivity.
Qed.

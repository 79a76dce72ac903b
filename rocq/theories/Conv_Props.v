(** C34-C38, C44, C64: tensor operations and the convolution layer. *)
From Coq Require Import Ring_theory ZArithRing.
From Verif Require Import Base BaseFacts Float32 FloatOps Tensor_Model Tensor_Spec Tensor_Proofs Num Math_Model Math_Spec Math_Proofs Conv_Proofs Conv2_Proofs
  ConvLayer_Model ConvLayer_Spec ConvLayer_Proofs ConvExact_Proofs ConvReady_Proofs.

(** The integers satisfy the ring laws. *)
Lemma Z_ring_laws : ring_laws Z_num.
Proof.
  split.
  - exact InitialRing.Zth.
  - intros x. change (Z.eqb 0 x = true <-> x = 0%Z). rewrite Z.eqb_eq. split; auto.
  - discriminate.
Qed.

(** A tensor of integers for examples. *)
Definition zt (s w h m : nat) (l : list Z) : tensor Z := mkTensor s w h m (s * m * h * w) (Some l).

(** * C34 *)

(** Any rounding: the target block becomes alpha * (A B) if beta = 0, and
    beta * C + alpha * (A B) otherwise; the products are added in ascending order. *)
Theorem C34_gemm : forall {D} (K : num D) transA transB m n k alpha beta A smA ldA B smB ldB C smC ldC (a b c : nat -> nat -> D),
  wf C -> n <= ldC ->
  stored transA A smA ldA m k a -> stored transB B smB ldB k n b -> stored false C smC ldC m n c ->
  exists C', gemm K true transA transB m n k alpha A smA ldA B smB ldB beta C smC ldC = Ok C' /\
    wf C' /\ same_shape C' C /\
    stored false C' smC ldC m n (fun i j =>
      let product := nsum K k (fun l => nmul K (a i l) (b l j)) in
      if nzerob K beta then nmul K alpha product else nadd K (nmul K beta (c i j)) (nmul K alpha product)) /\
    (forall e, (forall i j, i < m -> j < n -> e <> smC * (maps C * width C * height C) + (i * ldC + j)) -> raw C' e = raw C e).
Proof. intros. now apply gemm_spec. Qed.
Print Assumptions C34_gemm.

(** Exact arithmetic: one formula. *)
Theorem C34_gemm_exact : forall {D} (K : num D), ring_laws K ->
  forall transA transB m n k alpha beta A smA ldA B smB ldB C smC ldC (a b c : nat -> nat -> D),
  wf C -> n <= ldC ->
  stored transA A smA ldA m k a -> stored transB B smB ldB k n b -> stored false C smC ldC m n c ->
  exists C', gemm K true transA transB m n k alpha A smA ldA B smB ldB beta C smC ldC = Ok C' /\
    stored false C' smC ldC m n (fun i j =>
      nadd K (nmul K alpha (nsum K k (fun l => nmul K (a i l) (b l j)))) (nmul K beta (c i j))).
Proof.
  intros D K HK transA transB m n k alpha beta A smA ldA B smB ldB C smC ldC a b c Hwf Hld HA HB HC.
  destruct (gemm_spec K transA transB m n k alpha beta A smA ldA B smB ldB C smC ldC a b c Hwf Hld HA HB HC) as (C' & E & _ & _ & H & _).
  exists C'. split; [exact E|]. intros i j Hi Hj. rewrite (H i j Hi Hj). f_equal. unfold scale_add.
  destruct (rl_ring K HK). destruct (nzerob K beta) eqn:Ez.
  - apply (rl_zero K HK) in Ez. rewrite Ez. rewrite (Radd_comm (nmul K alpha _)).
    assert (E0 : nmul K (n0 K) (c i j) = n0 K) by (apply (Ring_theory.ARmul_0_l (Ring_theory.Rth_ARth (Eqsth D) (Eq_ext _ _ _) (rl_ring K HK)))).
    now rewrite E0, Radd_0_l.
  - apply Radd_comm.
Qed.
Print Assumptions C34_gemm_exact.

(** Column-major matrices are refused. *)
Theorem C34_column_major_refused : forall {D} (K : num D) transA transB m n k alpha A smA ldA B smB ldB beta C smC ldC,
  gemm K false transA transB m n k alpha A smA ldA B smB ldB beta C smC ldC = Fatal.
Proof. reflexivity. Qed.
Print Assumptions C34_column_major_refused.

Theorem C34_gemv : forall {D} (K : num D) transA m n alpha beta A smA ldA X smX incX Y smY incY (a : nat -> nat -> D) (x y : nat -> D),
  wf Y -> 0 < incY ->
  stored transA A smA ldA m n a -> stored false X smX incX n 1 (fun j _ => x j) -> stored false Y smY incY m 1 (fun i _ => y i) ->
  exists Y', gemv K true transA m n alpha A smA ldA X smX incX beta Y smY incY = Ok Y' /\
    wf Y' /\ same_shape Y' Y /\
    stored false Y' smY incY m 1 (fun i _ =>
      let product := nsum K n (fun j => nmul K (x j) (a i j)) in
      if nzerob K beta then nmul K alpha product else nadd K (nmul K beta (y i)) (nmul K alpha product)) /\
    (forall e, (forall i, i < m -> e <> smY * (maps Y * width Y * height Y) + i * incY) -> raw Y' e = raw Y e).
Proof. intros. now apply gemv_spec. Qed.
Print Assumptions C34_gemv.

(** A 2x3 matrix times the transpose of a 2x3 matrix, into the left block of a 2x3 target. *)
Example C34_case :
  gemm Z_num true false true 2 2 3 2%Z (zt 1 3 2 1 [1; 2; 3; 4; 5; 6]%Z) 0 3 (zt 1 3 2 1 [1; 0; 1; 0; 1; 0]%Z) 0 3
       1%Z (zt 1 3 2 1 [100; 200; 300; 400; 500; 600]%Z) 0 3 = Ok (zt 1 3 2 1 [108; 204; 300; 420; 510; 600]%Z).
Proof. reflexivity. Qed.
Example C34_case_stored : stored true (zt 1 3 2 1 [1; 0; 1; 0; 1; 0]%Z) 0 3 3 2 (fun i j => nth i (nth j [[1; 0; 1]; [0; 1; 0]]%Z []) 0%Z).
Proof. intros i j Hi Hj. do 3 (destruct i; [do 2 (destruct j; [reflexivity|]); lia|]); lia. Qed.

(** * C44 *)

(** The constructor with explicit arguments accepts only layers as used below. *)
Theorem C44_constructor : forall c, conv_ctor c = Ok c <->
  0 < cv_kw c /\ 0 < cv_kh c /\ 0 < cv_sw c /\ 0 < cv_sh c /\ 0 < cv_group c /\ cv_omaps c mod cv_group c = 0.
Proof.
  intros c. unfold conv_ctor.
  destruct (Nat.eqb_spec (cv_kw c) 0), (Nat.eqb_spec (cv_kh c) 0), (Nat.eqb_spec (cv_sw c) 0), (Nat.eqb_spec (cv_sh c) 0),
    (Nat.eqb_spec (cv_group c) 0); cbn [orb]; try (split; [discriminate|lia]).
  destruct (Nat.eqb_spec (cv_omaps c mod cv_group c) 0) as [E|E]; cbn [negb].
  - split; [intros _; repeat split; lia|reflexivity].
  - split; [discriminate|lia].
Qed.
Print Assumptions C44_constructor.

Theorem C44_accepts : forall c w h m,
  0 < cv_sw c -> 0 < cv_sh c -> 0 < cv_group c ->
  (Z.of_nat (cv_kw c) < 2 ^ 32)%Z -> (Z.of_nat (cv_kh c) < 2 ^ 32)%Z ->
  (Z.of_nat (cv_sw c) < 2 ^ 32)%Z -> (Z.of_nat (cv_sh c) < 2 ^ 32)%Z ->
  (Z.of_nat (w + 2 * cv_pw c) < 2 ^ 64)%Z -> (Z.of_nat (h + 2 * cv_ph c) < 2 ^ 64)%Z ->
  forall r, conv_insert c w h m = Ok (Some r) <->
     cv_kw c <= w + 2 * cv_pw c /\ cv_kh c <= h + 2 * cv_ph c /\ m mod cv_group c = 0 /\
     r = (Z.of_nat (positions (w + 2 * cv_pw c) (cv_kw c) (cv_sw c)), Z.of_nat (positions (h + 2 * cv_ph c) (cv_kh c) (cv_sh c))).
Proof. exact conv_insert_spec. Qed.
Print Assumptions C44_accepts.

(** [positions] counts the stride positions: position [i] exists exactly when the kernel
    placed there ends inside the padded input. *)
Theorem C44_window_inside : forall n k stride i, 0 < stride -> i < positions n k stride <-> i * stride + k <= n.
Proof. exact positions_fit. Qed.
Print Assumptions C44_window_inside.

Example C44_case : conv_insert (mkConv 5 3 4 2 1 1 0 2) 9 6 4 = Ok (Some (4, 4)%Z) /\
  conv_insert (mkConv 5 3 4 2 1 1 0 2) 9 6 3 = Fatal /\ conv_insert (mkConv 5 3 4 2 1 0 0 2) 4 6 4 = Ok None.
Proof. repeat split. Qed.

(** FINDING: CreateOutputs alone accepts a kernel that does not fit, because signed division
    rounds towards zero. *)
Theorem C44_create_outputs_refuted : exists c w h m ow oh, w + 2 * cv_pw c < cv_kw c /\ 0 < cv_sw c /\
  conv_create_outputs c w h m = Ok (Some (ow, oh)).
Proof. exists (mkConv 5 1 1 2 1 0 0 1), 4, 1, 1, 1%Z, 1%Z. repeat split; cbn; lia. Qed.
Print Assumptions C44_create_outputs_refuted.

(** FINDING: a layer built from a configuration string is not checked: with a number of
    output maps that the groups do not divide it is inserted all the same. *)
Theorem C44_groups_refuted : exists c w h m r, cv_omaps c mod cv_group c <> 0 /\ conv_insert c w h m = Ok (Some r).
Proof. exists (mkConv 1 1 3 1 1 0 0 2), 1, 1, 2, (1, 1)%Z. split; [discriminate|reflexivity]. Qed.
Print Assumptions C44_groups_refuted.

(** * C35 *)

(** A layer whose input was accepted is ready to run, with zero weights, and remains so when
    weights and biases of the same shape are put in. *)
Theorem C35_connected : forall {D} (K : num D) junk c w h m S,
  conv_ctor c = Ok c -> 0 < S -> 0 < m -> 0 < cv_omaps c ->
  cv_kw c <= w + 2 * cv_pw c -> cv_kh c <= h + 2 * cv_ph c -> m mod cv_group c = 0 ->
  exists st, conv_state_of K junk c w h m S (positions (w + 2 * cv_pw c) (cv_kw c) (cv_sw c))
                           (positions (h + 2 * cv_ph c) (cv_kh c) (cv_sh c)) = Ok st /\
    conv_ready K c st w h m S (fun _ _ _ _ => n0 K) (fun _ => n0 K) /\
    forall W B wt b, wf W -> has_shape W (cv_omaps c) (cv_kw c) (cv_kh c) (m / cv_group c) -> contents W wt ->
      wf B -> has_shape B 1 (cv_omaps c) 1 1 -> contents B (fun o _ _ _ => b o) ->
      conv_ready K c (set_params st W B) w h m S wt b.
Proof.
  intros D K junk c w h m S Hc HS Hm Ho F1 F2 M1. apply C44_constructor in Hc as (A1 & A2 & A3 & A4 & A5 & A6).
  destruct (conv_connected_ready K junk c w h m S) as (st & E & Hr); auto.
  exists st. split; [exact E|]. split; [exact Hr|]. intros. eapply conv_ready_set_params; eauto.
Qed.
Print Assumptions C35_connected.

(** Exact arithmetic: bias plus the sum over the window of weight times zero-padded input,
    scaled by one minus the dropout fraction while testing.  The layer is ready again. *)
Theorem C35_forward : forall {D} (K : num D), ring_laws K ->
  forall c st w h m S wt b (testing : bool) dropout input output img,
  conv_ready K c st w h m S wt b ->
  wf input -> has_shape input S w h m -> contents input img ->
  wf output -> has_shape output S (cs_ow st) (cs_oh st) (cv_omaps c) ->
  (testing = true \/ dropout = n0 K) ->
  let factor := if testing then nsub K (n1 K) dropout else n1 K in
  exists st' output', conv_ff K c testing dropout st input output = Ok (st', output') /\
    wf output' /\ same_shape output' output /\
    contents output' (fun x y o s => nmul K factor (nadd K (b o) (window K c w h m wt img x y o s))) /\
    conv_ready K c st' w h m S wt b.
Proof.
  intros D K HK c st w h m S wt b testing dropout input output img HR Wi Si Ci Wo So Hd factor.
  assert (Hz0 : nzerob K (n0 K) = true) by now apply (rl_zero K HK).
  assert (Hz1 : nzerob K (n1 K) = false).
  { destruct (nzerob K (n1 K)) eqn:E; [|reflexivity]. apply (rl_zero K HK) in E. now destruct (rl_one K HK). }
  assert (Hp : nzerob K (if testing then n0 K else dropout) = true).
  { destruct testing; [exact Hz0|]. destruct Hd as [Hd|Hd]; [discriminate|]. now rewrite Hd. }
  destruct (conv_ff_spec K c st w h m S wt b testing dropout input output img Hz0 Hz1 HR Wi Si Ci Wo So Hp)
    as (st' & output' & E & W' & S' & C' & R' & _).
  exists st', output'. split; [exact E|]. split; [exact W'|]. split; [exact S'|]. split; [|exact R'].
  intros x y o s Hv. rewrite (C' x y o s Hv). f_equal. rewrite (flat_window_nested K HK). fold factor.
  destruct (rl_ring K HK). rewrite !Rmul_1_l, Radd_0_l, (Rmul_comm (b o)), Rmul_1_l.
  rewrite (Rmul_comm factor (nadd K _ _)), Rdistr_l, (Rmul_comm factor (window K c w h m wt img x y o s)), (Rmul_comm factor (b o)).
  apply Radd_comm.
Qed.
Print Assumptions C35_forward.

(** The same for any rounding, with the order of the operations: the window is summed map by
    map, row by row. *)
Theorem C35_forward_rounded : forall {D} (K : num D), nzerob K (n0 K) = true -> nzerob K (n1 K) = false ->
  forall c st w h m S wt b input output img,
  conv_ready K c st w h m S wt b ->
  wf input -> has_shape input S w h m -> contents input img ->
  wf output -> has_shape output S (cs_ow st) (cs_oh st) (cv_omaps c) ->
  exists st' output', conv_ff K c false (n0 K) st input output = Ok (st', output') /\
    contents output' (fun x y o s =>
      let mg := m / cv_group c in
      nadd K
        (nmul K (n1 K) (nmul K (n1 K) (nsum K (cv_kw c * cv_kh c * mg) (fun k =>
           let kx := k mod cv_kw c in let ky := (k / cv_kw c) mod cv_kh c in let i := k / (cv_kw c * cv_kh c) in
           nmul K (wt kx ky i o)
             (padded K w h img (Z.of_nat (x * cv_sw c + kx) - Z.of_nat (cv_pw c)) (Z.of_nat (y * cv_sh c + ky) - Z.of_nat (cv_ph c))
                (o / (cv_omaps c / cv_group c) * mg + i) s)))))
        (nmul K (n1 K) (nadd K (n0 K) (nmul K (b o) (n1 K))))).
Proof.
  intros D K Hz0 Hz1 c st w h m S wt b input output img HR Wi Si Ci Wo So.
  destruct (conv_ff_spec K c st w h m S wt b false (n0 K) input output img Hz0 Hz1 HR Wi Si Ci Wo So Hz0)
    as (st' & output' & E & W' & S' & C' & R' & _).
  exists st', output'. split; [exact E|].
  intros x y o s Hv. rewrite (C' x y o s Hv). cbv zeta. f_equal. f_equal. f_equal. f_equal. unfold flat_window. cbv zeta.
  apply nsum_ext. intros k Hk. f_equal.
  destruct (decode_map _ _ _ _ Hk) as (Hx & Hy & Hi & Ek). set (mg := m / cv_group c) in *. set (q := o / _).
  remember (k mod cv_kw c) as kx. remember ((k / cv_kw c) mod cv_kh c) as ky. remember (k / (cv_kw c * cv_kh c)) as i.
  replace (q * (cv_kw c * cv_kh c * mg) + k) with (((q * mg + i) * cv_kh c + ky) * cv_kw c + kx) by (rewrite Ek; ring).
  exact (col_value_encoded K (conv_geo c w h m S) img x y s (q * mg + i) ky kx Hx Hy).
Qed.
Print Assumptions C35_forward_rounded.

(** Floats satisfy the hypotheses of the rounded form. *)
Example C35_floats : nzerob f32_num (n0 f32_num) = true /\ nzerob f32_num (n1 f32_num) = false.
Proof. split; reflexivity. Qed.

(** Training with dropout always ends in FATAL. *)
Theorem C35_dropout_refused : forall {D} (K : num D), nzerob K (n0 K) = true -> nzerob K (n1 K) = false ->
  forall c st w h m S wt b dropout input output img,
  conv_ready K c st w h m S wt b ->
  wf input -> has_shape input S w h m -> contents input img ->
  wf output -> has_shape output S (cs_ow st) (cs_oh st) (cv_omaps c) ->
  nzerob K dropout = false -> conv_ff K c false dropout st input output = Fatal.
Proof.
  intros D K Hz0 Hz1 c st w h m S wt b dropout input output img HR Wi Si Ci Wo So Hd.
  destruct (conv_ff_spec K c st w h m S wt b false (n0 K) input output img Hz0 Hz1 HR Wi Si Ci Wo So Hz0)
    as (st' & output' & E & _).
  unfold conv_ff in *. cbv zeta in *.
  destruct (im2col K (cs_geo st) input (cs_im2col st)); try discriminate. cbn [bind] in *.
  destruct (foldm _ _ _); try discriminate. cbn [bind] in *.
  destruct (gemm K true false false _ _ _ _ _ _ _ _ _ _ _ _ _ _); try discriminate. cbn [bind] in *.
  destruct (sms _ output); try discriminate. cbn [bind] in *. now rewrite Hd.
Qed.
Print Assumptions C35_dropout_refused.

(** A 3x2 image, a 2x2 kernel, padding 1 on the left and right. *)
Definition ex_conv : conv := mkConv 2 2 1 1 1 1 0 1.
Definition ex_state : res conv_state := conv_state_of Z_num (fun _ => 7%Z) ex_conv 3 2 1 1 4 1.
Example C35_case :
  (st <- ex_state ;;
   r <- conv_ff Z_num ex_conv false 0%Z (set_params st (zt 1 2 2 1 [1; 2; 3; 4]%Z) (zt 1 1 1 1 [10]%Z))
          (zt 1 3 2 1 [1; 2; 3; 4; 5; 6]%Z) (zt 1 4 1 1 [0; 0; 0; 0]%Z) ;; Ok (snd r)) =
  Ok (zt 1 4 1 1 [28; 47; 57; 31]%Z).
Proof. reflexivity. Qed.

(** * C36 *)

Theorem C36_patch_extraction : forall {D} (K : num D) g (source target : tensor D) img,
  geometry_ok g -> wf source -> wf target ->
  has_shape source (g_samples g) (g_width g) (g_height g) (g_maps g) -> contents source img ->
  has_shape target (g_kw g * g_kh g * g_maps g) (o_width g) (o_height g) (g_samples g) ->
  exists target', im2col K g source target = Ok target' /\ wf target' /\ same_shape target' target /\
    forall ox oy s m ky kx, ox < o_width g -> oy < o_height g -> s < g_samples g -> m < g_maps g -> ky < g_kh g -> kx < g_kw g ->
      at_pos target' ox oy s ((m * g_kh g + ky) * g_kw g + kx) =
      Some (padded K (g_width g) (g_height g) img (Z.of_nat (ox * g_sw g + kx) - Z.of_nat (g_pw g))
                   (Z.of_nat (oy * g_sh g + ky) - Z.of_nat (g_ph g)) m s).
Proof.
  intros D K g source target img Hg Ws Wt Ss Ci St.
  destruct (im2col_spec K g source target img Hg Ws Wt Ss Ci St) as (t' & E & W' & S' & C').
  exists t'. split; [exact E|]. split; [exact W'|]. split; [exact S'|].
  intros ox oy s m ky kx Hox Hoy Hs Hm Hky Hkx. rewrite C'.
  - f_equal. apply (col_value_encoded K g img ox oy s m ky kx Hkx Hky).
  - apply (same_shape_valid t' target ox oy s _ S'). destruct St as (A & B & C & E'). unfold valid_pos. rewrite A, B, C, E'.
    repeat split; auto. now apply encode_lt.
Qed.
Print Assumptions C36_patch_extraction.

(** Every pixel receives the sum of the gradients of the patch elements read from it, for
    inputs at least as wide as high and without horizontal padding. *)
Theorem C36_gradient : forall {D} (K : num D), ring_laws K -> forall g (source target : tensor D) col,
  geometry_ok g -> g_pw g = 0 -> g_height g <= g_width g -> wf source -> wf target ->
  has_shape source (g_samples g) (g_width g) (g_height g) (g_maps g) ->
  has_shape target (g_kw g * g_kh g * g_maps g) (o_width g) (o_height g) (g_samples g) -> contents target col ->
  exists source', col2im K g source target = Ok source' /\ wf source' /\ same_shape source' source /\
    contents source' (col_gradient K g col).
Proof.
  intros D K HK g source target col Hg Hp Hhw Ws Wt Ss St Ct.
  destruct (col2im_spec K g source target col Hg (conj Hp Hhw) Ws Wt Ss St Ct) as (s' & E & W' & S' & C').
  exists s'. split; [exact E|]. split; [exact W'|]. split; [exact S'|].
  intros x y m s Hv. rewrite (C' x y m s Hv). f_equal. apply (readers_gradient K HK).
  destruct S' as (_ & _ & _ & E4), Ss as (_ & _ & _ & F4), Hv as (_ & _ & Hm & _). lia.
Qed.
Print Assumptions C36_gradient.

(** The two operations are adjoint: <columns of x, c> = <x, image of c>. *)
Theorem C36_adjoint : forall {D} (K : num D), ring_laws K -> forall g (source target source0 target0 : tensor D) img col,
  geometry_ok g -> g_pw g = 0 -> g_height g <= g_width g ->
  wf source -> wf target -> wf source0 -> wf target0 ->
  has_shape source (g_samples g) (g_width g) (g_height g) (g_maps g) -> contents source img ->
  has_shape target (g_kw g * g_kh g * g_maps g) (o_width g) (o_height g) (g_samples g) -> contents target col ->
  same_shape source0 source -> same_shape target0 target ->
  exists columns image f h, im2col K g source target0 = Ok columns /\ col2im K g source0 target = Ok image /\
    contents columns f /\ contents image h /\
    dot K (g_kw g * g_kh g * g_maps g) (o_width g) (o_height g) (g_samples g) col f =
    dot K (g_samples g) (g_width g) (g_height g) (g_maps g) img h.
Proof.
  intros D K HK g source target source0 target0 img col Hg Hp Hhw Ws Wt Ws0 Wt0 Ss Ci St Ct SS TT.
  assert (St0 : has_shape target0 (col_maps g) (o_width g) (o_height g) (g_samples g)) by (eapply shape_same; eauto).
  assert (Ss0 : has_shape source0 (g_samples g) (g_width g) (g_height g) (g_maps g)) by (eapply shape_same; eauto).
  destruct (im2col_spec K g source target0 img Hg Ws Wt0 Ss Ci St0) as (t' & E1 & _ & _ & C1).
  destruct (col2im_spec K g source0 target col Hg (conj Hp Hhw) Ws0 Wt Ss0 St Ct) as (s' & E2 & _ & _ & C2).
  eexists t', s', _, _. split; [exact E1|]. split; [exact E2|]. split; [exact C1|]. split; [exact C2|].
  apply (col_adjoint K HK).
Qed.
Print Assumptions C36_adjoint.

Definition ex_geo : geometry := mkGeo 3 2 1 1 2 2 1 1 0 0.
Example C36_case : im2col Z_num ex_geo (zt 1 3 2 1 [1; 2; 3; 4; 5; 6]%Z) (zt 4 2 1 1 (repeat 0%Z 8)) =
    Ok (zt 4 2 1 1 [1; 2; 2; 3; 4; 5; 5; 6]%Z) /\
  col2im Z_num ex_geo (zt 1 3 2 1 (repeat 9%Z 6)) (zt 4 2 1 1 [1; 2; 2; 3; 4; 5; 5; 6]%Z) = Ok (zt 1 3 2 1 [1; 4; 3; 4; 10; 6]%Z) /\
  geometry_ok ex_geo.
Proof. split; [reflexivity|]. split; [reflexivity|]. unfold geometry_ok. cbn. lia. Qed.

(** FINDING (TensorMath.cpp:335 tests iy instead of ix): for an input higher than wide the
    gradient of the rows below the width is lost. *)
Theorem C36_tall_refuted : exists g source target source' x y m s, geometry_ok g /\ g_pw g = 0 /\
  col2im Z_num g source target = Ok source' /\
  at_pos source' x y m s = Some 0%Z /\
  (exists col, contents target col /\ col_gradient Z_num g col x y m s = 1%Z).
Proof.
  exists (mkGeo 1 2 1 1 1 1 1 1 0 0), (zt 1 1 2 1 [0; 0]%Z), (zt 1 1 2 1 [1; 1]%Z), (zt 1 1 2 1 [1; 0]%Z), 0, 1, 0, 0.
  split; [unfold geometry_ok; cbn; lia|]. split; [reflexivity|]. split; [reflexivity|]. split; [reflexivity|].
  exists (fun _ _ _ _ => 1%Z). split; [|reflexivity].
  intros x y m s (Hx & Hy & Hm & Hs). cbn in *. assert (x = 0) as -> by lia. assert (m = 0) as -> by lia. assert (s = 0) as -> by lia.
  destruct y as [|[|]]; [reflexivity|reflexivity|lia].
Qed.
Print Assumptions C36_tall_refuted.

(** FINDING: with horizontal padding the gradient of the right border goes to the next row. *)
Theorem C36_padding_refuted : exists g source target source', geometry_ok g /\ g_height g <= g_width g /\
  col2im Z_num g source target = Ok source' /\
  exists x y m s v, at_pos source' x y m s = Some v /\
    exists col, contents target col /\ col_gradient Z_num g col x y m s <> v.
Proof.
  (* a 2x2 image padded by one column on both sides, kernel 1x1, vertical stride 2: the
     padding at the right of row 0 is added to the first pixel of row 1 *)
  exists (mkGeo 2 2 1 1 1 1 1 2 1 0), (zt 1 2 2 1 [0; 0; 0; 0]%Z), (zt 1 4 1 1 [0; 0; 0; 5]%Z), (zt 1 2 2 1 [0; 0; 5; 0]%Z).
  split; [unfold geometry_ok; cbn; lia|]. split; [cbn; lia|]. split; [reflexivity|].
  exists 0, 1, 0, 0, 5%Z. split; [reflexivity|].
  exists (fun x y _ _ => if (x =? 3) && (y =? 0) then 5%Z else 0%Z). split; [|vm_compute; discriminate].
  intros x y m s (Hx & Hy & Hm & Hs). cbn in *. assert (m = 0) as -> by lia. assert (s = 0) as -> by lia.
  assert (y = 0) as -> by lia. do 4 (destruct x as [|x]; [reflexivity|]); lia.
Qed.
Print Assumptions C36_padding_refuted.

(** FINDING: and behind the last row it is added to memory outside the tensor. *)
Theorem C36_out_of_bounds_refuted : exists g source target, geometry_ok g /\ g_height g <= g_width g /\ wf source /\ wf target /\
  has_shape source (g_samples g) (g_width g) (g_height g) (g_maps g) /\
  has_shape target (g_kw g * g_kh g * g_maps g) (o_width g) (o_height g) (g_samples g) /\
  col2im Z_num g source target = UB.
Proof.
  exists (mkGeo 1 1 1 1 1 1 1 1 1 0), (zt 1 1 1 1 [0]%Z), (zt 1 3 1 1 [0; 0; 0]%Z).
  split; [unfold geometry_ok; cbn; lia|]. split; [cbn; lia|].
  split; [repeat split; cbn; lia|]. split; [repeat split; cbn; lia|]. repeat split.
Qed.
Print Assumptions C36_out_of_bounds_refuted.

(** * C37 *)

Theorem C37_swap : forall {D} (source target : tensor D) f, wf source -> wf target ->
  has_shape source (maps target) (width target) (height target) (samples target) -> contents source f ->
  exists target', sms source target = Ok target' /\ wf target' /\ same_shape target' target /\
    contents target' (fun x y m s => f x y s m).
Proof. intros. now apply sms_spec. Qed.
Print Assumptions C37_swap.

Theorem C37_involution : forall {D} (source middle target : tensor D), wf source -> wf middle -> wf target ->
  has_shape source (maps middle) (width middle) (height middle) (samples middle) -> same_shape target source ->
  exists middle', sms source middle = Ok middle' /\ sms middle' target = Ok source.
Proof.
  intros D source middle target Ws Wm Wt Sm St.
  destruct (data source) as [[|d l]|] eqn:Ed.
  - destruct Ws as [_ H]. rewrite Ed in H. destruct H as [H1 H2]. cbn in H1. lia.
  - destruct (contents_exists d source Ws) as [f Hf].
    destruct (sms_spec source middle f Ws Wm Sm Hf) as (m' & E1 & W1 & S1 & C1).
    assert (Sm' : has_shape m' (maps target) (width target) (height target) (samples target)).
    { destruct S1 as (A1 & A2 & A3 & A4), St as (B1 & B2 & B3 & B4), Sm as (D1 & D2 & D3 & D4). repeat split; congruence. }
    destruct (sms_spec m' target _ W1 Wt Sm' C1) as (t' & E2 & W2 & S2 & C2).
    exists m'. split; [exact E1|]. rewrite E2. f_equal.
    assert (SS : same_shape t' source) by (eapply same_shape_trans; eauto).
    apply tensor_ext; auto.
    intros x y m s. destruct (valid_pos_dec source x y m s) as [Hv|Hv].
    + rewrite (Hf x y m s Hv). apply C2. now apply (same_shape_valid _ _ _ _ _ _ SS).
    + rewrite (at_pos_invalid source) by exact Hv. apply at_pos_invalid.
      intros H. apply Hv. now apply (same_shape_valid _ _ _ _ _ _ SS).
  - assert (Hz : forall t : tensor D, wf t -> samples t = 0 -> t = empty_tensor).
    { intros t [He Hd] Hs. destruct t as [a b c d e [l|]]; cbn in *; subst; [cbn in Hd; lia|].
      destruct Hd as (_ & -> & -> & ->). reflexivity. }
    assert (Ezs : source = empty_tensor).
    { apply Hz; [exact Ws|]. destruct Ws as [_ H]. rewrite Ed in H. apply H. }
    subst source. destruct Sm as (A & B & C & E). cbn in *.
    rewrite (Hz middle Wm) by lia. destruct St as (F & _). cbn in F. rewrite (Hz target Wt) by lia.
    exists empty_tensor. split; reflexivity.
Qed.
Print Assumptions C37_involution.

Example C37_case : sms (zt 2 2 1 3 [1; 2; 3; 4; 5; 6; 7; 8; 9; 10; 11; 12]%Z) (zt 3 2 1 2 (repeat 0%Z 12)) =
  Ok (zt 3 2 1 2 [1; 2; 7; 8; 3; 4; 9; 10; 5; 6; 11; 12]%Z).
Proof. reflexivity. Qed.

(** * C38 *)

(** Any rounding: upscaling puts source(x / rw, y / rh) times the factor at (x, y). *)
Theorem C38_upscale : forall {D} (K : num D) (source target : tensor D) rw rh factor f, wf source -> wf target ->
  has_shape target (samples source) (rw * width source) (rh * height source) (maps source) -> contents source f ->
  exists target', up K source target rw rh factor = Ok target' /\ wf target' /\ same_shape target' target /\
    contents target' (fun x y m s => nmul K (f (x / rw) (y / rh) m s) factor).
Proof. intros. now apply up_spec. Qed.
Print Assumptions C38_upscale.

(** Downsampling: the sum over the region times the factor. *)
Theorem C38_downsample : forall {D} (K : num D), ring_laws K -> forall (source target : tensor D) rw rh factor f, wf source -> wf target ->
  has_shape source (samples target) (rw * width target) (rh * height target) (maps target) -> contents source f ->
  exists target', down K source target rw rh factor = Ok target' /\ wf target' /\ same_shape target' target /\
    contents target' (fun x y m s =>
      nmul K (nsum K rh (fun ry => nsum K rw (fun rx => f (rw * x + rx) (rh * y + ry) m s))) factor).
Proof.
  intros D K HK source target rw rh factor f Ws Wt Ss Cf.
  destruct (down_spec K source target rw rh factor f Ws Wt Ss Cf) as (t' & E & W' & S' & C').
  exists t'. split; [exact E|]. split; [exact W'|]. split; [exact S'|].
  intros x y m s Hv. rewrite (C' x y m s Hv). now rewrite (region_sum K HK).
Qed.
Print Assumptions C38_downsample.

(** Averaging an upscaled tensor restores it: [avg] times the number of pixels is one. *)
Theorem C38_average_of_upscaled : forall {D} (K : num D), ring_laws K -> forall (source middle target : tensor D) rw rh avg,
  wf source -> wf middle -> wf target -> 0 < rw -> 0 < rh ->
  has_shape middle (samples source) (rw * width source) (rh * height source) (maps source) -> same_shape target source ->
  nmul K (nsum K (rh * rw) (fun _ => n1 K)) avg = n1 K ->
  exists middle' target', up K source middle rw rh (n1 K) = Ok middle' /\ down K middle' target rw rh avg = Ok target' /\
    forall x y m s, at_pos target' x y m s = at_pos source x y m s.
Proof.
  intros D K HK source middle target rw rh avg Ws Wm Wt Hrw Hrh Sm St Havg.
  destruct (contents_exists (n0 K) source Ws) as [f Hf].
  destruct (up_spec K source middle rw rh (n1 K) f Ws Wm Sm Hf) as (m' & E1 & W1 & S1 & C1).
  assert (Sm' : has_shape m' (samples target) (rw * width target) (rh * height target) (maps target)).
  { destruct S1 as (A1 & A2 & A3 & A4), Sm as (B1 & B2 & B3 & B4), St as (F1 & F2 & F3 & F4).
    unfold has_shape. rewrite F1, F2, F3, F4. repeat split; congruence. }
  destruct (down_spec K m' target rw rh avg _ W1 Wt Sm' C1) as (t' & E2 & W2 & S2 & C2).
  exists m', t'. split; [exact E1|]. split; [exact E2|].
  assert (SS : same_shape t' source) by (eapply same_shape_trans; eauto).
  intros x y m s. destruct (valid_pos_dec source x y m s) as [Hv|Hv].
  - rewrite (Hf x y m s Hv), C2 by (now apply (same_shape_valid _ _ _ _ _ _ SS)). f_equal.
    rewrite (region_sum K HK), (region_const K HK) by assumption. destruct (rl_ring K HK).
    rewrite (Rmul_comm _ (n1 K)), Rmul_1_l, Havg, Rmul_comm. apply Rmul_1_l.
  - rewrite (at_pos_invalid source) by exact Hv. apply at_pos_invalid.
    intros H. apply Hv. now apply (same_shape_valid _ _ _ _ _ _ SS).
Qed.
Print Assumptions C38_average_of_upscaled.

(** The two are adjoint: <up a, b> = <a, down b> with the same factor. *)
Theorem C38_adjoint : forall {D} (K : num D), ring_laws K -> forall (a big b small : tensor D) rw rh factor fa fb,
  wf a -> wf b -> wf big -> wf small -> 0 < rw -> 0 < rh ->
  has_shape big (samples a) (rw * width a) (rh * height a) (maps a) -> same_shape b big -> same_shape small a ->
  contents a fa -> contents b fb ->
  exists a' b' fa' fb', up K a big rw rh factor = Ok a' /\ down K b small rw rh factor = Ok b' /\
    contents a' fa' /\ contents b' fb' /\
    dot K (samples a) (rw * width a) (rh * height a) (maps a) fa' fb = dot K (samples a) (width a) (height a) (maps a) fa fb'.
Proof.
  intros D K HK a big b small rw rh factor fa fb Wa Wb Wbig Wsm Hrw Hrh Sbig Sb Ssm Ca Cb.
  destruct (up_spec K a big rw rh factor fa Wa Wbig Sbig Ca) as (a' & E1 & _ & _ & C1).
  assert (Sb' : has_shape b (samples small) (rw * width small) (rh * height small) (maps small)).
  { destruct Ssm as (F1 & F2 & F3 & F4). rewrite F1, F2, F3, F4. eapply shape_same; eauto. }
  destruct (down_spec K b small rw rh factor fb Wb Wsm Sb' Cb) as (b' & E2 & _ & _ & C2).
  eexists a', b', _, _. split; [exact E1|]. split; [exact E2|]. split; [exact C1|]. split; [exact C2|].
  rewrite (up_down_adjoint K HK) by assumption. unfold dot, tensor_sum.
  apply nsum_ext. intros s _. apply nsum_ext. intros m _. apply nsum_ext. intros y _. apply nsum_ext. intros x _.
  now rewrite (region_sum K HK).
Qed.
Print Assumptions C38_adjoint.

Example C38_case : up Z_num (zt 1 2 1 1 [3; 4]%Z) (zt 1 4 2 1 (repeat 0%Z 8)) 2 2 1%Z = Ok (zt 1 4 2 1 [3; 3; 4; 4; 3; 3; 4; 4]%Z) /\
  down Z_num (zt 1 4 2 1 [3; 3; 4; 4; 3; 3; 4; 5]%Z) (zt 1 2 1 1 [0; 0]%Z) 2 2 10%Z = Ok (zt 1 2 1 1 [120; 170]%Z).
Proof. split; reflexivity. Qed.

(** * C64 *)

(** The backward pass: weight gradients are sums over all positions of output gradient times
    input, bias gradients sums of output gradients, and the input gradient collects output
    gradient times weight from every window covering the pixel.  The column buffer must hold
    the patches of the forward pass, as [C35_forward] leaves it. *)
Theorem C64_backward : forall {D} (K : num D), ring_laws K ->
  forall c st0 w h m S wt b input output output_delta input_delta img dl backprop st1 out,
  conv_ready K c st0 w h m S wt b -> 0 < m / cv_group c ->
  wf input -> has_shape input S w h m -> contents input img ->
  wf output -> has_shape output S (cs_ow st0) (cs_oh st0) (cv_omaps c) ->
  conv_ff K c false (n0 K) st0 input output = Ok (st1, out) ->
  wf output_delta -> same_shape output_delta output -> contents output_delta dl ->
  wf input_delta -> same_shape input_delta input ->
  (backprop = true -> cv_pw c = 0 /\ h <= w) ->
  let ow := cs_ow st0 in let oh := cs_oh st0 in
  exists st2 input_delta', conv_bp K c backprop st1 S output_delta input_delta = Ok (st2, input_delta') /\
    contents (cs_weights_delta st2) (weight_gradient K c w h m ow oh S img dl) /\
    contents (cs_bias_delta st2) (fun o _ _ _ => nsum K S (fun s => nsum K oh (fun y => nsum K ow (fun x => dl x y o s)))) /\
    (backprop = true -> contents input_delta' (input_gradient K c m ow oh wt dl)) /\
    (backprop = false -> input_delta' = input_delta) /\
    wf input_delta' /\ same_shape input_delta' input_delta /\
    conv_ready K c st2 w h m S wt b.
Proof.
  intros D K HK c st0 w h m S wt b input output output_delta input_delta img dl backprop st1 out HR Hmg Wi Si Ci Wo So Eff Wd Sd Cd Wid Sid Hsafe ow oh.
  assert (Hz0 : nzerob K (n0 K) = true) by now apply (rl_zero K HK).
  assert (Hz1 : nzerob K (n1 K) = false).
  { destruct (nzerob K (n1 K)) eqn:E; [|reflexivity]. apply (rl_zero K HK) in E. now destruct (rl_one K HK). }
  destruct (conv_ff_spec K c st0 w h m S wt b false (n0 K) input output img Hz0 Hz1 HR Wi Si Ci Wo So Hz0)
    as (st1' & out' & E & _ & _ & _ & R1 & _ & _ & C1).
  assert (E11 : st1' = st1) by congruence. subst st1'.
  assert (Eow : cs_ow st1 = ow) by (unfold ow; rewrite (cr_ow _ _ _ _ _ _ _ _ _ HR); apply (cr_ow _ _ _ _ _ _ _ _ _ R1)).
  assert (Eoh : cs_oh st1 = oh) by (unfold oh; rewrite (cr_oh _ _ _ _ _ _ _ _ _ HR); apply (cr_oh _ _ _ _ _ _ _ _ _ R1)).
  assert (Sod : has_shape output_delta S (cs_ow st1) (cs_oh st1) (cv_omaps c)) by (rewrite Eow, Eoh; eapply shape_same; eauto).
  assert (Sid' : has_shape input_delta S w h m) by (eapply shape_same; eauto).
  destruct (conv_bp_spec K c st1 w h m S wt b backprop output_delta input_delta img dl Hz0 R1 C1 Wd Sod Cd Wid Sid' Hsafe)
    as (st2 & di & Ebp & R2 & Cw & Cb & Wdi & Sdi & Hf & Ht).
  exists st2, di. split; [exact Ebp|]. rewrite Eow, Eoh in *. split; [|split; [|split; [|split; [exact Hf|auto]]]].
  - intros kx ky i o Hv. rewrite (Cw kx ky i o Hv). f_equal.
    destruct (cr_weights_delta _ _ _ _ _ _ _ _ _ R2) as (_ & A1 & A2 & A3 & A4). destruct Hv as (Hx & Hy & _).
    apply (weight_gradient_nested K HK); congruence.
  - intros o y i s Hv. rewrite (Cb o y i s Hv). f_equal. apply (bias_gradient_nested K HK).
  - intros Hb x y i s Hv. rewrite (Ht Hb x y i s Hv). f_equal.
    rewrite (input_gradient_nested K HK).
    + f_equal; [|]; unfold ow, oh; [now rewrite (cr_ow _ _ _ _ _ _ _ _ _ HR)|now rewrite (cr_oh _ _ _ _ _ _ _ _ _ HR)].
    + destruct Sdi as (_ & _ & _ & E4), Sid' as (_ & _ & _ & F4), Hv as (_ & _ & Hm & _). lia.
    + exact Hmg.
Qed.
Print Assumptions C64_backward.

(** The gradients are those of the pairing <conv(weights, image), dl>, which is linear in the
    image and in the weights: the pairing equals <image, input gradient> and
    <weights, weight gradient>. *)
Theorem C64_transpose : forall {D} (K : num D), ring_laws K -> forall c w h m S wt img dl,
  0 < cv_group c -> m mod cv_group c = 0 -> cv_omaps c mod cv_group c = 0 -> 0 < m / cv_group c ->
  let ow := positions (w + 2 * cv_pw c) (cv_kw c) (cv_sw c) in
  let oh := positions (h + 2 * cv_ph c) (cv_kh c) (cv_sh c) in
  dot K S ow oh (cv_omaps c) (window K c w h m wt img) dl = dot K S w h m img (input_gradient K c m ow oh wt dl) /\
  dot K S ow oh (cv_omaps c) (window K c w h m wt img) dl =
  dot K (cv_omaps c) (cv_kw c) (cv_kh c) (m / cv_group c) wt (weight_gradient K c w h m ow oh S img dl).
Proof.
  intros D K HK c w h m S wt img dl Hg Hm Ho Hmg. cbv zeta. split.
  - now apply (conv_adjoint K HK c w h m S).
  - now apply (conv_weight_adjoint K HK c w h m S).
Qed.
Print Assumptions C64_transpose.

Definition ex_conv2 : conv := mkConv 2 2 1 1 1 0 0 1.
Example C64_case :
  (st <- conv_state_of Z_num (fun _ => 7%Z) ex_conv2 3 2 1 1 2 1 ;;
   r <- conv_ff Z_num ex_conv2 false 0%Z (set_params st (zt 1 2 2 1 [1; 2; 3; 4]%Z) (zt 1 1 1 1 [10]%Z))
          (zt 1 3 2 1 [1; 2; 3; 4; 5; 6]%Z) (zt 1 2 1 1 [0; 0]%Z) ;;
   q <- conv_bp Z_num ex_conv2 true (fst r) 1 (zt 1 2 1 1 [1; 10]%Z) (zt 1 3 2 1 (repeat 0%Z 6)) ;;
   Ok (snd q, cs_weights_delta (fst q), cs_bias_delta (fst q))) =
  Ok (zt 1 3 2 1 [1; 12; 20; 3; 34; 40]%Z, zt 1 2 2 1 [21; 32; 54; 65]%Z, zt 1 1 1 1 [11]%Z).
Proof. reflexivity. Qed.

(** C85: rounding errors of matrix products and convolutions. *)
From Coq Require Import ZArith Bool Lia Reals Lra Floats.SpecFloat.
From Flocq Require Import Core.Core IEEE754.BinarySingleNaN.
From Verif Require Import Base BaseFacts Float32 FloatOps Tensor_Model Tensor_Spec Tensor_Proofs Num RealNum Math_Model Math_Spec Math_Proofs Conv_Proofs Conv2_Proofs
  ConvLayer_Model ConvLayer_Spec ConvLayer_Proofs ConvExact_Proofs ConvReady_Proofs Conv_Props FloatOps_Flocq Float64_Flocq FloatNonneg Rounding_Spec Rounding_Proofs.
Local Open Scope R_scope.
#[local] Existing Instance Hprec.
#[local] Existing Instance Hmax.

Lemma one_times a r : rep32 a r -> fmul f32_one a = a.
Proof.
  intros H. pose proof (rnd32_rep a r H) as E. destruct H as (x & -> & F & <-). destruct rep32_one as (o & Eo & Fo & Vo). rewrite Eo. rewrite fmul_bits. f_equal. f_equal.
  assert (So : Bsign o = false). { destruct o as [s|s| |s m e Hb]; try discriminate; [cbn in Vo; lra|]. destruct s; [|reflexivity]. exfalso. cbn [B2R] in Vo. assert (F2R (Float radix2 (cond_Zopp true (Z.pos m)) e) < 0) by now apply F2R_lt_0. lra. }
  pose proof (Bmult_correct 24 128 Hprec Hmax mode_NE o x) as N. change (round radix2 (SpecFloat.fexp 24 128) (round_mode mode_NE) (B2R o * B2R x)) with (rnd32 (B2R o * B2R x)) in N.
  rewrite Vo, Rmult_1_l, E in N. rewrite Rlt_bool_true in N by apply abs_B2R_lt_emax. destruct N as (N1 & N2 & N3). rewrite Fo, F in N2.
  apply B2R_Bsign_inj; auto. rewrite N3; [rewrite So; now destruct (Bsign x)|]. now destruct (Bmult mode_NE o x).
Qed.
Lemma value_unique a r s : rep32 a r -> rep32 a s -> r = s.
Proof.
  intros (x & E1 & _ & <-) (y & E2 & _ & <-). assert (E : B2SF x = B2SF y) by (rewrite <- (sf_bits x), <- (sf_bits y); congruence). now rewrite <- !SF2R_B2SF, E.
Qed.
Lemma is_zero_value a r : rep32 a r -> nzerob f32_num a = true -> r = 0.
Proof.
  intros (x & -> & F & <-). cbn [nzerob f32_num]. unfold feq. rewrite !andb_true_iff. intros [_ K]. apply Z.eqb_eq in K.
  destruct x as [s|s| |s m e H]; try discriminate; [reflexivity|]. exfalso. pose proof (Float32_Flocq.bounded_cases _ _ H) as (H1 & H2 & H3).
  change (f32_key f32_zero) with 0%Z in K. cbn [B2SF bits_of_sf] in K. unfold f32_key, f32_mag, sign_bit in K.
  set (g := ((e + 149) * 2 ^ 23 + Z.pos m)%Z). assert (Hg : (0 < g < 2139095040)%Z) by (unfold g; lia).
  destruct s.
  - replace (2 ^ 31 + (e + 149) * 2 ^ 23 + Z.pos m)%Z with (g + 1 * 2 ^ 31)%Z in K by (unfold g; ring). rewrite Z.mod_add, Z.mod_small in K by lia. destruct (Z.ltb_spec (g + 1 * 2 ^ 31) (2 ^ 31)); lia.
  - replace (0 + (e + 149) * 2 ^ 23 + Z.pos m)%Z with g in K by (unfold g; ring). rewrite Z.mod_small in K by lia. destruct (Z.ltb_spec g (2 ^ 31)); lia.
Qed.

(** The matrix product in single precision: all results are finite and close to the exact ones.  The products of one
    element must not add up to more than 2^124. *)
Theorem C85_product : forall transA transB m n k alpha beta A smA ldA B smB ldB C smC ldC (a b c : nat -> nat -> f32) al be (ra rb rc : nat -> nat -> R),
  wf C -> (n <= ldC)%nat ->
  stored transA A smA ldA m k a -> stored transB B smB ldB k n b -> stored false C smC ldC m n c ->
  value alpha al -> value beta be ->
  (forall i l, (i < m)%nat -> (l < k)%nat -> value (a i l) (ra i l)) ->
  (forall l j, (l < k)%nat -> (j < n)%nat -> value (b l j) (rb l j)) ->
  (forall i j, (i < m)%nat -> (j < n)%nat -> nzerob f32_num beta = true \/ value (c i j) (rc i j)) ->
  (Z.of_nat k <= 2 ^ 20)%Z ->
  let exact := fun i j => al * nsum R_num k (fun l => ra i l * rb l j) + be * rc i j in
  let size := fun i j => nsum R_num k (fun l => Rabs (ra i l * rb l j)) in
  let total := fun i j => Rabs al * size i j + Rabs (be * rc i j) in
  (forall i j, (i < m)%nat -> (j < n)%nat -> size i j <= IZR (2 ^ 124) /\ total i j <= IZR (2 ^ 124)) ->
  exists C' result, gemm f32_num true transA transB m n k alpha A smA ldA B smB ldB beta C smC ldC = Ok C' /\ stored false C' smC ldC m n result /\
    forall i j, (i < m)%nat -> (j < n)%nat -> exists v, value (result i j) v /\
      Rabs (v - exact i j) <= INR (k + 3) / IZR (2 ^ 23) * total i j + (5 * INR k * Rabs al + 4) / IZR (2 ^ 150).
Proof.
  intros transA transB m n k alpha beta A smA ldA B smB ldB C smC ldC a b c al be ra rb rc HC Hn SA SB SC Val Vbe Va Vb Vc Hk exact size total Hs.
  destruct (C34_gemm f32_num transA transB m n k alpha beta A smA ldA B smB ldB C smC ldC a b c HC Hn SA SB SC) as (C' & E & _ & _ & St & _).
  eexists C', _. split; [exact E|]. split; [exact St|]. intros i j Hi Hj. cbv zeta. change (IZR (2 ^ 124)) with (bpow radix2 124) in Hs. destruct (Hs i j Hi Hj) as [H1 H2].
  destruct (sum_error k (a i) (fun l => b l j) (ra i) (fun l => rb l j)) as (S & RS & ES); [intros; now apply Va|intros; now apply Vb|lia|exact H1|].
  assert (A0 : 0 <= size i j) by (apply nsum_nonneg; intros; apply Rabs_pos).
  assert (Ns : Rabs (nsum R_num k (fun l => ra i l * rb l j)) <= size i j) by (apply nsum_abs; intros; apply Rle_refl).
  pose proof (pos_INR k) as I0. assert (In : INR k <= 1048576) by (rewrite INR_IZR_INZ; apply IZR_le; lia).
  assert (Hb : forall v, Rabs (v - exact i j) <= 2 * (INR k + 3) * u24 * total i j + (5 * INR k * Rabs al + 4) * eta ->
    Rabs (v - exact i j) <= INR (k + 3) / IZR (2 ^ 23) * total i j + (5 * INR k * Rabs al + 4) / IZR (2 ^ 150)).
  { intros v H. rewrite u24_value, eta_value in H. rewrite plus_INR. replace (INR 3) with 3 by (cbn; lra). replace (2 * (INR k + 3) * / IZR (2 ^ 24)) with ((INR k + 3) / IZR (2 ^ 23)) in H; [exact H|].
    replace (2 ^ 24)%Z with (2 * 2 ^ 23)%Z by reflexivity. rewrite mult_IZR. field. apply not_0_IZR. discriminate. }
  change (nsum f32_num k (fun l => nmul f32_num (a i l) (b l j))) with (nsum f32_num k (fun l => fmul (a i l) (b l j))).
  destruct (nzerob f32_num beta) eqn:Ez.
  - assert (be = 0) by (eapply is_zero_value; eauto). subst be.
    destruct (combine_error (INR k) (size i j) (nsum R_num k (fun l => ra i l * rb l j)) S al 0 0 alpha (nsum f32_num k (fun l => fmul (a i l) (b l j))) f32_zero f32_zero I0 In A0 Ns ES Val RS rep32_zero rep32_zero)
      as (v & _ & Rv & Ev); [unfold total in H2; rewrite Rmult_0_l, Rabs_R0 in *; exact H2|].
    change (fmul f32_zero f32_zero) with f32_zero in Rv. cbn [nmul f32_num].
    assert (RX : exists r, rep32 (fmul alpha (nsum f32_num k (fun l => fmul (a i l) (b l j)))) r).
    { pose proof Rv as (y & Ey & Fy & Vy). destruct Val as (xa & Ea & Fa & _), RS as (xs & Es & Fs & _). rewrite Ea, Es, fmul_bits in Ey |- *.
      exists (B2R (Bmult mode_NE xa xs)). exists (Bmult mode_NE xa xs). split; [reflexivity|]. split; [|reflexivity].
      change f32_zero with (bits_of_sf (B2SF (B754_zero false : float))) in Ey. rewrite fadd_bits in Ey.
      assert (Eq : B2SF (Bplus mode_NE (B754_zero false) (Bmult mode_NE xa xs)) = B2SF y) by (rewrite <- (sf_bits (Bplus mode_NE _ _)), <- (sf_bits y); congruence).
      apply B2SF_inj in Eq. rewrite <- Eq in Fy. now destruct (Bmult mode_NE xa xs) as [s|s| |s p e Hb']. }
    destruct RX as (r & Rr). pose proof (rep32_plus_zero _ _ Rr) as Rp. assert (v = r) by (eapply value_unique; eauto). subst v. exists r. split; [exact Rr|].
    apply Hb. unfold exact, total. rewrite !Rmult_0_l in *. exact Ev.
  - destruct (Vc i j Hi Hj) as [X|Vcc]; [discriminate X|].
    destruct (combine_error (INR k) (size i j) (nsum R_num k (fun l => ra i l * rb l j)) S al be (rc i j) alpha (nsum f32_num k (fun l => fmul (a i l) (b l j))) beta (c i j) I0 In A0 Ns ES Val RS Vbe Vcc H2)
      as (v & _ & Rv & Ev). exists v. split; [exact Rv|]. apply Hb. exact Ev.
Qed.
Print Assumptions C85_product.

(** The convolution layer in single precision: every output pixel is finite and close to the exact convolution of the
    same image with the same weights.  [n] is the number of weights of one output map; the products of one pixel and
    its bias must not add up to more than 2^124. *)
Theorem C85_convolution : forall c st w h m S wt b (testing : bool) dropout input output img p (rwt rimg : nat -> nat -> nat -> nat -> R) (rb : nat -> R),
  conv_ready f32_num c st w h m S wt b ->
  wf input -> has_shape input S w h m -> contents input img ->
  wf output -> has_shape output S (cs_ow st) (cs_oh st) (cv_omaps c) ->
  value dropout p -> 0 <= p <= 1 -> (testing = true \/ dropout = f32_zero) ->
  (forall x y i s, (x < w)%nat -> (y < h)%nat -> (i < m)%nat -> (s < S)%nat -> value (img x y i s) (rimg x y i s)) ->
  (forall kx ky i o, (kx < cv_kw c)%nat -> (ky < cv_kh c)%nat -> (i < m / cv_group c)%nat -> (o < cv_omaps c)%nat -> value (wt kx ky i o) (rwt kx ky i o)) ->
  (forall o, (o < cv_omaps c)%nat -> value (b o) (rb o)) ->
  let n := (cv_kw c * cv_kh c * (m / cv_group c))%nat in
  (Z.of_nat n <= 2 ^ 20)%Z ->
  let factor := if testing then 1 - p else 1 in
  let exact := fun x y o s => factor * (rb o + window R_num c w h m rwt rimg x y o s) in
  let size := fun x y o s => Rabs (rb o) + window R_num c w h m (fun kx ky i o => Rabs (rwt kx ky i o)) (fun x y i s => Rabs (rimg x y i s)) x y o s in
  (forall x y o s, valid_pos output x y o s -> size x y o s <= IZR (2 ^ 124)) ->
  exists st' output' out, conv_ff f32_num c testing dropout st input output = Ok (st', output') /\ same_shape output' output /\ contents output' out /\
    forall x y o s, valid_pos output x y o s -> exists v, value (out x y o s) v /\
      Rabs (v - exact x y o s) <= INR (n + 4) / IZR (2 ^ 23) * size x y o s + INR (5 * n + 4) / IZR (2 ^ 150).
Proof.
  intros c st w h m S wt b testing dropout input output img p rwt rimg rb HR Wi Si Ci Wo So Vp Hp Hd Vi Vw Vb n Hn factor exact size Hs.
  assert (Hz : nzerob f32_num (if testing then n0 f32_num else dropout) = true).
  { destruct testing; [reflexivity|]. destruct Hd as [Hd| ->]; [discriminate|reflexivity]. }
  destruct (conv_ff_spec f32_num c st w h m S wt b testing dropout input output img eq_refl eq_refl HR Wi Si Ci Wo So Hz) as (st' & output' & E & W' & S' & C' & _).
  eexists st', output', _. split; [exact E|]. split; [exact S'|]. split; [exact C'|]. intros x y o s Hv.
  destruct HR as [Rgeo Rfit Row Roh Rg Rm Ro _ _ _ _ _ _ _ _ _].
  destruct So as (So1 & So2 & So3 & So4). pose proof Hv as (Hx & Hy & Ho & Hss). rewrite So1, So4 in *.
  set (g := conv_geo c w h m S). set (mg := (m / cv_group c)%nat) in *. set (q := (o / (cv_omaps c / cv_group c))%nat).
  assert (Hq : (q < cv_group c)%nat).
  { unfold q. apply Nat.div_lt_upper_bound; [|apply Nat.mod_divide in Ro as [z Ez]; [rewrite Ez, Nat.div_mul by lia; rewrite Ez in Ho; lia|lia]].
    apply Nat.mod_divide in Ro as [z Ez]; [|lia]. rewrite Ez, Nat.div_mul by lia. intros ->. cbn in Ez. lia. }
  assert (Em : (m = mg * cv_group c)%nat) by (apply Nat.mod_divide in Rm as [z Ez]; [unfold mg; rewrite Ez, Nat.div_mul by lia; reflexivity|lia]).
  (* the columns *)
  set (fa := fun k => wt (k mod cv_kw c)%nat ((k / cv_kw c) mod cv_kh c)%nat (k / (cv_kw c * cv_kh c))%nat o).
  set (fb := fun k => col_value f32_num g img x y s (q * n + k)).
  set (ga := fun k => rwt (k mod cv_kw c)%nat ((k / cv_kw c) mod cv_kh c)%nat (k / (cv_kw c * cv_kh c))%nat o).
  set (gb := fun k => col_value R_num g rimg x y s (q * n + k)).
  assert (Ewin : nsum R_num n (fun k => ga k * gb k) = window R_num c w h m rwt rimg x y o s) by exact (flat_window_nested R_num R_ring_laws c w h m S rwt rimg x y o s).
  assert (Eabs : nsum R_num n (fun k => Rabs (ga k * gb k)) = window R_num c w h m (fun kx ky i o => Rabs (rwt kx ky i o)) (fun x y i s => Rabs (rimg x y i s)) x y o s).
  { rewrite <- (flat_window_nested R_num R_ring_laws c w h m S). apply nsum_ext. intros k Hk. cbn [nmul R_num]. rewrite Rabs_mult. unfold ga. f_equal.
    unfold gb, col_value, padded. fold g. fold q. fold mg. fold n. destruct (_ && _)%bool; [reflexivity|apply Rabs_R0]. }
  assert (Va : forall k, (k < n)%nat -> rep32 (fa k) (ga k)).
  { intros k Hk. destruct (decode_map _ _ _ _ Hk) as (Kx & Ky & Ki & _). now apply Vw. }
  assert (Vc : forall k, (k < n)%nat -> rep32 (fb k) (gb k)).
  { intros k Hk. destruct (decode_map _ _ _ _ Hk) as (Kx & Ky & Ki & Ek). unfold fb, gb, col_value, padded.
    destruct (_ && _)%bool eqn:In; [|exact rep32_zero]. rewrite !andb_true_iff, !Z.leb_le, !Z.ltb_lt in In. destruct In as [[[I1 I2] I3] I4]. change (g_width g) with w in I2. change (g_height g) with h in I4. apply Vi; try lia.
    unfold col_imap. change (g_kw g) with (cv_kw c). change (g_kh g) with (cv_kh c).
    replace (q * n + k)%nat with ((k mod (cv_kw c * cv_kh c)) + (q * mg + k / (cv_kw c * cv_kh c)) * (cv_kw c * cv_kh c))%nat.
    2:{ pose proof (Nat.div_mod k (cv_kw c * cv_kh c)%nat ltac:(nia)). unfold n. nia. }
    rewrite Nat.div_add, Nat.div_small by (try apply Nat.mod_upper_bound; nia). cbn [Nat.add]. rewrite Em at 1. nia. }
  pose proof (Hs x y o s Hv) as Hsz. unfold size in Hsz. rewrite <- Eabs in Hsz. change (IZR (2 ^ 124)) with (bpow radix2 124) in Hsz. pose proof (Rabs_pos (rb o)) as B0.
  set (A := nsum R_num n (fun k => Rabs (ga k * gb k))) in *. assert (A0 : 0 <= A) by (apply nsum_nonneg; intros; apply Rabs_pos).
  destruct (sum_error n fa fb ga gb Va Vc ltac:(lia)) as (Sm & RS & ES); [fold A; lra|]. fold A in ES.
  assert (Ns : Rabs (nsum R_num n (fun k => ga k * gb k)) <= A) by (apply nsum_abs; intros; apply Rle_refl).
  pose proof (pos_INR n) as I0. assert (In : INR n <= 1048576) by (rewrite INR_IZR_INZ; apply IZR_le; lia).
  pose proof u24_pos as U. pose proof eta_pos as T. pose proof u24_small as U1.
  (* the factor *)
  set (wd := if testing then nsub f32_num (n1 f32_num) dropout else n1 f32_num).
  assert (Vf : exists al, rep32 wd al /\ Rabs al <= 1 /\ Rabs (al - factor) <= 2 * u24).
  { unfold wd, factor. destruct testing.
    - exists (rnd32 (1 - p)). assert (Q : Rabs (1 - p) <= 1) by (rewrite Rabs_right; lra). split; [|split].
      + apply rep32_sub; [exact rep32_one|exact Vp|]. apply Rle_trans with 1; [exact Q|]. change 1 with (bpow radix2 0). apply bpow_le. lia.
      + change 1 with (bpow radix2 0). apply rnd32_abs; [lia|]. exact Q.
      + eapply Rle_trans; [apply round_error|]. assert (u24 * Rabs (1 - p) <= u24 * 1) by (apply Rmult_le_compat_l; lra). assert (eta <= u24) by (apply bpow_le; lia). lra.
    - exists 1. split; [exact rep32_one|]. rewrite Rabs_R1. split; [lra|]. replace (1 - 1) with 0 by lra. rewrite Rabs_R0. lra. }
  destruct Vf as (al & Ral & Al1 & Alf).
  assert (Rc : rep32 (fadd f32_zero (fmul (b o) f32_one)) (rb o)) by (apply rep32_plus_zero, rep32_one_times, Vb; exact Ho).
  pose proof (Rabs_pos al) as Al0.
  assert (HM : Rabs al * A + Rabs (al * rb o) <= 1 * (A + Rabs (rb o))).
  { rewrite Rabs_mult. replace (Rabs al * A + Rabs al * Rabs (rb o)) with (Rabs al * (A + Rabs (rb o))) by ring. apply Rmult_le_compat_r; lra. }
  destruct (combine_error (INR n) A (nsum R_num n (fun k => ga k * gb k)) Sm al al (rb o) wd (nsum f32_num n (fun k => fmul (fa k) (fb k))) wd (fadd f32_zero (fmul (b o) f32_one)) I0 In A0 Ns ES Ral RS Ral Rc ltac:(lra))
    as (v & Rv & _ & Ev).
  assert (EX : fmul f32_one (fmul wd (nsum f32_num n (fun k => fmul (fa k) (fb k)))) = fmul wd (nsum f32_num n (fun k => fmul (fa k) (fb k)))).
  { destruct (Req_dec (al * Sm) (al * Sm)) as [_|]; [|lra]. eapply one_times. apply rep32_mul'; [exact Ral|exact RS|].
    rewrite Rabs_mult. apply Rle_trans with (1 * Rabs Sm); [apply Rmult_le_compat_r; [apply Rabs_pos|lra]|]. pose proof (abs_diff Sm (nsum R_num n (fun k => ga k * gb k))).
    pose proof (sum_bound_size (INR n) A I0 In A0). pose proof big_number. pose proof big_one. lra. }
  exists v. split.
  { change (rep32 (fadd (fmul f32_one (fmul wd (nsum f32_num n (fun k => fmul (fa k) (fb k))))) (fmul wd (fadd f32_zero (fmul (b o) f32_one)))) v). rewrite EX. exact Rv. }
  unfold exact, size. rewrite <- Ewin, <- Eabs. fold A. set (sx := nsum R_num n (fun k => ga k * gb k)) in *.
  assert (Ef : Rabs ((al * sx + al * rb o) - factor * (rb o + sx)) <= 2 * u24 * (A + Rabs (rb o))).
  { replace (al * sx + al * rb o - factor * (rb o + sx)) with ((al - factor) * (sx + rb o)) by ring. rewrite Rabs_mult. apply Rmult_le_compat; [apply Rabs_pos|apply Rabs_pos|exact Alf|]. pose proof (Rabs_triang sx (rb o)). lra. }
  assert (Et : Rabs (v - factor * (rb o + sx)) <= Rabs (v - (al * sx + al * rb o)) + Rabs ((al * sx + al * rb o) - factor * (rb o + sx))).
  { replace (v - factor * (rb o + sx)) with ((v - (al * sx + al * rb o)) + ((al * sx + al * rb o) - factor * (rb o + sx))) by ring. apply Rabs_triang. }
  assert (M1 : 2 * (INR n + 3) * u24 * (Rabs al * A + Rabs (al * rb o)) <= 2 * (INR n + 3) * u24 * (A + Rabs (rb o))) by (apply Rmult_le_compat_l; [apply Rmult_le_pos; lra|lra]).
  assert (M2 : (5 * INR n * Rabs al + 4) * eta <= (5 * INR n + 4) * eta).
  { apply Rmult_le_compat_r; [lra|]. assert (INR n * Rabs al <= INR n * 1) by (apply Rmult_le_compat_l; lra). lra. }
  assert (K1 : INR (n + 4) / IZR (2 ^ 23) = 2 * (INR n + 4) * u24).
  { rewrite plus_INR. replace (INR 4) with 4 by (cbn; lra). rewrite u24_value. replace (2 ^ 24)%Z with (2 * 2 ^ 23)%Z by reflexivity. rewrite mult_IZR. field. apply not_0_IZR. discriminate. }
  assert (K2 : INR (5 * n + 4) / IZR (2 ^ 150) = (5 * INR n + 4) * eta).
  { rewrite plus_INR, mult_INR. replace (INR 4) with 4 by (cbn; lra). replace (INR 5) with 5 by (cbn; lra). now rewrite eta_value. }
  rewrite K1, K2. rewrite (Rplus_comm (Rabs (rb o)) A). replace (2 * (INR n + 4) * u24 * (A + Rabs (rb o))) with (2 * (INR n + 3) * u24 * (A + Rabs (rb o)) + 2 * u24 * (A + Rabs (rb o))) by ring. lra.
Qed.
Print Assumptions C85_convolution.

(** Finding: the bound is relative to the sum of the absolute values, not to the result: if large terms cancel, the
    computed result can have no correct digit.  Here 2^24 + 1 - 2^24 is computed as 0. *)
Theorem C85_cancellation_refuted : exists C',
  gemm f32_num true false false 1 1 3 f32_one (mkTensor 1 3 1 1 3 (Some [f_of_Z 16777216; f32_one; f_of_Z (-16777216)])) 0 3
    (mkTensor 1 1 3 1 3 (Some [f32_one; f32_one; f32_one])) 0 1 f32_zero (mkTensor 1 1 1 1 1 (Some [f32_zero])) 0 1 = Ok C' /\
  data C' = Some [f32_zero].
Proof. eexists. split; vm_compute; reflexivity. Qed.
Print Assumptions C85_cancellation_refuted.

(** Finding: beyond the range of floats nothing can be said about the result: finite factors whose products cancel give
    infinity minus infinity, which is not a number. *)
Theorem C85_overflow_refuted : exists big C',
  value big (IZR (2 ^ 100)) /\ value (fneg big) (- IZR (2 ^ 100)) /\
  gemm f32_num true false false 1 1 2 f32_one (mkTensor 1 2 1 1 2 (Some [big; big])) 0 2
    (mkTensor 1 1 2 1 2 (Some [big; fneg big])) 0 1 f32_zero (mkTensor 1 1 1 1 1 (Some [f32_zero])) 0 1 = Ok C' /\
  exists x, data C' = Some [x] /\ f32_nan x = true.
Proof.
  exists 1904214016%Z. eexists.
  assert (H : bounded 24 128 8388608 77 = true) by reflexivity.
  assert (V : F2R (Float radix2 8388608 77) = IZR (2 ^ 100)) by (unfold F2R; cbn [Fnum Fexp]; change (bpow radix2 77) with (IZR (2 ^ 77)); rewrite <- mult_IZR; change (8388608 * 2 ^ 77)%Z with (2 ^ 100)%Z; exact eq_refl).
  split; [exists (B754_finite false 8388608 77 H : float); split; [reflexivity|]; split; [reflexivity|exact V]|].
  split; [exists (B754_finite true 8388608 77 H : float); split; [reflexivity|]; split; [reflexivity|]; cbn [B2R cond_Zopp]; rewrite F2R_Zopp, V; exact eq_refl|].
  split; [vm_compute; reflexivity|]. exists 2143289344%Z. split; reflexivity.
Qed.
Print Assumptions C85_overflow_refuted.

(** A 2x2 image of the values 3, 1, 1, 1, a 2x2 kernel and a bias: 2^24 + 1 + 1 + 1 + ... is rounded. *)
Definition ex_conv85 : conv := mkConv 2 2 1 1 1 0 0 1.
Definition ex_img85 : nat -> nat -> nat -> nat -> Z := fun x y _ _ => if (x + y =? 0)%nat then 16777215%Z else 1%Z.
Example C85_case : exists st st' output',
  conv_ready f32_num ex_conv85 (set_params st (mkTensor 1 2 2 1 4 (Some [f32_one; f32_one; f32_one; f32_one])) (mkTensor 1 1 1 1 1 (Some [f32_one]))) 2 2 1 1 (fun _ _ _ _ => f32_one) (fun _ => f32_one) /\
  contents (mkTensor 1 2 2 1 4 (Some [f_of_Z 16777215; f32_one; f32_one; f32_one])) (fun x y m s => f_of_Z (ex_img85 x y m s)) /\
  (forall x y m s, value (f_of_Z (ex_img85 x y m s)) (IZR (ex_img85 x y m s))) /\ value f32_one 1 /\ value f32_zero 0 /\
  Rabs 1 + window R_num ex_conv85 2 2 1 (fun _ _ _ _ => Rabs 1) (fun x y m s => Rabs (IZR (ex_img85 x y m s))) 0 0 0 0 <= IZR (2 ^ 124) /\
  conv_ff f32_num ex_conv85 false f32_zero (set_params st (mkTensor 1 2 2 1 4 (Some [f32_one; f32_one; f32_one; f32_one])) (mkTensor 1 1 1 1 1 (Some [f32_one])))
    (mkTensor 1 2 2 1 4 (Some [f_of_Z 16777215; f32_one; f32_one; f32_one])) (mkTensor 1 1 1 1 1 (Some [f32_zero])) = Ok (st', output') /\
  data output' = Some [f_of_Z 16777216] /\
  1 + window R_num ex_conv85 2 2 1 (fun _ _ _ _ => 1) (fun x y m s => IZR (ex_img85 x y m s)) 0 0 0 0 = 16777219.
Proof.
  destruct (C35_connected f32_num (fun _ => f32_zero) ex_conv85 2 2 1 1) as (st & Est & _ & Hr); [reflexivity|cbn; lia..|reflexivity|].
  exists st. eexists. eexists. split.
  { apply Hr; unfold wf; cbn; auto; try (repeat split; lia); intros x y m s (H1 & H2 & H3 & H4); cbn in H1, H2, H3, H4.
    - assert (m = 0)%nat by lia. assert (s = 0)%nat by lia. subst. destruct x as [|[|]], y as [|[|]]; try lia; reflexivity.
    - assert (x = 0)%nat by lia. assert (y = 0)%nat by lia. assert (m = 0)%nat by lia. assert (s = 0)%nat by lia. subst. reflexivity. }
  split. { intros x y m s (H1 & H2 & H3 & H4); cbn in H1, H2, H3, H4. assert (m = 0)%nat by lia. assert (s = 0)%nat by lia. subst. destruct x as [|[|]], y as [|[|]]; try lia; reflexivity. }
  split. { intros x y m s. apply rep32_int. unfold ex_img85. destruct (_ =? _)%nat; lia. }
  split; [exact rep32_one|]. split; [exact rep32_zero|].
  assert (Ew : forall f, window R_num ex_conv85 2 2 1 (fun _ _ _ _ => 1) f 0 0 0 0 = f 0%nat 0%nat 0%nat 0%nat + f 1%nat 0%nat 0%nat 0%nat + f 0%nat 1%nat 0%nat 0%nat + f 1%nat 1%nat 0%nat 0%nat).
  { intros f. unfold window, padded. cbn -[IZR Rplus Rmult]. change (Pos.to_nat 1) with 1%nat. ring. }
  split. { rewrite Rabs_R1, Ew. unfold ex_img85. cbn [Nat.add Nat.eqb]. rewrite !Rabs_right by lra. apply Rle_trans with (IZR 16777219); [lra|]. apply IZR_le. lia. }
  split; [clear - Est; vm_compute in Est; injection Est as <-; vm_compute; reflexivity|]. split; [vm_compute; reflexivity|].
  rewrite Ew. unfold ex_img85. cbn [Nat.add Nat.eqb]. lra.
Qed.

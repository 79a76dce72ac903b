(** Values of float operations on non-negative numbers, and of sums and quotients of bounded numbers. *)
From Coq Require Import ZArith Bool Lia Reals Lra Floats.SpecFloat.
From Flocq Require Import Core.Core IEEE754.BinarySingleNaN.
From Verif Require Import Base Float32 FloatOps FloatOps_Flocq Float64_Flocq.
Local Open Scope R_scope.
#[local] Existing Instance Hprec.
#[local] Existing Instance Hmax.

(** [a] is a finite float with the value [r] >= 0 (and not the negative zero). *)
Definition nn (a : f32) (r : R) : Prop := exists b : float, a = bits_of_sf (B2SF b) /\ is_finite b = true /\ Bsign b = false /\ B2R b = r.
Lemma nn_rep a r : nn a r -> rep32 a r.
Proof. intros (b & -> & F & _ & <-). exists b. auto. Qed.
Lemma nn_pos a r : nn a r -> 0 <= r.
Proof. intros (b & _ & F & S & <-). destruct b as [s|s| |s m e H]; try discriminate; cbn in *; [lra|]. subst s. apply F2R_ge_0. cbn. lia. Qed.
Lemma nn_range a r : nn a r -> f32_nonneg a.
Proof.
  intros (b & -> & F & S & _). unfold f32_nonneg, f32_inf. destruct b as [s|s| |s m e H]; try discriminate; cbn in S; subst s; cbn [B2SF bits_of_sf sign_bit]; [lia|].
  pose proof (Float32_Flocq.bounded_cases _ _ H). lia.
Qed.
Lemma nn_order a b r s : nn a r -> nn b s -> ((a <= b)%Z <-> r <= s).
Proof.
  intros Ha Hb. pose proof (nn_range _ _ Ha) as Na. pose proof (nn_range _ _ Hb) as Nb. destruct Ha as (x & -> & Fx & _ & <-), Hb as (y & -> & Fy & _ & <-).
  now apply nonneg_order; try apply result_float.
Qed.
Lemma key_nonneg a : f32_nonneg a -> f32_key a = a /\ f32_nan a = false.
Proof.
  unfold f32_nonneg, f32_inf, f32_key, f32_nan, f32_mag. intros H. rewrite Z.mod_small by lia. split; [destruct (Z.ltb_spec a (2 ^ 31)); lia|]. apply Z.ltb_ge. lia.
Qed.
Lemma nn_gt a b r s : nn a r -> nn b s -> fgt a b = Rlt_bool s r.
Proof.
  intros Ha Hb. destruct (key_nonneg a (nn_range _ _ Ha)) as [Ka Xa], (key_nonneg b (nn_range _ _ Hb)) as [Kb Xb]. unfold fgt. rewrite Ka, Kb, Xa, Xb. cbn [negb andb].
  pose proof (nn_order _ _ _ _ Ha Hb) as O. destruct (Rlt_bool_spec s r) as [L|L]; [apply Z.ltb_lt|apply Z.ltb_ge]; [|now apply O]. destruct (Z.lt_ge_cases b a) as [X|X]; [exact X|]. apply O in X. lra.
Qed.
Lemma nn_ge a b r s : nn a r -> nn b s -> s <= r -> fge a b = true.
Proof.
  intros Ha Hb L. destruct (key_nonneg a (nn_range _ _ Ha)) as [Ka Xa], (key_nonneg b (nn_range _ _ Hb)) as [Kb Xb]. unfold fge, fgt, feq. rewrite Ka, Kb, Xa, Xb. cbn [negb andb].
  apply (nn_order _ _ _ _ Hb Ha) in L. destruct (Z.ltb_spec b a); [reflexivity|]. apply Z.eqb_eq. lia.
Qed.
Lemma nn_zero : nn f32_zero 0.
Proof. exists (B754_zero false). repeat split. Qed.
Lemma nn_unique a r s : nn a r -> nn a s -> r = s.
Proof. intros A B. pose proof (nn_order a a r s A B). pose proof (nn_order a a s r B A). assert (a <= a)%Z by lia. lra || (apply Rle_antisym; tauto). Qed.

Lemma rnd32_nonneg r : 0 <= r -> 0 <= rnd32 r.
Proof. intros H. replace 0 with (rnd32 0) by (apply (rnd32_int 0); lia). now apply rnd32_le. Qed.
Lemma rnd32_bound r k : (-149 <= k < 128)%Z -> r <= bpow radix2 k -> rnd32 r <= bpow radix2 k.
Proof. intros K H. replace (bpow radix2 k) with (rnd32 (IZR 1 * bpow radix2 k)) by (rewrite rnd32_dyadic; [lra|lia|lia]). apply rnd32_le. lra. Qed.
Lemma rnd32_lower r k : (-149 <= k < 128)%Z -> bpow radix2 k <= r -> bpow radix2 k <= rnd32 r.
Proof. intros K H. replace (bpow radix2 k) with (rnd32 (IZR 1 * bpow radix2 k)) by (rewrite rnd32_dyadic; [lra|lia|lia]). apply rnd32_le. lra. Qed.
Lemma rnd32_opp r : rnd32 (- r) = - rnd32 r.
Proof. apply round_NE_opp. Qed.
Lemma rnd32_abs r k : (-149 <= k < 128)%Z -> Rabs r <= bpow radix2 k -> Rabs (rnd32 r) <= bpow radix2 k.
Proof.
  intros K H. destruct (Rcase_abs r) as [N|N].
  - rewrite Rabs_left in H by exact N. rewrite <- (Ropp_involutive r), rnd32_opp, Rabs_Ropp, Rabs_right; [now apply rnd32_bound|]. apply Rle_ge, rnd32_nonneg. lra.
  - rewrite Rabs_right in H by exact N. rewrite Rabs_right; [now apply rnd32_bound|]. apply Rle_ge, rnd32_nonneg. lra.
Qed.
Lemma below_max r : Rabs r <= bpow radix2 127 -> Rabs (rnd32 r) < bpow radix2 128.
Proof. intros H. apply Rle_lt_trans with (bpow radix2 127); [now apply rnd32_abs|apply bpow_lt; lia]. Qed.

Lemma fadd_bits (b c : float) : fadd (bits_of_sf (B2SF b)) (bits_of_sf (B2SF c)) = bits_of_sf (B2SF (Bplus mode_NE b c)).
Proof.
  unfold fadd. rewrite !sf_bits. f_equal. destruct b as [sx|sx| |sx mx ex Bx]; destruct c as [sy|sy| |sy my ey By]; [now (trivial || simpl; case Bool.eqb)..|].
  apply binary_normalize_equiv.
Qed.
Lemma rep32_add x y r s : rep32 x r -> rep32 y s -> Rabs (r + s) <= bpow radix2 127 -> rep32 (fadd x y) (rnd32 (r + s)).
Proof.
  intros (b & -> & Fb & <-) (c & -> & Fc & <-) HB. apply below_max in HB. pose proof (Bplus_correct 24 128 Hprec Hmax mode_NE b c Fb Fc) as N.
  change (round radix2 (SpecFloat.fexp 24 128) (round_mode mode_NE) (B2R b + B2R c)) with (rnd32 (B2R b + B2R c)) in N.
  rewrite Rlt_bool_true in N by exact HB. destruct N as (N1 & N2 & _). exists (Bplus mode_NE b c). split; [apply fadd_bits|]. now split.
Qed.
Lemma rep32_sub x y r s : rep32 x r -> rep32 y s -> Rabs (r - s) <= bpow radix2 127 -> rep32 (fsub x y) (rnd32 (r - s)).
Proof.
  intros (b & -> & Fb & <-) (c & -> & Fc & <-) HB. apply below_max in HB. pose proof (Bminus_correct 24 128 Hprec Hmax mode_NE b c Fb Fc) as N.
  change (round radix2 (SpecFloat.fexp 24 128) (round_mode mode_NE) (B2R b - B2R c)) with (rnd32 (B2R b - B2R c)) in N.
  rewrite Rlt_bool_true in N by exact HB. destruct N as (N1 & N2 & _). exists (Bminus mode_NE b c). split; [apply fsub_bits|]. now split.
Qed.
Lemma rep32_div x y r s : rep32 x r -> rep32 y s -> s <> 0 -> Rabs (r / s) <= bpow radix2 127 -> rep32 (fdiv x y) (rnd32 (r / s)).
Proof.
  intros (b & -> & Fb & <-) (c & -> & Fc & <-) Hz HB. apply below_max in HB. pose proof (Bdiv_correct 24 128 Hprec Hmax mode_NE b c Hz) as N.
  change (round radix2 (SpecFloat.fexp 24 128) (round_mode mode_NE) (B2R b / B2R c)) with (rnd32 (B2R b / B2R c)) in N.
  rewrite Rlt_bool_true in N by exact HB. destruct N as (N1 & N2 & _). exists (Bdiv mode_NE b c). split; [apply fdiv_bits|]. rewrite N2, Fb. now split.
Qed.
Lemma rep32_mul' x y r s : rep32 x r -> rep32 y s -> Rabs (r * s) <= bpow radix2 127 -> rep32 (fmul x y) (rnd32 (r * s)).
Proof. intros A B H. apply rep32_mul; auto. now apply below_max. Qed.
Lemma rep32_int n : (Z.abs n < 2 ^ 24)%Z -> rep32 (f_of_Z n) (IZR n).
Proof.
  intros H. rewrite <- (rnd32_int n H). apply rep32_Z. rewrite rnd32_int by exact H. rewrite <- abs_IZR. apply Rlt_trans with (bpow radix2 24); [|apply bpow_lt; lia].
  change (bpow radix2 24) with (IZR (2 ^ 24)). now apply IZR_lt.
Qed.

Lemma nn_add a b r s : nn a r -> nn b s -> r + s <= bpow radix2 127 -> nn (fadd a b) (rnd32 (r + s)).
Proof.
  intros Ha Hb HB. pose proof (nn_pos _ _ Ha) as P1. pose proof (nn_pos _ _ Hb) as P2. destruct Ha as (x & -> & Fx & Sx & <-), Hb as (y & -> & Fy & Sy & <-).
  assert (HB' : Rabs (rnd32 (B2R x + B2R y)) < bpow radix2 128) by (apply below_max; rewrite Rabs_right; lra).
  pose proof (Bplus_correct 24 128 Hprec Hmax mode_NE x y Fx Fy) as N.
  change (round radix2 (SpecFloat.fexp 24 128) (round_mode mode_NE) (B2R x + B2R y)) with (rnd32 (B2R x + B2R y)) in N.
  rewrite Rlt_bool_true in N by exact HB'. destruct N as (N1 & N2 & N3). exists (Bplus mode_NE x y). split; [apply fadd_bits|]. split; [exact N2|]. split; [|exact N1].
  rewrite N3, Sx, Sy. destruct (Rcompare_spec (B2R x + B2R y) 0); try reflexivity. lra.
Qed.
Lemma nn_mul a b r s : nn a r -> nn b s -> r * s <= bpow radix2 127 -> nn (fmul a b) (rnd32 (r * s)).
Proof.
  intros Ha Hb HB. pose proof (nn_pos _ _ Ha) as P1. pose proof (nn_pos _ _ Hb) as P2. destruct Ha as (x & -> & Fx & Sx & <-), Hb as (y & -> & Fy & Sy & <-).
  assert (HB' : Rabs (rnd32 (B2R x * B2R y)) < bpow radix2 128) by (apply below_max; rewrite Rabs_right; [lra|apply Rle_ge, Rmult_le_pos; lra]).
  pose proof (Bmult_correct 24 128 Hprec Hmax mode_NE x y) as N.
  change (round radix2 (SpecFloat.fexp 24 128) (round_mode mode_NE) (B2R x * B2R y)) with (rnd32 (B2R x * B2R y)) in N.
  rewrite Rlt_bool_true in N by exact HB'. destruct N as (N1 & N2 & N3). rewrite Fx, Fy in N2. exists (Bmult mode_NE x y). split; [apply fmul_bits|]. split; [exact N2|]. split; [|exact N1].
  rewrite N3; [now rewrite Sx, Sy|]. now destruct (Bmult mode_NE x y).
Qed.
Lemma nn_div a b r s : nn a r -> nn b s -> 0 < s -> r / s <= bpow radix2 127 -> nn (fdiv a b) (rnd32 (r / s)).
Proof.
  intros Ha Hb P HB. pose proof (nn_pos _ _ Ha) as P1. destruct Ha as (x & -> & Fx & Sx & <-), Hb as (y & -> & Fy & Sy & <-).
  assert (Q : 0 <= B2R x / B2R y) by (apply Rmult_le_pos; [lra|apply Rlt_le, Rinv_0_lt_compat, P]).
  assert (HB' : Rabs (rnd32 (B2R x / B2R y)) < bpow radix2 128) by (apply below_max; rewrite Rabs_right; lra).
  pose proof (Bdiv_correct 24 128 Hprec Hmax mode_NE x y ltac:(lra)) as N.
  change (round radix2 (SpecFloat.fexp 24 128) (round_mode mode_NE) (B2R x / B2R y)) with (rnd32 (B2R x / B2R y)) in N.
  rewrite Rlt_bool_true in N by exact HB'. destruct N as (N1 & N2 & N3). rewrite Fx in N2. exists (Bdiv mode_NE x y). split; [apply fdiv_bits|]. split; [exact N2|]. split; [|exact N1].
  rewrite N3; [now rewrite Sx, Sy|]. now destruct (Bdiv mode_NE x y).
Qed.
(** 0 / 0 is not a number. *)
Lemma div_zero a b : nn a 0 -> nn b 0 -> f32_nan (fdiv a b) = true.
Proof.
  intros (x & -> & Fx & Sx & Vx) (y & -> & Fy & Sy & Vy). assert (Z0 : forall z : float, is_finite z = true -> Bsign z = false -> B2R z = 0 -> z = B754_zero false).
  { intros z F S V. destruct z as [s|s| |s m e H]; try discriminate; cbn in S; subst s; [reflexivity|]. exfalso. cbn [B2R cond_Zopp] in V. assert (0 < F2R (Float radix2 (Z.pos m) e)) by now apply F2R_gt_0. lra. }
  rewrite (Z0 x), (Z0 y) by auto. reflexivity.
Qed.
(** The rounded sum of two floats is not 0 unless the sum is. *)
Lemma rnd32_ge_float a r u : nn a r -> r <= u -> r <= rnd32 u.
Proof. intros A H. rewrite <- (rnd32_rep a r) at 1 by now apply nn_rep. now apply rnd32_le. Qed.
(** The error of rounding a number up to 2^k. *)
Lemma rnd32_error x k : (-100 <= k <= 120)%Z -> Rabs x <= bpow radix2 k -> Rabs (rnd32 x - x) <= bpow radix2 (k - 24).
Proof.
  intros K H. assert (V : Valid_exp (SpecFloat.fexp 24 128)) by (apply fexp_correct; exact Hprec). assert (M : Monotone_exp (SpecFloat.fexp 24 128)) by apply fexp_monotone.
  eapply Rle_trans; [apply (error_le_half_ulp radix2 (SpecFloat.fexp 24 128) (fun x => negb (Z.even x)))|].
  apply Rle_trans with (/ 2 * ulp radix2 (SpecFloat.fexp 24 128) (bpow radix2 k)).
  - apply Rmult_le_compat_l; [lra|]. apply ulp_le; auto. rewrite (Rabs_pos_eq (bpow radix2 k)) by apply bpow_ge_0. exact H.
  - rewrite ulp_bpow. unfold SpecFloat.fexp, SpecFloat.emin. replace (Z.max (k + 1 - 24) (3 - 128 - 24)) with (k - 24 + 1)%Z by lia. rewrite bpow_plus. change (bpow radix2 1) with 2. lra.
Qed.
(** Conversion to unsigned char. *)
Lemma rep32_trunc a r : rep32 a r -> trunc a = Some (Ztrunc r).
Proof.
  intros (b & -> & Fb & <-). unfold trunc. rewrite sf_bits. destruct b as [s|s| |s m e H]; try discriminate Fb.
  - cbn. now rewrite Ztrunc_IZR.
  - cbn [B2SF B2R]. f_equal.
    assert (E : Ztrunc (F2R (Float radix2 (Z.pos m) e)) = if (0 <=? e)%Z then (Z.pos m * 2 ^ e)%Z else (Z.pos m / 2 ^ (- e))%Z).
    { unfold F2R. cbn [Fnum Fexp]. destruct (Z.leb_spec 0 e).
      - rewrite <- IZR_Zpower by lia. rewrite <- mult_IZR. apply Ztrunc_IZR.
      - rewrite Ztrunc_floor by (apply Rmult_le_pos; [apply IZR_le; lia|apply bpow_ge_0]).
        replace e with (- (- e))%Z at 1 by lia. rewrite bpow_opp. rewrite <- IZR_Zpower by lia. apply Zfloor_div.
        change (2 ^ (- e) <> 0)%Z. pose proof (Z.pow_pos_nonneg 2 (- e)). lia. }
    destruct s; cbn [cond_Zopp]; [|now symmetry]. rewrite F2R_Zopp, Ztrunc_opp. now rewrite E.
Qed.
Lemma rep32_uchar a r : rep32 a r -> 0 <= r < 256 -> f_to_uchar a = Ok (Zfloor r) /\ (0 <= Zfloor r < 256)%Z.
Proof.
  intros H [B1 B2]. unfold f_to_uchar. rewrite (rep32_trunc a r H), Ztrunc_floor by exact B1.
  assert (L : (0 <= Zfloor r < 256)%Z).
  { split; [now apply Zfloor_lub|]. apply lt_IZR. apply Rle_lt_trans with r; [apply Zfloor_lb|exact B2]. }
  split; [|exact L]. replace (0 <=? Zfloor r)%Z with true by (symmetry; apply Z.leb_le; lia). replace (Zfloor r <? 256)%Z with true by (symmetry; apply Z.ltb_lt; lia). reflexivity.
Qed.
Lemma nn_int n : (0 <= n < 2 ^ 24)%Z -> nn (f_of_Z n) (IZR n).
Proof.
  intros Hn. destruct (Z.eq_dec n 0) as [->|N0]; [exact nn_zero|]. destruct (rep32_int n ltac:(lia)) as (b & E & F & V). assert (P : 0 < IZR n) by (apply IZR_lt; lia). exists b. repeat split; auto.
  destruct b as [s|s| |s m e Hb]; try discriminate; [cbn in V; lra|]. destruct s; [|reflexivity]. exfalso. cbn [B2R cond_Zopp] in V.
  assert (F2R (Float radix2 (Z.neg m) e) < 0) by now apply F2R_lt_0. change (- Z.pos m)%Z with (Z.neg m) in V. lra.
Qed.

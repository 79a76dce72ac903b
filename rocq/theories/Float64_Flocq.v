(** The arithmetic of [Float64] is Flocq's binary64 arithmetic: the real value of each result. *)
From Coq Require Import ZArith Bool Lia Reals Lra Floats.SpecFloat.
From Flocq Require Import Core.Core IEEE754.BinarySingleNaN.
From Verif Require Import Base Float32 FloatOps FloatOps_Flocq Float64.
From Verif Require Float32_Flocq.
Local Open Scope R_scope.

Notation dfloat := (binary_float 53 1024).
Definition Hprec64 : Prec_gt_0 53 := eq_refl.
Definition Hmax64 : Prec_lt_emax 53 1024 := eq_refl.
#[local] Existing Instance Hprec64.
#[local] Existing Instance Hmax64.
#[local] Existing Instance Hprec.
#[local] Existing Instance Hmax.

Definition rnd32 (r : R) : R := round radix2 (SpecFloat.fexp 24 128) ZnearestE r.
Definition rnd64 (r : R) : R := round radix2 (SpecFloat.fexp 53 1024) ZnearestE r.

(** [a] is a finite float with value [r]; [x] is a finite double with value [r]. *)
Definition rep32 (a : f32) (r : R) : Prop := exists b : float, a = bits_of_sf (B2SF b) /\ is_finite b = true /\ B2R b = r.
Definition rep64 (x : double) (r : R) : Prop := exists b : dfloat, x = B2SF b /\ is_finite b = true /\ B2R b = r.

Lemma aux_equiv sx mx ex lx : SpecFloat.binary_round_aux 53 1024 sx mx ex lx = binary_round_aux 53 1024 mode_NE sx mx ex lx.
Proof.
  unfold SpecFloat.binary_round_aux, binary_round_aux. set (mrse' := shr_fexp _ _ _ _ _). case mrse'; intros mrs' e'; simpl.
  now rewrite (round_nearest_even_equiv sx).
Qed.
Lemma normalize_equiv m e szero : SpecFloat.binary_normalize 53 1024 m e szero = B2SF (binary_normalize 53 1024 Hprec64 Hmax64 mode_NE m e szero).
Proof.
  case m as [|p|p]; [now simpl| |]; simpl; rewrite B2SF_SF2B;
    (unfold SpecFloat.binary_round, binary_round, shl_align_fexp; set (mez := shl_align _ _ _); case mez as [mz ez]; apply aux_equiv).
Qed.
Lemma dadd_equiv (x y : dfloat) : dadd (B2SF x) (B2SF y) = B2SF (Bplus mode_NE x y).
Proof.
  destruct x as [sx|sx| |sx mx ex Bx]; destruct y as [sy|sy| |sy my ey By]; [now (trivial || simpl; case Bool.eqb)..|]. apply normalize_equiv.
Qed.
Lemma dsub_equiv (x y : dfloat) : dsub (B2SF x) (B2SF y) = B2SF (Bminus mode_NE x y).
Proof.
  destruct x as [sx|sx| |sx mx ex Bx]; destruct y as [sy|sy| |sy my ey By]; [now (trivial || simpl; case Bool.eqb)..|].
  simpl. unfold Zminus. rewrite <- cond_Zopp_negb. apply normalize_equiv.
Qed.
Lemma dmul_equiv (x y : dfloat) : dmul (B2SF x) (B2SF y) = B2SF (Bmult mode_NE x y).
Proof.
  destruct x as [sx|sx| |sx mx ex Bx]; destruct y as [sy|sy| |sy my ey By]; [now trivial..|]. simpl. rewrite B2SF_SF2B. apply aux_equiv.
Qed.
Lemma ddiv_equiv (x y : dfloat) : ddiv (B2SF x) (B2SF y) = B2SF (Bdiv mode_NE x y).
Proof.
  destruct x as [sx|sx| |sx mx ex Bx]; destruct y as [sy|sy| |sy my ey By]; [now trivial..|].
  simpl. rewrite B2SF_SF2B. set (melz := SFdiv_core_binary _ _ _ _ _ _). case melz as [[mz ez] lz]. apply aux_equiv.
Qed.

(** ** Rounding *)
Lemma rnd32_le u v : u <= v -> rnd32 u <= rnd32 v.
Proof. intros H. apply round_le; [apply fexp_correct; exact Hprec|apply valid_rnd_N|exact H]. Qed.
Lemma rnd64_le u v : u <= v -> rnd64 u <= rnd64 v.
Proof. intros H. apply round_le; [apply fexp_correct; exact Hprec64|apply valid_rnd_N|exact H]. Qed.
Lemma rnd32_rep a r : rep32 a r -> rnd32 r = r.
Proof. intros (b & _ & _ & <-). apply round_generic; [apply valid_rnd_N|apply generic_format_B2R]. Qed.
Lemma rnd64_rep x r : rep64 x r -> rnd64 r = r.
Proof. intros (b & _ & _ & <-). apply round_generic; [apply valid_rnd_N|apply generic_format_B2R]. Qed.
(** [m * 2^e] with at most 24 (53) digits is exact. *)
Lemma rnd32_dyadic m e : (Z.abs m < 2 ^ 24)%Z -> (-149 <= e)%Z -> rnd32 (IZR m * bpow radix2 e) = IZR m * bpow radix2 e.
Proof.
  intros Hm He. apply round_generic; [apply valid_rnd_N|]. apply generic_format_FLT with (prec := 24%Z) (emin := (-149)%Z).
  exists (Float radix2 m e); [reflexivity|exact Hm|exact He].
Qed.
Lemma rnd64_dyadic m e : (Z.abs m < 2 ^ 53)%Z -> (-1074 <= e)%Z -> rnd64 (IZR m * bpow radix2 e) = IZR m * bpow radix2 e.
Proof.
  intros Hm He. apply round_generic; [apply valid_rnd_N|]. apply generic_format_FLT with (prec := 53%Z) (emin := (-1074)%Z).
  exists (Float radix2 m e); [reflexivity|exact Hm|exact He].
Qed.
Lemma rnd32_int m : (Z.abs m < 2 ^ 24)%Z -> rnd32 (IZR m) = IZR m.
Proof. intros H. pose proof (rnd32_dyadic m 0 H ltac:(lia)) as E. cbn [bpow] in E. now rewrite Rmult_1_r in E. Qed.
Lemma rnd64_int m : (Z.abs m < 2 ^ 53)%Z -> rnd64 (IZR m) = IZR m.
Proof. intros H. pose proof (rnd64_dyadic m 0 H ltac:(lia)) as E. cbn [bpow] in E. now rewrite Rmult_1_r in E. Qed.
Lemma rnd64_rnd32 r : rnd64 (rnd32 r) = rnd32 r.
Proof.
  apply round_generic; [apply valid_rnd_N|]. apply generic_inclusion_mag with (fexp1 := SpecFloat.fexp 24 128).
  - intros _. unfold SpecFloat.fexp, SpecFloat.emin. lia.
  - apply generic_format_round; [apply fexp_correct; exact Hprec|apply valid_rnd_N].
Qed.

(** ** Operations *)
Lemma finite_B2R (b : dfloat) s m e : B2SF b = S754_finite s m e -> B2R b = F2R (Float radix2 (cond_Zopp s (Z.pos m)) e).
Proof. destruct b as [s'|s'| |s' m' e' Hb]; cbn [B2SF]; intros H; inversion H; subst. reflexivity. Qed.
Lemma signed_cond s m : signed s m = cond_Zopp s (Z.pos m).
Proof. now destruct s. Qed.

Lemma big_bpow u : u <= IZR (2 ^ 127) -> u < bpow radix2 128.
Proof. intros H. apply Rle_lt_trans with (1 := H). change (IZR (2 ^ 127)) with (bpow radix2 127). apply bpow_lt. lia. Qed.

Lemma rep64_widen a r : rep32 a r -> rep64 (d_of_f a) r.
Proof.
  intros (b & Ha & Hf & Hr). unfold d_of_f. rewrite Ha, sf_bits. destruct b as [s|s| |s m e H]; try discriminate Hf; cbn [B2SF].
  - exists (B754_zero s). repeat split. exact Hr.
  - pose proof (binary_normalize_correct 53 1024 Hprec64 Hmax64 mode_NE (signed s m) e s) as N. cbv zeta in N.
    assert (E : F2R (Float radix2 (signed s m) e) = r) by (rewrite signed_cond; exact Hr). rewrite E in N.
    assert (G : round radix2 (SpecFloat.fexp 53 1024) (round_mode mode_NE) r = r).
    { change (rnd64 r = r). rewrite <- Hr. rewrite <- (rnd_float (B754_finite s m e H)) at 1 2.
      change (rnd64 (rnd32 (B2R (B754_finite s m e H))) = rnd32 (B2R (B754_finite s m e H))). apply rnd64_rnd32. }
    rewrite G in N. rewrite Rlt_bool_true in N.
    2:{ apply Rlt_le_trans with (bpow radix2 128); [|apply bpow_le; lia]. rewrite <- Hr. apply abs_B2R_lt_emax. }
    destruct N as (N1 & N2 & _). eexists. split; [apply normalize_equiv|]. now split.
Qed.
Lemma rep32_narrow x r : rep64 x r -> Rabs (rnd32 r) < bpow radix2 128 -> rep32 (f_of_d x) (rnd32 r).
Proof.
  intros (b & Ha & Hf & Hr) HB. unfold f_of_d. rewrite Ha. destruct b as [s|s| |s m e H]; try discriminate Hf; cbn [B2SF].
  - exists (B754_zero s). split; [reflexivity|]. split; [reflexivity|]. cbn in Hr |- *. subst r.
    symmetry. apply round_0. apply valid_rnd_N.
  - pose proof (binary_normalize_correct 24 128 Hprec Hmax mode_NE (signed s m) e s) as N. cbv zeta in N.
    assert (E : F2R (Float radix2 (signed s m) e) = r) by (rewrite signed_cond; exact Hr). rewrite E in N.
    change (round radix2 (SpecFloat.fexp 24 128) (round_mode mode_NE) r) with (rnd32 r) in N. rewrite Rlt_bool_true in N by exact HB.
    destruct N as (N1 & N2 & _). eexists. split; [rewrite binary_normalize_equiv; reflexivity|]. now split.
Qed.
Lemma rep64_Z n : Rabs (rnd64 (IZR n)) < bpow radix2 1024 -> rep64 (d_of_Z n) (rnd64 (IZR n)).
Proof.
  intros HB. pose proof (binary_normalize_correct 53 1024 Hprec64 Hmax64 mode_NE n 0 false) as N. cbv zeta in N.
  assert (E : F2R (Float radix2 n 0) = IZR n) by (unfold F2R; cbn; ring). rewrite E in N.
  change (round radix2 (SpecFloat.fexp 53 1024) (round_mode mode_NE) (IZR n)) with (rnd64 (IZR n)) in N. rewrite Rlt_bool_true in N by exact HB.
  destruct N as (N1 & N2 & _). eexists. split; [apply normalize_equiv|]. now split.
Qed.
Lemma rep32_Z n : Rabs (rnd32 (IZR n)) < bpow radix2 128 -> rep32 (f_of_Z n) (rnd32 (IZR n)).
Proof.
  intros HB. pose proof (binary_normalize_correct 24 128 Hprec Hmax mode_NE n 0 false) as N. cbv zeta in N.
  assert (E : F2R (Float radix2 n 0) = IZR n) by (unfold F2R; cbn; ring). rewrite E in N.
  change (round radix2 (SpecFloat.fexp 24 128) (round_mode mode_NE) (IZR n)) with (rnd32 (IZR n)) in N. rewrite Rlt_bool_true in N by exact HB.
  destruct N as (N1 & N2 & _). eexists. split; [unfold f_of_Z; rewrite binary_normalize_equiv; reflexivity|]. now split.
Qed.

Lemma rep64_mul x y r s : rep64 x r -> rep64 y s -> Rabs (rnd64 (r * s)) < bpow radix2 1024 -> rep64 (dmul x y) (rnd64 (r * s)).
Proof.
  intros (b & -> & Fb & <-) (c & -> & Fc & <-) HB. pose proof (Bmult_correct 53 1024 Hprec64 Hmax64 mode_NE b c) as N.
  change (round radix2 (SpecFloat.fexp 53 1024) (round_mode mode_NE) (B2R b * B2R c)) with (rnd64 (B2R b * B2R c)) in N.
  rewrite Rlt_bool_true in N by exact HB. destruct N as (N1 & N2 & _). exists (Bmult mode_NE b c). split; [apply dmul_equiv|].
  rewrite N2, Fb, Fc. now split.
Qed.
Lemma rep64_add x y r s : rep64 x r -> rep64 y s -> Rabs (rnd64 (r + s)) < bpow radix2 1024 -> rep64 (dadd x y) (rnd64 (r + s)).
Proof.
  intros (b & -> & Fb & <-) (c & -> & Fc & <-) HB. pose proof (Bplus_correct 53 1024 Hprec64 Hmax64 mode_NE b c Fb Fc) as N.
  change (round radix2 (SpecFloat.fexp 53 1024) (round_mode mode_NE) (B2R b + B2R c)) with (rnd64 (B2R b + B2R c)) in N.
  rewrite Rlt_bool_true in N by exact HB. destruct N as (N1 & N2 & _). exists (Bplus mode_NE b c). split; [apply dadd_equiv|]. now split.
Qed.
Lemma rep64_sub x y r s : rep64 x r -> rep64 y s -> Rabs (rnd64 (r - s)) < bpow radix2 1024 -> rep64 (dsub x y) (rnd64 (r - s)).
Proof.
  intros (b & -> & Fb & <-) (c & -> & Fc & <-) HB. pose proof (Bminus_correct 53 1024 Hprec64 Hmax64 mode_NE b c Fb Fc) as N.
  change (round radix2 (SpecFloat.fexp 53 1024) (round_mode mode_NE) (B2R b - B2R c)) with (rnd64 (B2R b - B2R c)) in N.
  rewrite Rlt_bool_true in N by exact HB. destruct N as (N1 & N2 & _). exists (Bminus mode_NE b c). split; [apply dsub_equiv|]. now split.
Qed.
Lemma rep64_div x y r s : rep64 x r -> rep64 y s -> s <> 0 -> Rabs (rnd64 (r / s)) < bpow radix2 1024 -> rep64 (ddiv x y) (rnd64 (r / s)).
Proof.
  intros (b & -> & Fb & <-) (c & -> & Fc & <-) Hz HB. pose proof (Bdiv_correct 53 1024 Hprec64 Hmax64 mode_NE b c Hz) as N.
  change (round radix2 (SpecFloat.fexp 53 1024) (round_mode mode_NE) (B2R b / B2R c)) with (rnd64 (B2R b / B2R c)) in N.
  rewrite Rlt_bool_true in N by exact HB. destruct N as (N1 & N2 & _). exists (Bdiv mode_NE b c). split; [apply ddiv_equiv|].
  rewrite N2, Fb. now split.
Qed.
Lemma fmul_bits (b c : float) : fmul (bits_of_sf (B2SF b)) (bits_of_sf (B2SF c)) = bits_of_sf (B2SF (Bmult mode_NE b c)).
Proof.
  unfold fmul. rewrite !sf_bits. f_equal. destruct b as [sx|sx| |sx mx ex Bx]; destruct c as [sy|sy| |sy my ey By]; [now trivial..|].
  simpl. rewrite B2SF_SF2B. apply binary_round_aux_equiv.
Qed.
Lemma fdiv_bits (b c : float) : fdiv (bits_of_sf (B2SF b)) (bits_of_sf (B2SF c)) = bits_of_sf (B2SF (Bdiv mode_NE b c)).
Proof.
  unfold fdiv. rewrite !sf_bits. f_equal. destruct b as [sx|sx| |sx mx ex Bx]; destruct c as [sy|sy| |sy my ey By]; [now trivial..|].
  simpl. rewrite B2SF_SF2B. set (melz := SFdiv_core_binary _ _ _ _ _ _). case melz as [[mz ez] lz]. apply binary_round_aux_equiv.
Qed.
Lemma fsub_bits (b c : float) : fsub (bits_of_sf (B2SF b)) (bits_of_sf (B2SF c)) = bits_of_sf (B2SF (Bminus mode_NE b c)).
Proof.
  unfold fsub. rewrite !sf_bits. f_equal. destruct b as [sx|sx| |sx mx ex Bx]; destruct c as [sy|sy| |sy my ey By]; [now (trivial || simpl; case Bool.eqb)..|].
  simpl. unfold Zminus. rewrite <- cond_Zopp_negb. apply binary_normalize_equiv.
Qed.
Lemma rep32_mul x y r s : rep32 x r -> rep32 y s -> Rabs (rnd32 (r * s)) < bpow radix2 128 -> rep32 (fmul x y) (rnd32 (r * s)).
Proof.
  intros (b & -> & Fb & <-) (c & -> & Fc & <-) HB. pose proof (Bmult_correct 24 128 Hprec Hmax mode_NE b c) as N.
  change (round radix2 (SpecFloat.fexp 24 128) (round_mode mode_NE) (B2R b * B2R c)) with (rnd32 (B2R b * B2R c)) in N.
  rewrite Rlt_bool_true in N by exact HB. destruct N as (N1 & N2 & _). exists (Bmult mode_NE b c). split; [apply fmul_bits|].
  rewrite N2, Fb, Fc. now split.
Qed.

(** Comparisons of finite doubles. *)
Lemma rep64_ltb x y r s : rep64 x r -> rep64 y s -> SFltb x y = Rlt_bool r s.
Proof.
  intros (b & -> & Fb & <-) (c & -> & Fc & <-). change (SFltb (B2SF b) (B2SF c)) with (Bltb b c). now apply Bltb_correct.
Qed.

(** Conversion to an integer rounds towards zero. *)
Lemma rep64_trunc x r : rep64 x r -> d_trunc x = Some (Ztrunc r).
Proof.
  intros (b & -> & Fb & <-). destruct b as [s|s| |s m e H]; try discriminate Fb.
  - cbn. now rewrite Ztrunc_IZR.
  - cbn [B2SF d_trunc B2R]. f_equal.
    assert (E : Ztrunc (F2R (Float radix2 (Z.pos m) e)) = if (0 <=? e)%Z then (Z.pos m * 2 ^ e)%Z else (Z.pos m / 2 ^ (- e))%Z).
    { unfold F2R. cbn [Fnum Fexp]. destruct (Z.leb_spec 0 e).
      - rewrite <- IZR_Zpower by lia. rewrite <- mult_IZR. apply Ztrunc_IZR.
      - rewrite Ztrunc_floor by (apply Rmult_le_pos; [apply IZR_le; lia|apply bpow_ge_0]).
        replace e with (- (- e))%Z at 1 by lia. rewrite bpow_opp. rewrite <- IZR_Zpower by lia. apply Zfloor_div.
        change (2 ^ (- e) <> 0)%Z. pose proof (Z.pow_pos_nonneg 2 (- e)). lia. }
    destruct s; cbn [cond_Zopp]; [|now symmetry]. rewrite F2R_Zopp, Ztrunc_opp. now rewrite E.
Qed.

(** The order of positive floats is that of their patterns. *)
Lemma rep32_pos_range a r : rep32 a r -> 0 < r -> f32_nonneg a.
Proof.
  intros (b & -> & Fb & <-) Hp. destruct b as [s|s| |s m e H]; try discriminate Fb; [cbn in Hp; lra|]. destruct s.
  - exfalso. apply (Rlt_irrefl 0). apply Rlt_trans with (1 := Hp). cbn [B2R]. apply F2R_lt_0. reflexivity.
  - unfold f32_nonneg, f32_inf. cbn [B2SF bits_of_sf sign_bit]. pose proof (Float32_Flocq.bounded_cases _ _ H). lia.
Qed.
Lemma rep32_order a b r s : rep32 a r -> rep32 b s -> 0 < r -> 0 < s -> ((a <= b)%Z <-> r <= s).
Proof.
  intros Ha Hb Hr Hs. pose proof (rep32_pos_range _ _ Ha Hr) as Na. pose proof (rep32_pos_range _ _ Hb Hs) as Nb.
  destruct Ha as (x & -> & Fx & <-), Hb as (y & -> & Fy & <-). now apply nonneg_order; try apply result_float.
Qed.

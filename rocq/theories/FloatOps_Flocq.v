(** The arithmetic of [FloatOps] is the IEEE-754 arithmetic of Flocq (round to nearest even),
    and addition of non-negative floats is monotone. *)
From Coq Require Import ZArith Bool Lia Reals Lra Floats.SpecFloat.
From Flocq Require Import Core.Core IEEE754.BinarySingleNaN.
From Verif Require Import Base Float32 FloatOps Num.
From Verif Require Float32_Flocq.
Local Open Scope Z_scope.

Notation float := (binary_float 24 128).
Definition Hprec : Prec_gt_0 24 := eq_refl.
Definition Hmax : Prec_lt_emax 24 128 := eq_refl.
#[local] Existing Instance Hprec.
#[local] Existing Instance Hmax.

(** The float with pattern [a]. *)
Definition is_float (a : f32) (x : float) : Prop := sf_of_bits a = B2SF x.

Lemma bounded_intro m e : Z.pos m < 2 ^ 24 -> -149 <= e <= 104 -> (2 ^ 23 <= Z.pos m \/ e = -149) -> SpecFloat.bounded 24 128 m e = true.
Proof.
  intros Hm He Hc. unfold SpecFloat.bounded. apply andb_true_iff. split; [|apply Z.leb_le; lia].
  unfold SpecFloat.canonical_mantissa. apply Zeq_bool_true. unfold SpecFloat.fexp, SpecFloat.emin. rewrite Digits.Zpos_digits2_pos.
  set (d := Digits.Zdigits Zaux.radix2 (Z.pos m)).
  assert (Hd : d <= 24). { apply Digits.Zdigits_le_Zpower. rewrite Z.abs_eq by lia. exact Hm. }
  destruct Hc as [Hc| ->].
  - assert (24 <= d). { assert (23 < d); [|lia]. apply Digits.Zdigits_gt_Zpower. rewrite Z.abs_eq by lia. exact Hc. } lia.
  - lia.
Qed.
Lemma float_exists a : f32_range a -> exists x, is_float a x.
Proof.
  intros Ha. unfold f32_range in Ha.
  assert (V : valid_binary 24 128 (sf_of_bits a) = true).
  { unfold sf_of_bits. pose proof (Z.mod_pos_bound a (2 ^ 31) ltac:(lia)). set (g := a mod 2 ^ 31) in *.
    destruct (Z.eqb_spec g 0); [reflexivity|]. destruct (Z.ltb_spec g (2 ^ 23)).
    - apply bounded_intro; rewrite ?Z2Pos.id by lia; lia.
    - destruct (Z.ltb_spec g 2139095040); [|destruct (g =? 2139095040); reflexivity].
      pose proof (Z.mod_pos_bound g (2 ^ 23) ltac:(lia)). pose proof (Z.div_mod g (2 ^ 23) ltac:(lia)).
      assert (1 <= g / 2 ^ 23) by (apply Z.div_le_lower_bound; lia). assert (g / 2 ^ 23 < 255) by (apply Z.div_lt_upper_bound; lia).
      apply bounded_intro; rewrite ?Z2Pos.id by lia; lia. }
  exists (SF2B (sf_of_bits a) V). unfold is_float. now rewrite B2SF_SF2B.
Qed.

Lemma bits_range (x : float) : f32_range (bits_of_sf (B2SF x)).
Proof.
  unfold f32_range. destruct x as [s|s| |s m e H]; cbn [B2SF bits_of_sf]; unfold sign_bit; try (destruct s; lia).
  - lia.
  - apply Float32_Flocq.bounded_cases in H. destruct s; lia.
Qed.
Lemma sf_bits (x : float) : sf_of_bits (bits_of_sf (B2SF x)) = B2SF x.
Proof.
  destruct x as [s|s| |s m e H]; cbn [B2SF bits_of_sf].
  - now destruct s.
  - now destruct s.
  - reflexivity.
  - pose proof (Float32_Flocq.bounded_cases _ _ H) as (H1 & H2 & H3).
    set (g := (e + 149) * 2 ^ 23 + Z.pos m). assert (Hg : 0 < g < 2139095040) by (unfold g; lia).
    replace (sign_bit s + (e + 149) * 2 ^ 23 + Z.pos m) with (sign_bit s + g) by (unfold g; lia).
    unfold sf_of_bits. replace ((sign_bit s + g) mod 2 ^ 31) with g.
    2:{ unfold sign_bit. destruct s.
        - replace (2 ^ 31 + g) with (g + 1 * 2 ^ 31) by ring. rewrite Z.mod_add, Z.mod_small; lia.
        - rewrite Z.mod_small; lia. }
    replace (2 ^ 31 <=? sign_bit s + g) with s.
    2:{ unfold sign_bit. destruct s; symmetry; [apply Z.leb_le|apply Z.leb_gt]; lia. }
    destruct (Z.eqb_spec g 0); [lia|]. destruct (Z.ltb_spec g (2 ^ 23)).
    + assert (e = -149) by (unfold g in *; lia). subst e. unfold g. replace ((-149 + 149) * 2 ^ 23 + Z.pos m) with (Z.pos m) by lia. reflexivity.
    + destruct (Z.ltb_spec g 2139095040); [|lia].
      assert (Hm : 8388608 <= Z.pos m) by (destruct H3 as [|He]; [assumption|unfold g in *; subst e; lia]).
      assert (Eg : g = (e + 150) * 2 ^ 23 + (Z.pos m - 2 ^ 23)) by (unfold g; lia).
      assert (Em : g mod 2 ^ 23 = Z.pos m - 2 ^ 23). { symmetry. apply Z.mod_unique_pos with (e + 150); lia. }
      assert (Ed : g / 2 ^ 23 = e + 150). { symmetry. apply Z.div_unique_pos with (Z.pos m - 2 ^ 23); lia. }
      rewrite Em, Ed. replace (2 ^ 23 + (Z.pos m - 2 ^ 23)) with (Z.pos m) by lia. replace (e + 150 - 150) with e by lia. reflexivity.
Qed.
Lemma result_float (x : float) : is_float (bits_of_sf (B2SF x)) x.
Proof. apply sf_bits. Qed.

(** As in Flocq's PrimFloat.v, for 24 digits. *)
Lemma round_nearest_even_equiv s m l : round_nearest_even m l = choice_mode mode_NE s m l.
Proof. case l; [reflexivity|intro c]. case c; [|reflexivity..]. now simpl; unfold Round.cond_incr; case Z.even. Qed.
Lemma binary_round_aux_equiv sx mx ex lx : SpecFloat.binary_round_aux 24 128 sx mx ex lx = binary_round_aux 24 128 mode_NE sx mx ex lx.
Proof.
  unfold SpecFloat.binary_round_aux, binary_round_aux. set (mrse' := shr_fexp _ _ _ _ _). case mrse'; intros mrs' e'; simpl.
  now rewrite (round_nearest_even_equiv sx).
Qed.
Lemma binary_round_equiv s m e : SpecFloat.binary_round 24 128 s m e = binary_round 24 128 mode_NE s m e.
Proof. unfold SpecFloat.binary_round, binary_round, shl_align_fexp. set (mez := shl_align _ _ _); case mez as [mz ez]. apply binary_round_aux_equiv. Qed.
Lemma binary_normalize_equiv m e szero : SpecFloat.binary_normalize 24 128 m e szero = B2SF (binary_normalize 24 128 Hprec Hmax mode_NE m e szero).
Proof.
  case m as [|p|p]; [now simpl| |]; simpl; rewrite B2SF_SF2B; apply binary_round_equiv.
Qed.

Theorem fadd_is_ieee a b x y : is_float a x -> is_float b y -> is_float (fadd a b) (Bplus mode_NE x y).
Proof.
  unfold is_float, fadd. intros -> ->. replace (SFadd 24 128 (B2SF x) (B2SF y)) with (B2SF (Bplus mode_NE x y)); [apply sf_bits|]. symmetry.
  destruct x as [sx|sx| |sx mx ex Bx]; destruct y as [sy|sy| |sy my ey By]; [now (trivial || simpl; case Bool.eqb)..|].
  apply binary_normalize_equiv.
Qed.
Theorem fsub_is_ieee a b x y : is_float a x -> is_float b y -> is_float (fsub a b) (Bminus mode_NE x y).
Proof.
  unfold is_float, fsub. intros -> ->. replace (SFsub 24 128 (B2SF x) (B2SF y)) with (B2SF (Bminus mode_NE x y)); [apply sf_bits|]. symmetry.
  destruct x as [sx|sx| |sx mx ex Bx]; destruct y as [sy|sy| |sy my ey By]; [now (trivial || simpl; case Bool.eqb)..|].
  simpl. unfold Zminus. rewrite <- cond_Zopp_negb. apply binary_normalize_equiv.
Qed.
Theorem fmul_is_ieee a b x y : is_float a x -> is_float b y -> is_float (fmul a b) (Bmult mode_NE x y).
Proof.
  unfold is_float, fmul. intros -> ->. replace (SFmul 24 128 (B2SF x) (B2SF y)) with (B2SF (Bmult mode_NE x y)); [apply sf_bits|]. symmetry.
  destruct x as [sx|sx| |sx mx ex Bx]; destruct y as [sy|sy| |sy my ey By]; [now trivial..|].
  simpl. rewrite B2SF_SF2B. apply binary_round_aux_equiv.
Qed.
Theorem fdiv_is_ieee a b x y : is_float a x -> is_float b y -> is_float (fdiv a b) (Bdiv mode_NE x y).
Proof.
  unfold is_float, fdiv. intros -> ->. replace (SFdiv 24 128 (B2SF x) (B2SF y)) with (B2SF (Bdiv mode_NE x y)); [apply sf_bits|]. symmetry.
  destruct x as [sx|sx| |sx mx ex Bx]; destruct y as [sy|sy| |sy my ey By]; [now trivial..|].
  simpl. rewrite B2SF_SF2B. set (melz := SFdiv_core_binary _ _ _ _ _ _). case melz as [[mz ez] lz]. apply binary_round_aux_equiv.
Qed.
Theorem f_of_Z_is_ieee n : is_float (f_of_Z n) (binary_normalize 24 128 Hprec Hmax mode_NE n 0 false).
Proof. unfold is_float, f_of_Z. rewrite binary_normalize_equiv. apply sf_bits. Qed.

(** ** Non-negative floats: patterns 0 .. 0x7F800000 (infinity) *)
Definition f32_inf : f32 := 2139095040.
Definition f32_nonneg (a : f32) : Prop := 0 <= a <= f32_inf.

Lemma nonneg_cases a x : f32_nonneg a -> is_float a x ->
  (a = f32_inf /\ x = B754_infinity false) \/ (a < f32_inf /\ is_finite x = true /\ Bsign x = false /\ (0 <= B2R x)%R).
Proof.
  unfold f32_nonneg, is_float, f32_inf, sf_of_bits. intros Ha Hx.
  assert (E : a mod 2 ^ 31 = a) by (apply Z.mod_small; lia). rewrite E in Hx.
  assert (S : (2 ^ 31 <=? a) = false) by (apply Z.leb_gt; lia). rewrite S in Hx.
  destruct (Z.eqb_spec a 0) as [Ez|Ez].
  - right. destruct x as [s|s| |s m ex H]; try discriminate. cbn in Hx. injection Hx as <-. cbn. repeat split; auto; [lia|lra].
  - destruct (Z.ltb_spec a (2 ^ 23)) as [L1|L1]; [|destruct (Z.ltb_spec a 2139095040) as [L2|L2]; [|destruct (Z.eqb_spec a 2139095040)]].
    + right. destruct x as [s|s| |s m ex H]; try discriminate. cbn [B2SF] in Hx. assert (s = false) by congruence; subst s. clear Hx. repeat split; auto; [lia|].
      cbn. apply F2R_ge_0. cbn. lia.
    + right. destruct x as [s|s| |s m ex H]; try discriminate. cbn [B2SF] in Hx. assert (s = false) by congruence; subst s. clear Hx. repeat split; auto.
      cbn. apply F2R_ge_0. cbn. lia.
    + left. destruct x as [s|s| |s m ex H]; try discriminate. cbn in Hx. injection Hx as <-. auto.
    + lia.
Qed.

Lemma bits_of_float a x : f32_nonneg a -> is_float a x -> a = bits_of_sf (B2SF x).
Proof.
  unfold f32_nonneg, is_float, f32_inf. intros Ha <-. unfold sf_of_bits.
  assert (E : a mod 2 ^ 31 = a) by (apply Z.mod_small; lia). rewrite E.
  assert (S : (2 ^ 31 <=? a) = false) by (apply Z.leb_gt; lia). rewrite S.
  destruct (Z.eqb_spec a 0); [now subst|]. destruct (Z.ltb_spec a (2 ^ 23)) as [L1|L1]; [|destruct (Z.ltb_spec a 2139095040) as [L2|L2]; [|destruct (Z.eqb_spec a 2139095040)]].
  - cbn [bits_of_sf sign_bit]. rewrite Z2Pos.id by lia. lia.
  - cbn [bits_of_sf sign_bit]. pose proof (Z.mod_pos_bound a (2 ^ 23) ltac:(lia)). pose proof (Z.div_mod a (2 ^ 23) ltac:(lia)).
    rewrite Z2Pos.id by lia. lia.
  - now subst.
  - lia.
Qed.

(** The order of the patterns is the order of the values. *)
Lemma nonneg_order a b x y : f32_nonneg a -> f32_nonneg b -> is_float a x -> is_float b y -> is_finite x = true -> is_finite y = true ->
  (a <= b <-> (B2R x <= B2R y)%R).
Proof.
  intros Ha Hb Hx Hy Fx Fy. pose proof (Bcompare_correct 24 128 x y Fx Fy) as C.
  assert (E : Bcompare x y = Some (a ?= b)).
  { rewrite (bits_of_float a x Ha Hx), (bits_of_float b y Hb Hy).
    destruct (nonneg_cases a x Ha Hx) as [[_ ->]|(_ & _ & Sx & _)]; [discriminate|].
    destruct (nonneg_cases b y Hb Hy) as [[_ ->]|(_ & _ & Sy & _)]; [discriminate|].
    destruct x as [sx|sx| |sx mx ex Bx]; try discriminate; destruct y as [sy|sy| |sy my ey By]; try discriminate; cbn in Sx, Sy; subst; cbn [B2SF bits_of_sf sign_bit].
    - reflexivity.
    - pose proof (Float32_Flocq.bounded_cases _ _ By). unfold Bcompare. cbn [B2SF SFcompare]. f_equal. symmetry. apply Z.compare_lt_iff. lia.
    - pose proof (Float32_Flocq.bounded_cases _ _ Bx). unfold Bcompare. cbn [B2SF SFcompare]. f_equal. symmetry. apply Z.compare_gt_iff. lia.
    - unfold Bcompare. cbn [B2SF SFcompare]. rewrite Float32_Flocq.finite_compare by assumption. reflexivity. }
  rewrite C in E. injection E as E. unfold Z.le. rewrite <- E. split.
  - intros H. destruct (Rcompare_spec (B2R x) (B2R y)) as [K|K|K]; try lra. now contradiction H.
  - intros H. destruct (Rcompare_spec (B2R x) (B2R y)); try discriminate. lra.
Qed.

Local Notation rnd := (round radix2 (SpecFloat.fexp 24 128) (round_mode mode_NE)).

(** A sum of non-negative floats: the rounded sum, or infinity. *)
Lemma fadd_nonneg a w x z : f32_nonneg a -> f32_nonneg w -> is_float a x -> is_float w z ->
  f32_nonneg (fadd a w) /\
  (fadd a w = f32_inf \/
   (is_finite x = true /\ is_finite z = true /\ is_finite (Bplus mode_NE x z) = true /\ B2R (Bplus mode_NE x z) = rnd (B2R x + B2R z)%R)) /\
  (is_finite x = true -> is_finite z = true -> (rnd (B2R x + B2R z)%R < bpow radix2 128)%R -> B2R (Bplus mode_NE x z) = rnd (B2R x + B2R z)%R /\ is_finite (Bplus mode_NE x z) = true).
Proof.
  intros Ha Hw Hx Hz. pose proof (fadd_is_ieee a w x z Hx Hz) as Hs. unfold is_float in Hs.
  assert (Hbits : fadd a w = bits_of_sf (B2SF (Bplus mode_NE x z))).
  { rewrite <- Hs. unfold fadd. unfold is_float in Hx, Hz. rewrite Hx, Hz.
    pose proof (fadd_is_ieee a w x z Hx Hz) as Q. unfold is_float, fadd in Q. rewrite Hx, Hz in Q. rewrite Q.
    assert (SFadd 24 128 (B2SF x) (B2SF z) = B2SF (Bplus mode_NE x z)) as ->; [|reflexivity].
    destruct x as [sx|sx| |sx mx ex Bx]; destruct z as [sy|sy| |sy my ey By]; [now (trivial || simpl; case Bool.eqb)..|]. apply binary_normalize_equiv. }
  destruct (nonneg_cases a x Ha Hx) as [[Ea ->]|(La & Fx & Sx & Vx)].
  { destruct (nonneg_cases w z Hw Hz) as [[Ew ->]|(Lw & Fz & Sz & Vz)].
    - cbn in Hbits. rewrite Hbits. unfold f32_nonneg, f32_inf. split; [cbn; lia|]. split; [now left|discriminate].
    - assert (E : Bplus mode_NE (B754_infinity false) z = (B754_infinity false : float)) by (destruct z; cbn in *; try discriminate; reflexivity).
      rewrite E in Hbits. rewrite Hbits. unfold f32_nonneg, f32_inf. split; [cbn; lia|]. split; [now left|discriminate]. }
  destruct (nonneg_cases w z Hw Hz) as [[Ew ->]|(Lw & Fz & Sz & Vz)].
  { assert (E : Bplus mode_NE x (B754_infinity false) = (B754_infinity false : float)) by (destruct x; cbn in *; try discriminate; reflexivity).
    rewrite E in Hbits. rewrite Hbits. unfold f32_nonneg, f32_inf. split; [cbn; lia|]. split; [now left|discriminate]. }
  pose proof (Bplus_correct 24 128 Hprec Hmax mode_NE x z Fx Fz) as C.
  assert (Vr : (0 <= rnd (B2R x + B2R z))%R).
  { replace 0%R with (rnd 0%R) by (apply round_0, valid_rnd_N). apply round_le; [apply fexp_correct; exact Hprec|apply valid_rnd_N|lra]. }
  rewrite (Rabs_right (rnd (B2R x + B2R z))) in C by lra.
  destruct (Rlt_bool_spec (rnd (B2R x + B2R z)%R) (bpow radix2 128)) as [Hlt|Hge].
  - destruct C as (CR & CF & CS).
    assert (Sg : Bsign (Bplus mode_NE x z) = false).
    { rewrite CS, Sx, Sz. destruct (Rcompare_spec (B2R x + B2R z) 0); try reflexivity. lra. }
    assert (Rg : f32_nonneg (fadd a w)).
    { rewrite Hbits. set (q := Bplus mode_NE x z) in *. unfold f32_nonneg, f32_inf. destruct q as [s|s| |s m e H]; try discriminate; cbn in Sg; subst s; cbn [B2SF bits_of_sf sign_bit].
      - lia.
      - pose proof (Float32_Flocq.bounded_cases _ _ H). lia. }
    split; [exact Rg|]. split; [right; auto|auto].
  - destruct C as [CB _]. rewrite Sx in CB. cbn in CB. rewrite CB in Hbits. cbn in Hbits. rewrite Hbits.
    unfold f32_nonneg, f32_inf. split; [lia|]. split; [now left|]. intros _ _ Hlt. lra.
Qed.

Lemma rnd_le u v : (u <= v)%R -> (rnd u <= rnd v)%R.
Proof. intros H. apply round_le; [apply fexp_correct; exact Hprec|apply valid_rnd_N|exact H]. Qed.
Lemma rnd_float (x : float) : rnd (B2R x) = B2R x.
Proof. apply round_generic; [apply valid_rnd_N|apply generic_format_B2R]. Qed.

Theorem fadd_mono a b w : f32_nonneg a -> f32_nonneg b -> f32_nonneg w -> a <= b -> fadd a w <= fadd b w.
Proof.
  intros Ha Hb Hw Hab. assert (R : forall u, f32_nonneg u -> exists x, is_float u x).
  { intros u Hu. apply float_exists. unfold f32_range, f32_nonneg, f32_inf in *. lia. }
  destruct (R a Ha) as [x Hx], (R b Hb) as [y Hy], (R w Hw) as [z Hz].
  destruct (fadd_nonneg a w x z Ha Hw Hx Hz) as (Na & Ca & Da). destruct (fadd_nonneg b w y z Hb Hw Hy Hz) as (Nb & Cb & Db).
  destruct Cb as [->|(Fy & Fz & Fs & Vs)]; [unfold f32_nonneg in Na; lia|].
  assert (Fx : is_finite x = true).
  { destruct (nonneg_cases a x Ha Hx) as [[-> _]|(_ & F & _)]; [|exact F]. destruct (nonneg_cases b y Hb Hy) as [[-> ->]|(Lb & _)]; [discriminate|]. unfold f32_inf in *. lia. }
  pose proof (proj1 (nonneg_order a b x y Ha Hb Hx Hy Fx Fy) Hab) as Hv.
  assert (Hr : (rnd (B2R x + B2R z) <= rnd (B2R y + B2R z))%R) by (apply rnd_le; lra).
  assert (Hb2 : (rnd (B2R y + B2R z) < bpow radix2 128)%R).
  { rewrite <- Vs. eapply Rle_lt_trans; [apply Rle_abs|]. apply abs_B2R_lt_emax. }
  destruct Da as [Va Fa]; auto; [lra|].
  apply (nonneg_order _ _ _ _ Na Nb (fadd_is_ieee a w x z Hx Hz) (fadd_is_ieee b w y z Hy Hz) Fa Fs). rewrite Va, Vs. exact Hr.
Qed.
Theorem fadd_grow a w : f32_nonneg a -> f32_nonneg w -> a <= fadd a w.
Proof.
  intros Ha Hw. assert (R : forall u, f32_nonneg u -> exists x, is_float u x).
  { intros u Hu. apply float_exists. unfold f32_range, f32_nonneg, f32_inf in *. lia. }
  destruct (R a Ha) as [x Hx], (R w Hw) as [z Hz].
  destruct (fadd_nonneg a w x z Ha Hw Hx Hz) as (Na & Ca & Da).
  destruct Ca as [->|(Fx & Fz & Fs & Vs)]; [unfold f32_nonneg in Ha; lia|].
  apply (nonneg_order _ _ _ _ Ha Na Hx (fadd_is_ieee a w x z Hx Hz) Fx Fs). rewrite Vs, <- (rnd_float x) at 1. apply rnd_le.
  destruct (nonneg_cases w z Hw Hz) as [[_ ->]|(_ & _ & _ & V)]; [discriminate|lra].
Qed.
Theorem fadd_closed a w : f32_nonneg a -> f32_nonneg w -> f32_nonneg (fadd a w).
Proof.
  intros Ha Hw. assert (R : forall u, f32_nonneg u -> exists x, is_float u x).
  { intros u Hu. apply float_exists. unfold f32_range, f32_nonneg, f32_inf in *. lia. }
  destruct (R a Ha) as [x Hx], (R w Hw) as [z Hz]. now apply (fadd_nonneg a w x z).
Qed.
Print Assumptions fadd_is_ieee.

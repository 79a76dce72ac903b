(** The comparisons of [Float32] are the IEEE-754 comparisons of Flocq. *)
From Coq Require Import ZArith Bool Lia Reals.
From Flocq Require Import Core.Core IEEE754.BinarySingleNaN IEEE754.Binary IEEE754.Bits.
From Verif Require Import Float32.
Local Open Scope Z_scope.

Definition mag_of (x : binary32) : Z :=
  match x with
  | B754_zero _ _ _ => 0
  | B754_infinity _ _ _ => 2139095040
  | B754_nan _ _ _ p _ => 2139095040 + Z.pos p
  | B754_finite _ _ _ m e _ => (e + 149) * 8388608 + Z.pos m
  end.

Lemma bounded_cases m e :
  SpecFloat.bounded 24 128 m e = true ->
  -149 <= e <= 104 /\ 0 < Z.pos m < 16777216 /\ (8388608 <= Z.pos m \/ e = -149).
Proof.
  intros H. unfold SpecFloat.bounded in H. apply andb_true_iff in H as [H1 H2].
  apply Z.leb_le in H2. unfold SpecFloat.canonical_mantissa in H1. apply Zeq_bool_eq in H1.
  unfold SpecFloat.fexp, SpecFloat.emin in H1.
  rewrite Digits.Zpos_digits2_pos in H1.
  pose proof (Digits.Zdigits_correct Zaux.radix2 (Z.pos m)) as [Hl Hu].
  rewrite Z.abs_eq in Hl, Hu by lia.
  set (d := Digits.Zdigits Zaux.radix2 (Z.pos m)) in *.
  assert (Hd : 0 < d) by (apply Digits.Zdigits_gt_0; lia).
  simpl (128 - 24) in *. 
  assert (Hd24 : d <= 24) by lia.
  assert (Hup : Z.pos m < 2 ^ 24).
  { eapply Z.lt_le_trans; [exact Hu|]. apply (Z.pow_le_mono_r 2); lia. }
  split; [lia|]. split; [split; [lia|exact Hup]|].
  destruct (Z.eq_dec d 24) as [E|E].
  - left. rewrite E in Hl. exact Hl.
  - right. lia.
Qed.

Lemma nan_pl_bound p : nan_pl 24 p = true -> 0 < Z.pos p < 8388608.
Proof.
  unfold nan_pl. rewrite Digits.Zpos_digits2_pos. intros H. apply Z.ltb_lt in H.
  pose proof (Digits.Zdigits_correct Zaux.radix2 (Z.pos p)) as [_ Hu].
  rewrite Z.abs_eq in Hu by lia. split; [lia|].
  eapply Z.lt_le_trans; [exact Hu|]. change 8388608 with (2 ^ 23). apply (Z.pow_le_mono_r 2); lia.
Qed.

Lemma mag_of_range x : 0 <= mag_of x < 2 ^ 31.
Proof.
  destruct x as [s|s|s p Hp|s m e Hb]; unfold mag_of; [lia|lia| |].
  - apply nan_pl_bound in Hp. lia.
  - apply bounded_cases in Hb. lia.
Qed.

Lemma join_bits_32 s m e : join_bits 23 8 s m e = (if s then 2 ^ 31 else 0) + (e * 8388608 + m).
Proof.
  unfold join_bits. rewrite Z.shiftl_mul_pow2 by lia. destruct s; ring.
Qed.

Lemma bits_of_mag x :
  bits_of_b32 x = (if Bsign 24 128 x then 2 ^ 31 else 0) + mag_of x.
Proof.
  destruct x as [s|s|s p Hp|s m e Hb]; unfold bits_of_b32, bits_of_binary_float; 
    rewrite ?join_bits_32; unfold Bsign, mag_of.
  - lia.
  - change (2 ^ 8 - 1) with 255. lia.
  - change (2 ^ 8 - 1) with 255. lia.
  - change (SpecFloat.emin (23 + 1) (2 ^ (8 - 1))) with (-149).
    change (2 ^ 23) with 8388608.
    destruct (Z.leb_spec 0 (Z.pos m - 8388608)).
    + lia.
    + apply bounded_cases in Hb. replace e with (-149) by lia. lia.
Qed.

Definition key_of (x : binary32) : Z := if Bsign 24 128 x then - mag_of x else mag_of x.

Lemma key_bits x : f32_key (bits_of_b32 x) = key_of x.
Proof.
  rewrite bits_of_mag. unfold f32_key, key_of, f32_mag.
  pose proof (mag_of_range x). destruct (Bsign 24 128 x).
  - destruct (Z.ltb_spec (2 ^ 31 + mag_of x) (2 ^ 31)); [lia|].
    replace (2 ^ 31 + mag_of x) with (mag_of x + 1 * 2 ^ 31) by ring.
    rewrite Z.mod_add, Z.mod_small by lia. reflexivity.
  - destruct (Z.ltb_spec (0 + mag_of x) (2 ^ 31)); [|lia].
    rewrite Z.mod_small by lia. reflexivity.
Qed.

Lemma nan_bits x : f32_nan (bits_of_b32 x) = is_nan 24 128 x.
Proof.
  rewrite bits_of_mag. unfold f32_nan, f32_mag.
  assert (E : ((if Bsign 24 128 x then 2 ^ 31 else 0) + mag_of x) mod 2 ^ 31 = mag_of x).
  { pose proof (mag_of_range x). destruct (Bsign 24 128 x).
    - replace (2 ^ 31 + mag_of x) with (mag_of x + 1 * 2 ^ 31) by ring.
      rewrite Z.mod_add, Z.mod_small; lia.
    - rewrite Z.mod_small; lia. }
  rewrite E. clear E. destruct x as [s|s|s p Hp|s m e Hb]; unfold mag_of, is_nan; auto.
  - apply Z.ltb_lt. lia.
  - apply Z.ltb_ge. apply bounded_cases in Hb. lia.
Qed.

Lemma finite_compare m1 e1 m2 e2 :
  SpecFloat.bounded 24 128 m1 e1 = true -> SpecFloat.bounded 24 128 m2 e2 = true ->
  match e1 ?= e2 with Eq => Pos.compare_cont Eq m1 m2 | Lt => Lt | Gt => Gt end =
  ((e1 + 149) * 8388608 + Z.pos m1 ?= (e2 + 149) * 8388608 + Z.pos m2).
Proof.
  intros H1 H2. apply bounded_cases in H1, H2.
  destruct (Z.compare_spec e1 e2) as [->|H|H].
  - change (Pos.compare_cont Eq m1 m2) with (Z.pos m1 ?= Z.pos m2).
    destruct (Z.compare_spec (Z.pos m1) (Z.pos m2)) as [->|H|H]; symmetry.
    + apply Z.compare_refl.
    + apply Z.compare_lt_iff. lia.
    + apply Z.compare_gt_iff. lia.
  - symmetry. apply Z.compare_lt_iff. lia.
  - symmetry. apply Z.compare_gt_iff. lia.
Qed.

Ltac cmp_case :=
  match goal with
  | |- Some ?c = Some (?a ?= ?b) => f_equal; symmetry;
      first [ apply Z.compare_lt_iff; lia | apply Z.compare_gt_iff; lia | apply Z.compare_eq_iff; lia ]
  end.

Lemma compare_keys x y :
  Bcompare 24 128 x y =
  if is_nan 24 128 x || is_nan 24 128 y then None else Some (key_of x ?= key_of y).
Proof.
  destruct x as [s1|s1|s1 p1 Hp1|s1 m1 e1 Hb1]; destruct y as [s2|s2|s2 p2 Hp2|s2 m2 e2 Hb2];
    unfold Bcompare, BinarySingleNaN.Bcompare, key_of, mag_of, B2BSN, BinarySingleNaN.B2SF,
      SpecFloat.SFcompare, is_nan, orb, Bsign; try reflexivity.
  9: pose proof (finite_compare _ _ _ _ Hb1 Hb2) as HC; f_equal.
  all: try apply bounded_cases in Hb1; try apply bounded_cases in Hb2.
  1-8: destruct s1; destruct s2; cmp_case.
  destruct s1, s2.
  - transitivity (CompOpp (match e1 ?= e2 with Eq => Pos.compare_cont Eq m1 m2 | Lt => Lt | Gt => Gt end)).
    + destruct (e1 ?= e2); reflexivity.
    + rewrite HC. rewrite Z.compare_opp, <- Z.compare_antisym. reflexivity.
  - symmetry. apply Z.compare_lt_iff. lia.
  - symmetry. apply Z.compare_gt_iff. lia.
  - exact HC.
Qed.

Lemma bits_round a : f32_range a -> bits_of_b32 (b32_of_bits a) = a.
Proof. intros H. apply bits_of_binary_float_of_bits. exact H. Qed.

Theorem fgt_is_ieee a b :
  f32_range a -> f32_range b ->
  (fgt a b = true <-> Bcompare 24 128 (b32_of_bits a) (b32_of_bits b) = Some Gt).
Proof.
  intros Ha Hb. rewrite <- (bits_round a Ha) at 1. rewrite <- (bits_round b Hb) at 1.
  generalize (b32_of_bits a) (b32_of_bits b). intros x y.
  rewrite compare_keys. unfold fgt. rewrite !nan_bits, !key_bits.
  destruct (is_nan 24 128 x); [split; discriminate|].
  destruct (is_nan 24 128 y); [split; discriminate|]. simpl.
  rewrite Z.ltb_lt, <- Z.compare_gt_iff. split; [now intros ->|congruence].
Qed.

Theorem feq_is_ieee a b :
  f32_range a -> f32_range b ->
  (feq a b = true <-> Bcompare 24 128 (b32_of_bits a) (b32_of_bits b) = Some Eq).
Proof.
  intros Ha Hb. rewrite <- (bits_round a Ha) at 1. rewrite <- (bits_round b Hb) at 1.
  generalize (b32_of_bits a) (b32_of_bits b). intros x y.
  rewrite compare_keys. unfold feq. rewrite !nan_bits, !key_bits.
  destruct (is_nan 24 128 x); [split; discriminate|].
  destruct (is_nan 24 128 y); [split; discriminate|]. simpl.
  rewrite Z.eqb_eq. split; [intros ->; now rewrite Z.compare_refl|].
  intros H. inversion H as [H1]. apply Z.compare_eq_iff in H1. auto.
Qed.

(** The constants used by the model are the intended floats. *)
Lemma f32_lowest_value : bits_of_b32 (B754_finite 24 128 true 16777215 104 eq_refl) = f32_lowest.
Proof. reflexivity. Qed.
Lemma f32_min_positive_value : bits_of_b32 (B754_finite 24 128 false 8388608 (-149) eq_refl) = f32_min_positive.
Proof. reflexivity. Qed.
Lemma f32_one_value : bits_of_b32 (B754_finite 24 128 false 8388608 (-23) eq_refl) = f32_one.
Proof. reflexivity. Qed.
Print Assumptions fgt_is_ieee.
Print Assumptions feq_is_ieee.

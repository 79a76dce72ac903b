(** Integers below 2^24 survive the conversion to a float and back. *)
From Coq Require Import ZArith Bool Lia Floats.SpecFloat.
From Verif Require Import Base Float32 FloatOps.
Local Open Scope Z_scope.

Lemma digits2_bounds m : 2 ^ (Z.pos (digits2_pos m) - 1) <= Z.pos m < 2 ^ Z.pos (digits2_pos m).
Proof.
  induction m as [m IH|m IH|]; cbn [digits2_pos]; rewrite ?Pos2Z.inj_succ; try (cbn; lia).
  - replace (Z.succ (Z.pos (digits2_pos m)) - 1) with (Z.succ (Z.pos (digits2_pos m) - 1)) by lia.
    rewrite !Z.pow_succ_r by lia. lia.
  - replace (Z.succ (Z.pos (digits2_pos m)) - 1) with (Z.succ (Z.pos (digits2_pos m) - 1)) by lia.
    rewrite !Z.pow_succ_r by lia. lia.
Qed.

Lemma digits2_unique m d : 0 < d -> 2 ^ (d - 1) <= Z.pos m < 2 ^ d -> Z.pos (digits2_pos m) = d.
Proof.
  intros Hd H. pose proof (digits2_bounds m) as B. set (e := Z.pos (digits2_pos m)) in *. assert (0 < e) by (unfold e; lia).
  destruct (Z.lt_trichotomy e d) as [L|[L|L]]; [|exact L|].
  - assert (2 ^ e <= 2 ^ (d - 1)) by (apply Z.pow_le_mono_r; lia). lia.
  - assert (2 ^ d <= 2 ^ (e - 1)) by (apply Z.pow_le_mono_r; lia). lia.
Qed.

Lemma digits2_shift m n : Z.pos (digits2_pos (shift_pos n m)) = Z.pos (digits2_pos m) + Z.pos n.
Proof.
  apply digits2_unique; [lia|]. pose proof (digits2_bounds m) as B. rewrite shift_pos_correct, Z.pow_pos_fold.
  replace (Z.pos (digits2_pos m) + Z.pos n - 1) with ((Z.pos (digits2_pos m) - 1) + Z.pos n) by lia.
  rewrite !Z.pow_add_r by lia. assert (0 < 2 ^ Z.pos n) by (apply Z.pow_pos_nonneg; lia). nia.
Qed.

(** A mantissa of 24 digits needs no rounding. *)
Lemma round_aux_exact m e : Z.pos (digits2_pos m) = 24 -> -149 <= e <= 104 ->
  binary_round_aux 24 128 false (Z.pos m) e loc_Exact = S754_finite false m e.
Proof.
  intros Hd He.
  assert (Ef : shr_fexp 24 128 (Z.pos m) e loc_Exact = (Build_shr_record (Z.pos m) false false, e)).
  { unfold shr_fexp. unfold Zdigits2. rewrite Hd. unfold fexp, emin. replace (Z.max (24 + e - 24) (3 - 128 - 24)) with e by lia.
    rewrite Z.sub_diag. reflexivity. }
  unfold binary_round_aux. rewrite Ef. cbn [shr_m loc_of_shr_record round_nearest_even]. rewrite Ef. cbn [shr_m].
  replace (e <=? 128 - 24) with true by (symmetry; apply Z.leb_le; lia). reflexivity.
Qed.

Lemma round_small m : Z.pos m < 2 ^ 24 ->
  exists m' d, binary_round 24 128 false m 0 = S754_finite false m' (d - 24) /\ 1 <= d <= 24 /\
    2 ^ 23 <= Z.pos m' < 2 ^ 24 /\ Z.pos m' = Z.pos m * 2 ^ (24 - d).
Proof.
  intros Hm. pose proof (digits2_bounds m) as B. set (d := Z.pos (digits2_pos m)) in *.
  assert (Hd : 1 <= d <= 24).
  { assert (0 < d) by (unfold d; lia). destruct (Z_le_gt_dec d 24); [lia|].
    assert (2 ^ 24 <= 2 ^ (d - 1)) by (apply Z.pow_le_mono_r; lia). lia. }
  unfold binary_round, shl_align. unfold fexp, emin. fold d.
  replace (Z.max (d + 0 - 24) (3 - 128 - 24)) with (d - 24) by lia. rewrite Z.sub_0_r.
  destruct (d - 24) as [|p|p] eqn:Ed; [| lia |].
  - exists m, d. rewrite round_aux_exact by (fold d; lia). replace (d - 24) with 0 by lia.
    split; [reflexivity|]. split; [lia|]. replace d with 24 in * by lia. cbn in B. split; [lia|].
    change (2 ^ (24 - 24)) with 1. lia.
  - exists (shift_pos p m), d. rewrite Ed.
    assert (E : Z.pos (digits2_pos (shift_pos p m)) = 24) by (rewrite digits2_shift; fold d; lia).
    split; [apply round_aux_exact; [exact E|lia]|]. split; [lia|].
    split; [pose proof (digits2_bounds (shift_pos p m)) as B2; rewrite E in B2; exact B2|].
    rewrite shift_pos_correct, Z.pow_pos_fold. replace (24 - d) with (Z.pos p) by lia. ring.
Qed.

Lemma f_of_Z_small n : 0 <= n < 2 ^ 24 -> trunc (f_of_Z n) = Some n /\ 0 <= f_of_Z n < 2139095040.
Proof.
  intros Hn. destruct n as [|m|m]; [split; [reflexivity|cbv; split; congruence]| |lia].
  destruct (round_small m) as (m' & d & E & Hd & Hm' & Em); [lia|].
  unfold f_of_Z, binary_normalize. rewrite E. cbn [bits_of_sf]. unfold sign_bit.
  replace (0 + (d - 24 + 149) * 2 ^ 23 + Z.pos m') with ((d + 125) * 2 ^ 23 + Z.pos m') by ring.
  set (b := (d + 125) * 2 ^ 23 + Z.pos m').
  assert (Hb : 127 * 2 ^ 23 <= b < 151 * 2 ^ 23) by (unfold b; cbn in Hm' |- *; lia).
  split; [|cbn in Hb; lia].
  unfold trunc, sf_of_bits.
  replace (2 ^ 31 <=? b) with false by (symmetry; apply Z.leb_gt; cbn in Hb |- *; lia).
  rewrite (Z.mod_small b) by (cbn in Hb |- *; lia).
  replace (b =? 0) with false by (symmetry; apply Z.eqb_neq; cbn in Hb; lia).
  replace (b <? 2 ^ 23) with false by (symmetry; apply Z.ltb_ge; cbn in Hb |- *; lia).
  replace (b <? 2139095040) with true by (symmetry; apply Z.ltb_lt; cbn in Hb |- *; lia).
  assert (Eb : b = (d + 126) * 2 ^ 23 + (Z.pos m' - 2 ^ 23)) by (unfold b; ring).
  assert (Eq : b / 2 ^ 23 = d + 126) by (rewrite Eb; rewrite Z.div_add_l by lia; rewrite Z.div_small by lia; lia).
  assert (Er : b mod 2 ^ 23 = Z.pos m' - 2 ^ 23) by (rewrite Eb, Z.add_comm, Z_mod_plus_full; apply Z.mod_small; lia).
  rewrite Eq, Er. replace (2 ^ 23 + (Z.pos m' - 2 ^ 23)) with (Z.pos m') by ring. rewrite Pos2Z.id || rewrite Z2Pos.id by lia.
  cbn [Z.to_pos].
  replace (d + 126 - 150) with (d - 24) by ring. f_equal. rewrite Em.
  destruct (Z.leb_spec 0 (d - 24)).
  - replace d with 24 by lia. change (24 - 24) with 0. rewrite !Z.pow_0_r. lia.
  - replace (- (d - 24)) with (24 - d) by ring. rewrite Z.div_mul; [reflexivity|]. apply Z.pow_nonzero; lia.
Qed.

Lemma feq_refl_number a : f32_nan a = false -> feq a a = true.
Proof. intros H. unfold feq. rewrite H, Z.eqb_refl. reflexivity. Qed.

Lemma feq_small a b : 0 <= a < 2 ^ 24 -> 0 <= b < 2 ^ 24 -> feq (f_of_Z a) (f_of_Z b) = (a =? b).
Proof.
  intros Ha Hb. destruct (f_of_Z_small a Ha) as [Ta Ra], (f_of_Z_small b Hb) as [Tb Rb].
  assert (H : forall x, 0 <= x < 2139095040 -> f32_nan x = false /\ f32_key x = x).
  { intros x Hx. assert (E : f32_mag x = x) by (apply Z.mod_small; cbn; lia). unfold f32_nan, f32_key. rewrite E.
    split; [apply Z.ltb_ge; lia|]. replace (x <? 2 ^ 31) with true by (symmetry; apply Z.ltb_lt; cbn; lia). reflexivity. }
  destruct (H _ Ra) as [N1 K1], (H _ Rb) as [N2 K2]. unfold feq. rewrite N1, N2, K1, K2. cbn [negb andb].
  destruct (Z.eqb_spec a b) as [->|Hne]; [apply Z.eqb_refl|]. apply Z.eqb_neq. intros E. apply Hne.
  rewrite E in Tb. congruence.
Qed.

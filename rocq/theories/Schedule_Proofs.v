(** Proofs about [Schedule_Model]. *)
From Coq Require Import Reals Lra Psatz.
From Flocq Require Import Core.
From Verif Require Import Base Schedule_Model.
Local Open Scope R_scope.

Lemma base_ge1 gamma n : 0 <= gamma -> 1 <= 1 + gamma * INR n.
Proof. intros H. pose proof (pos_INR n). nra. Qed.

Lemma lr_zero lr gamma e : calculate_lr lr gamma e 0 = lr.
Proof.
  unfold calculate_lr. cbn [INR]. rewrite Rmult_0_r, Rplus_0_r. unfold Rpower. rewrite ln_1, Rmult_0_r, exp_0. lra.
Qed.

Lemma lr_pos lr gamma e n : 0 < lr -> 0 < calculate_lr lr gamma e n.
Proof. intros H. unfold calculate_lr, Rpower. pose proof (exp_pos (- e * ln (1 + gamma * INR n))). nra. Qed.

Lemma lr_mono lr gamma e n m : 0 < lr -> 0 <= gamma -> 0 <= e -> (n <= m)%nat ->
  calculate_lr lr gamma e m <= calculate_lr lr gamma e n.
Proof.
  intros Hl Hg He Hn. unfold calculate_lr. apply Rmult_le_compat_l; [lra|]. unfold Rpower.
  assert (Hb : 1 + gamma * INR n <= 1 + gamma * INR m).
  { apply Rplus_le_compat_l, Rmult_le_compat_l; [exact Hg|]. now apply le_INR. }
  assert (Hln : ln (1 + gamma * INR n) <= ln (1 + gamma * INR m)).
  { destruct Hb as [Hb| ->]; [|lra]. left. apply ln_increasing; [|exact Hb]. pose proof (base_ge1 gamma n Hg). lra. }
  assert (Hx : - e * ln (1 + gamma * INR m) <= - e * ln (1 + gamma * INR n)) by nra.
  destruct Hx as [Hx| ->]; [|lra]. left. now apply exp_increasing.
Qed.

Lemma lr_strict lr gamma e n m : 0 < lr -> 0 < gamma -> 0 < e -> (n < m)%nat ->
  calculate_lr lr gamma e m < calculate_lr lr gamma e n.
Proof.
  intros Hl Hg He Hn. unfold calculate_lr. apply Rmult_lt_compat_l; [lra|]. unfold Rpower. apply exp_increasing.
  assert (Hb : 1 + gamma * INR n < 1 + gamma * INR m).
  { apply Rplus_lt_compat_l, Rmult_lt_compat_l; [exact Hg|]. now apply lt_INR. }
  assert (Hln : ln (1 + gamma * INR n) < ln (1 + gamma * INR m)).
  { apply ln_increasing; [|exact Hb]. pose proof (base_ge1 gamma n). lra. }
  nra.
Qed.

Lemma round32_int z : (Z.abs z <= 2 ^ 24)%Z -> round32 (IZR z) = IZR z.
Proof.
  intros H. unfold round32. apply round_generic; [apply valid_rnd_N|].
  destruct (Z.eq_dec (Z.abs z) (2 ^ 24)) as [E|E].
  - assert (Hf : generic_format radix2 (FLT_exp (-149) 24) (IZR (2 ^ 24))).
    { change (2 ^ 24)%Z with (radix2 ^ 24)%Z. rewrite (IZR_Zpower radix2 24) by lia. apply generic_format_bpow. unfold FLT_exp. cbn. lia. }
    destruct (Z.abs_eq_or_opp z) as [Ez|Ez]; rewrite E in Ez.
    + rewrite <- Ez. exact Hf.
    + assert (z = (- 2 ^ 24)%Z) by lia. subst z. rewrite opp_IZR. now apply generic_format_opp.
  - apply generic_format_FLT. exists (Float radix2 z 0); cbn.
    + unfold F2R. cbn. lra.
    + lia.
    + lia.
Qed.

Lemma scale_exact n : (Z.of_nat n <= 2 ^ 24)%Z -> scale n 1 = n.
Proof.
  intros H. unfold scale. rewrite INR_IZR_INZ, round32_int by lia. rewrite Rmult_1_r, round32_int by lia.
  rewrite Ztrunc_IZR. lia.
Qed.

(** 2^24 + 1 is not a datum. *)
Lemma scale_inexact : exists n, (Z.of_nat n = 2 ^ 24 + 1)%Z /\ (Z.of_nat (scale n 1) = 2 ^ 24)%Z.
Proof.
  exists (Z.to_nat (2 ^ 24 + 1)). rewrite Z2Nat.id by lia. split; [reflexivity|].
  unfold scale. rewrite INR_IZR_INZ, (Z2Nat.id (2 ^ 24 + 1)) by lia.
  assert (Hr : round32 (IZR (2 ^ 24 + 1)) = IZR (2 ^ 24)).
  { unfold round32, round. 
    assert (Hm : mag radix2 (IZR (2 ^ 24 + 1)) = 25%Z :> Z).
    { apply mag_unique. rewrite Rabs_pos_eq by (apply IZR_le; lia).
      rewrite <- (IZR_Zpower radix2 (25 - 1)), <- (IZR_Zpower radix2 25) by lia. cbn. split; [apply IZR_le|apply IZR_lt]; lia. }
    unfold scaled_mantissa, cexp. rewrite Hm. unfold FLT_exp.
    change (Z.max (25 - 24) (-149)) with 1%Z. unfold F2R. cbn [Fnum Fexp].
    change (bpow radix2 1) with 2. change (bpow radix2 (- (1))) with (/ 2).
    assert (Hz : ZnearestE (IZR (2 ^ 24 + 1) * / 2) = (2 ^ 23)%Z).
    { unfold ZnearestE. 
      assert (Hfl : Zfloor (IZR (2 ^ 24 + 1) * / 2) = (2 ^ 23)%Z).
      { apply Zfloor_imp. cbn. lra. }
      rewrite Hfl. rewrite Rcompare_Eq by (cbn; lra). reflexivity. }
    rewrite Hz. rewrite <- mult_IZR. reflexivity. }
  rewrite Hr, Rmult_1_r, round32_int by (cbn; lia). rewrite Ztrunc_IZR. cbn. lia.
Qed.

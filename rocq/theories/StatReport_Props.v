(** C50 (continued): the numbers the binary statistics report. *)
From Coq Require Import ZArith Bool Lia Reals Lra Floats.SpecFloat.
From Flocq Require Import Core.Core IEEE754.BinarySingleNaN.
From Verif Require Import Base BaseFacts Float32 FloatOps FloatOps_Flocq Float64_Flocq FloatNonneg Num StatLayers_Model StatLayers3_Proofs.
Local Open Scope R_scope.

(** ** Specification *)
(** [a] parts of [a] + [b]; nothing when there is no weight at all.  [rnd32] rounds to float. *)
Definition ratio (a b : R) : option R := if Rlt_dec 0 (a + b) then Some (rnd32 (a / rnd32 (a + b))) else None.
(** The harmonic mean of precision and recall. *)
Definition f1_measure (p r : option R) : option R :=
  match p, r with Some p, Some r => if Rlt_dec 0 (p + r) then Some (rnd32 (rnd32 (rnd32 (2 * p) * r) / rnd32 (p + r))) else None | _, _ => None end.
Definition accuracy (tp tn fn fp : R) : option R :=
  if Rlt_dec 0 (tp + tn + fn + fp) then Some (rnd32 (rnd32 (tp + tn) / rnd32 (rnd32 (rnd32 (tp + tn) + fn) + fp))) else None.
(** A reported number is the float with that value; otherwise nothing is reported. *)
Definition says (o : option f32) (q : option R) : Prop := match o, q with Some v, Some q => rep32 v q | None, None => True | _, _ => False end.
(** Element [t] of an array of counters. *)
Definition counter (l : list f32) (t : nat) (v : R) : Prop := exists x, nth_error l t = Some x /\ nn x v.
Definition counters_ok (st : binary f32) : Prop :=
  forall l, In l [bs_tp st; bs_fp st; bs_fn st; bs_tn st] -> length l = length (bs_thresholds st) /\ forall x, In x l -> exists v, nn x v /\ v <= bpow radix2 100.

(** ** Proofs *)
Lemma nn_double a r : nn a r -> rnd32 (2 * r) = 2 * r.
Proof.
  intros (b & _ & F & S & <-). destruct b as [s|s| |s m e H]; try discriminate; cbn in S; subst s.
  - cbn [B2R]. rewrite Rmult_0_r. apply (rnd32_int 0). lia.
  - cbn [B2R cond_Zopp]. unfold F2R. cbn [Fnum Fexp]. replace (2 * (IZR (Z.pos m) * bpow radix2 e)) with (IZR (Z.pos m) * bpow radix2 (e + 1)) by (rewrite bpow_plus; cbn; lra).
    pose proof (Float32_Flocq.bounded_cases _ _ H). apply rnd32_dyadic; lia.
Qed.
Lemma ratio_nonneg a b : 0 <= a -> 0 <= b -> ratio a b = None -> a = 0 /\ b = 0.
Proof. intros A B. unfold ratio. destruct (Rlt_dec 0 (a + b)); [discriminate|]. intros _. lra. Qed.
Lemma quotient_le a u : 0 <= a -> a <= u -> 0 < u -> 0 <= a / u <= 1.
Proof.
  intros A L U. assert (I : 0 < / u) by now apply Rinv_0_lt_compat. split; [apply Rmult_le_pos; lra|]. apply Rmult_le_reg_r with u; [exact U|]. unfold Rdiv. rewrite Rmult_assoc, Rinv_l; lra.
Qed.
Lemma one_small : 1 <= bpow radix2 127.
Proof. change 1 with (bpow radix2 0). apply bpow_le. lia. Qed.
Lemma b101 : bpow radix2 100 + bpow radix2 100 = bpow radix2 101.
Proof. change (bpow radix2 101) with (bpow radix2 (1 + 100)). rewrite bpow_plus. change (bpow radix2 1) with 2. lra. Qed.
Lemma b101_127 : bpow radix2 101 <= bpow radix2 127.
Proof. apply bpow_le. lia. Qed.

Lemma share a b u q ra rb : nn a ra -> nn u b -> ra <= b -> 0 < b -> q = ra / b -> rb = rnd32 q -> nn (fdiv a u) rb /\ rb <= 1.
Proof.
  intros A U L P -> ->. pose proof (nn_pos _ _ A) as PA. destruct (quotient_le ra b PA L P) as [Q1 Q2]. pose proof one_small. split; [apply nn_div; auto; lra|].
  change 1 with (bpow radix2 0). apply rnd32_bound; [lia|]. exact Q2.
Qed.
Lemma ratio_spec a b ra rb : nn a ra -> nn b rb -> ra <= bpow radix2 100 -> rb <= bpow radix2 100 ->
  match ratio ra rb with Some q => nn (bs_ratio a b) q /\ q <= 1 | None => bs_ratio a b = minus_one end.
Proof.
  intros A B L1 L2. pose proof (nn_pos _ _ A) as PA. pose proof (nn_pos _ _ B) as PB. pose proof b101. pose proof b101_127.
  assert (S : nn (fadd a b) (rnd32 (ra + rb))) by (apply nn_add; auto; lra). unfold bs_ratio. rewrite (nn_gt _ _ _ _ S nn_zero).
  unfold ratio. destruct (Rlt_dec 0 (ra + rb)) as [P|P].
  - assert (PS : 0 < rnd32 (ra + rb)).
    { pose proof (rnd32_ge_float a ra (ra + rb) A ltac:(lra)). pose proof (rnd32_ge_float b rb (ra + rb) B ltac:(lra)). destruct (Rlt_dec 0 ra); lra. }
    rewrite Rlt_bool_true by exact PS. eapply share; eauto. apply (rnd32_ge_float a ra); auto. lra.
  - replace (ra + rb) with 0 by lra. replace (rnd32 0) with 0 by (symmetry; apply (rnd32_int 0); lia). now rewrite Rlt_bool_false by lra.
Qed.
Lemma fnr_spec a b ra rb : nn a ra -> nn b rb -> ra <= bpow radix2 100 -> rb <= bpow radix2 100 ->
  match ratio rb ra with
  | Some q => nn (if fgt (fadd a b) f32_zero then fdiv b (fadd a b) else minus_one) q /\ q <= 1
  | None => (if fgt (fadd a b) f32_zero then fdiv b (fadd a b) else minus_one) = minus_one end.
Proof.
  intros A B L1 L2. pose proof (nn_pos _ _ A) as PA. pose proof (nn_pos _ _ B) as PB. pose proof b101. pose proof b101_127.
  assert (S : nn (fadd a b) (rnd32 (rb + ra))) by (rewrite (Rplus_comm rb); apply nn_add; auto; lra). rewrite (nn_gt _ _ _ _ S nn_zero).
  unfold ratio. destruct (Rlt_dec 0 (rb + ra)) as [P|P].
  - assert (PS : 0 < rnd32 (rb + ra)).
    { pose proof (rnd32_ge_float a ra (rb + ra) A ltac:(lra)). pose proof (rnd32_ge_float b rb (rb + ra) B ltac:(lra)). destruct (Rlt_dec 0 ra); lra. }
    rewrite Rlt_bool_true by exact PS. eapply share; eauto. apply (rnd32_ge_float b rb); auto. lra.
  - replace (rb + ra) with 0 by lra. replace (rnd32 0) with 0 by (symmetry; apply (rnd32_int 0); lia). now rewrite Rlt_bool_false by lra.
Qed.
Lemma minus_one_not_ge a : fge minus_one f32_zero = false /\ (fge minus_one f32_zero && a)%bool = false /\ (a && fge minus_one f32_zero)%bool = false.
Proof. change (fge minus_one f32_zero) with false. now rewrite andb_false_r. Qed.
Lemma f1_spec p r qp qr : match qp with Some q => nn p q /\ q <= 1 | None => p = minus_one end -> match qr with Some q => nn r q /\ q <= 1 | None => r = minus_one end ->
  match f1_measure qp qr with
  | Some q => nn (bs_f1 p r) q
  | None => bs_f1 p r = minus_one \/ (qp = Some 0 /\ qr = Some 0 /\ f32_nan (bs_f1 p r) = true)
  end.
Proof.
  intros Hp Hr. unfold bs_f1. destruct qp as [q|]; [|subst p; left; now rewrite (proj1 (proj2 (minus_one_not_ge _)))].
  destruct qr as [s|]; [|subst r; left; now rewrite (proj2 (proj2 (minus_one_not_ge _)))].
  destruct Hp as [Hp Lp], Hr as [Hr Lr]. pose proof (nn_pos _ _ Hp) as Pp. pose proof (nn_pos _ _ Hr) as Pr. rewrite (nn_ge _ _ _ _ Hp nn_zero), (nn_ge _ _ _ _ Hr nn_zero) by lra. cbn [andb].
  pose proof one_small as O. assert (O2 : 4 <= bpow radix2 127) by (change 4 with (bpow radix2 2); apply bpow_le; lia).
  assert (H2 : nn (f_of_Z 2) 2).
  { assert (E : f_of_Z 2 = bits_of_sf (S754_finite false 8388608 (-22))) by (vm_compute; reflexivity). assert (Hb : SpecFloat.bounded 24 128 8388608 (-22) = true) by reflexivity.
    exists (B754_finite false 8388608 (-22) Hb). split; [exact E|]. repeat split. cbn. unfold F2R. cbn. lra. }
  assert (X : nn (fmul (f_of_Z 2) p) (rnd32 (2 * q))) by (apply nn_mul; auto; lra). rewrite (nn_double p q Hp) in X.
  assert (Y : nn (fmul (fmul (f_of_Z 2) p) r) (rnd32 (2 * q * s))).
  { apply nn_mul; auto. assert (2 * q * s <= 2 * q * 1) by (apply Rmult_le_compat_l; lra). lra. }
  assert (S : nn (fadd p r) (rnd32 (q + s))) by (apply nn_add; auto; lra).
  unfold f1_measure. rewrite (nn_double p q Hp). destruct (Rlt_dec 0 (q + s)) as [P|P].
  - pose proof (rnd32_ge_float p q (q + s) Hp ltac:(lra)) as G1. pose proof (rnd32_ge_float r s (q + s) Hr ltac:(lra)) as G2.
    assert (PS : 0 < rnd32 (q + s)) by (destruct (Rlt_dec 0 q); lra).
    assert (N : rnd32 (2 * q * s) <= 2 * q).
    { rewrite <- (nn_double p q Hp) at 2. apply rnd32_le. assert (2 * q * s <= 2 * q * 1) by (apply Rmult_le_compat_l; lra). lra. }
    apply nn_div; auto. apply Rle_trans with 2; [|lra]. apply Rmult_le_reg_r with (rnd32 (q + s)); [exact PS|]. unfold Rdiv. rewrite Rmult_assoc, Rinv_l by lra. lra.
  - right. assert (q = 0) by lra. assert (s = 0) by lra. subst q s. split; [reflexivity|]. split; [reflexivity|].
    assert (Z0 : rnd32 0 = 0) by (apply (rnd32_int 0); lia). apply div_zero.
    + now replace (rnd32 (2 * 0 * 0)) with 0 in Y by (rewrite Rmult_0_r; auto).
    + now replace (rnd32 (0 + 0)) with 0 in S by (rewrite Rplus_0_r; auto).
Qed.
Lemma reported_nn v q : nn v q -> says (reported v) (Some q).
Proof. intros H. unfold reported. rewrite (nn_ge _ _ _ _ H nn_zero) by now apply nn_pos in H. now apply nn_rep. Qed.
Lemma reported_nan v : f32_nan v = true -> reported v = None.
Proof. intros H. unfold reported, fge, fgt, feq. now rewrite H. Qed.
Lemma reported_ratio v o : match o with Some q => nn v q /\ q <= 1 | None => v = minus_one end -> says (reported v) o.
Proof. destruct o as [q|]; [intros [H _]; now apply reported_nn|intros ->; exact I]. Qed.
Lemma accuracy_spec tp tn fn fp a b c d : nn tp a -> nn tn b -> nn fn c -> nn fp d -> a <= bpow radix2 100 -> b <= bpow radix2 100 -> c <= bpow radix2 100 -> d <= bpow radix2 100 ->
  says (reported (fdiv (fadd tp tn) (fadd (fadd (fadd tp tn) fn) fp))) (accuracy a b c d).
Proof.
  intros A B C D L1 L2 L3 L4. pose proof (nn_pos _ _ A) as P1. pose proof (nn_pos _ _ B) as P2. pose proof (nn_pos _ _ C) as P3. pose proof (nn_pos _ _ D) as P4.
  pose proof b101 as E1. assert (E2 : bpow radix2 101 + bpow radix2 101 = bpow radix2 102) by (change (bpow radix2 102) with (bpow radix2 (1 + 101)); rewrite bpow_plus; change (bpow radix2 1) with 2; lra).
  assert (E3 : bpow radix2 102 + bpow radix2 102 = bpow radix2 103) by (change (bpow radix2 103) with (bpow radix2 (1 + 102)); rewrite bpow_plus; change (bpow radix2 1) with 2; lra).
  pose proof (bpow_gt_0 radix2 100). assert (E4 : bpow radix2 103 <= bpow radix2 127) by (apply bpow_le; lia).
  assert (S1 : nn (fadd tp tn) (rnd32 (a + b))) by (apply nn_add; auto; lra). pose proof (nn_pos _ _ S1) as Q1.
  assert (B1 : rnd32 (a + b) <= bpow radix2 101) by (apply rnd32_bound; [lia|lra]).
  assert (S2 : nn (fadd (fadd tp tn) fn) (rnd32 (rnd32 (a + b) + c))) by (apply nn_add; auto; lra). pose proof (nn_pos _ _ S2) as Q2.
  assert (B2 : rnd32 (rnd32 (a + b) + c) <= bpow radix2 102) by (apply rnd32_bound; [lia|lra]).
  assert (S3 : nn (fadd (fadd (fadd tp tn) fn) fp) (rnd32 (rnd32 (rnd32 (a + b) + c) + d))) by (apply nn_add; auto; lra).
  pose proof (rnd32_ge_float _ _ (a + b) A ltac:(lra)) as G1. pose proof (rnd32_ge_float _ _ (a + b) B ltac:(lra)) as G2.
  pose proof (rnd32_ge_float _ _ (rnd32 (a + b) + c) S1 ltac:(lra)) as G3. pose proof (rnd32_ge_float _ _ (rnd32 (a + b) + c) C ltac:(lra)) as G4.
  pose proof (rnd32_ge_float _ _ (rnd32 (rnd32 (a + b) + c) + d) S2 ltac:(lra)) as G5. pose proof (rnd32_ge_float _ _ (rnd32 (rnd32 (a + b) + c) + d) D ltac:(lra)) as G6.
  unfold accuracy. destruct (Rlt_dec 0 (a + b + c + d)) as [P|P].
  - apply reported_nn. eapply share; eauto; [lra|]. destruct (Rlt_dec 0 a); [lra|]. destruct (Rlt_dec 0 b); [lra|]. destruct (Rlt_dec 0 c); lra.
  - assert (a = 0) by lra. assert (b = 0) by lra. assert (c = 0) by lra. assert (d = 0) by lra. subst a b c d. assert (Z0 : rnd32 0 = 0) by (apply (rnd32_int 0); lia).
    repeat rewrite ?Rplus_0_r, ?Z0 in S1. repeat rewrite ?Rplus_0_r, ?Z0 in S3. rewrite reported_nan; [exact I|]. now apply div_zero.
Qed.

(** What is reported, at the first threshold with the best F1 measure.  Counters up to 2^100 do not overflow. *)
Theorem C50_report st r : counters_ok st -> bs_update_all st = Ok r ->
  exists t tp fp fn tn, counter (bs_tp st) t tp /\ counter (bs_fp st) t fp /\ counter (bs_fn st) t fn /\ counter (bs_tn st) t tn /\
    says (st_precision r) (ratio tp fp) /\ says (st_recall r) (ratio tp fn) /\ says (st_fpr r) (ratio fp tn) /\ says (st_fnr r) (ratio fn tp) /\
    says (st_acc r) (accuracy tp tn fn fp) /\ says (st_f1 r) (f1_measure (ratio tp fp) (ratio tp fn)) /\
    (forall t' tp' fp' fn' v', counter (bs_tp st) t' tp' -> counter (bs_fp st) t' fp' -> counter (bs_fn st) t' fn' -> f1_measure (ratio tp' fp') (ratio tp' fn') = Some v' ->
       exists v, f1_measure (ratio tp fp) (ratio tp fn) = Some v /\ v' <= v /\ ((t' < t)%nat -> v' < v)).
Proof.
  intros Ok_ E. set (val := fun t => bs_f1 (bs_ratio (nth t (bs_tp st) f32_zero) (nth t (bs_fp st) f32_zero)) (bs_ratio (nth t (bs_tp st) f32_zero) (nth t (bs_fn st) f32_zero))).
  destruct (Ok_ (bs_tp st)) as [Ltp Gtp]; [cbn; auto|]. destruct (Ok_ (bs_fp st)) as [Lfp Gfp]; [cbn; auto|]. destruct (Ok_ (bs_fn st)) as [Lfn Gfn]; [cbn; auto|]. destruct (Ok_ (bs_tn st)) as [Ltn Gtn]; [cbn; auto|].
  assert (Hv : forall t tp fp fn, nth_error (bs_tp st) t = Some tp -> nth_error (bs_fp st) t = Some fp -> nth_error (bs_fn st) t = Some fn -> val t = bs_f1 (bs_ratio tp fp) (bs_ratio tp fn)).
  { intros t tp fp fn A B C. unfold val. now rewrite (nth_error_nth _ _ _ A), (nth_error_nth _ _ _ B), (nth_error_nth _ _ _ C). }
  destruct (choose_spec st val Ltp Lfp Lfn Hv) as (fmax & o & Ec & Ho). unfold bs_update_all in E. rewrite Ec in E. cbn [bind snd] in E. destruct o as [t|]; [|discriminate].
  destruct Ho as (Lt & Hg2 & Hmax & Hfirst).
  destruct (nth_error_lt (bs_tp st) (a := t)) as [tp Etp]; [congruence|]. destruct (nth_error_lt (bs_fp st) (a := t)) as [fp Efp]; [congruence|].
  destruct (nth_error_lt (bs_fn st) (a := t)) as [fn Efn]; [congruence|]. destruct (nth_error_lt (bs_tn st) (a := t)) as [tn Etn]; [congruence|].
  unfold load in E. rewrite Etp, Efp, Efn, Etn in E. cbn [bind] in E. injection E as <-. cbn [st_precision st_recall st_fpr st_fnr st_acc st_f1].
  destruct (Gtp tp) as (a & A & LA); [eapply nth_error_In; eauto|]. destruct (Gfp fp) as (b & B & LB); [eapply nth_error_In; eauto|].
  destruct (Gfn fn) as (c & C & LC); [eapply nth_error_In; eauto|]. destruct (Gtn tn) as (d & D & LD); [eapply nth_error_In; eauto|].
  exists t, a, b, c, d. split; [eexists; eauto|]. split; [eexists; eauto|]. split; [eexists; eauto|]. split; [eexists; eauto|].
  pose proof (ratio_spec _ _ _ _ A B LA LB) as Rp. pose proof (ratio_spec _ _ _ _ A C LA LC) as Rr. pose proof (f1_spec _ _ _ _ Rp Rr) as Rf.
  split; [now apply reported_ratio|]. split; [now apply reported_ratio|]. split; [apply reported_ratio; now apply ratio_spec|]. split; [apply reported_ratio; now apply fnr_spec|].
  split; [now apply accuracy_spec|]. split.
  - destruct (f1_measure (ratio a b) (ratio a c)) as [q|]; [now apply reported_nn|]. destruct Rf as [->|(_ & _ & Nf)]; [exact I|]. now rewrite reported_nan.
  - intros t' tp' fp' fn' v' (x & Ex & X) (y & Ey & Y) (z & Ez & Z) F.
    assert (Bd : tp' <= bpow radix2 100 /\ fp' <= bpow radix2 100 /\ fn' <= bpow radix2 100).
    { destruct (Gtp x) as (? & N1 & ?); [eapply nth_error_In; eauto|]. destruct (Gfp y) as (? & N2 & ?); [eapply nth_error_In; eauto|]. destruct (Gfn z) as (? & N3 & ?); [eapply nth_error_In; eauto|].
      rewrite (nn_unique _ _ _ X N1), (nn_unique _ _ _ Y N2), (nn_unique _ _ _ Z N3). auto. }
    destruct Bd as (B1 & B2 & B3). pose proof (f1_spec _ _ _ _ (ratio_spec _ _ _ _ X Y B1 B2) (ratio_spec _ _ _ _ X Z B1 B3)) as Rf'. rewrite F in Rf'. rewrite <- (Hv t' x y z Ex Ey Ez) in Rf'.
    assert (Lt' : (t' < length (bs_thresholds st))%nat) by (rewrite <- Ltp; apply nth_error_Some; congruence).
    specialize (Hmax t' Lt'). rewrite <- (Hv t tp fp fn Etp Efp Efn) in Rf.
    destruct (f1_measure (ratio a b) (ratio a c)) as [v|].
    + exists v. split; [reflexivity|]. rewrite (nn_gt _ _ _ _ Rf' Rf) in Hmax. split; [destruct (Rlt_bool_spec v v'); [discriminate|lra]|].
      intros L. specialize (Hfirst t' L). destruct (Rlt_dec v' v) as [G|G]; [exact G|]. rewrite (nn_ge _ _ _ _ Rf' Rf) in Hfirst by lra. discriminate.
    + exfalso. destruct Rf as [Rf|(_ & _ & Nf)].
      * rewrite Rf in Hmax. destruct (key_nonneg _ (nn_range _ _ Rf')) as [Kv Nv]. unfold fgt in Hmax. rewrite Kv, Nv in Hmax. cbn [negb andb] in Hmax. change (f32_nan minus_one) with false in Hmax. cbn [negb andb] in Hmax.
        apply Z.ltb_ge in Hmax. change (f32_key minus_one) with (-1065353216)%Z in Hmax. apply nn_range in Rf'. unfold f32_nonneg in Rf'. lia.
      * unfold fgt in Hg2. rewrite Nf in Hg2. discriminate.
Qed.

(** Nothing can be reported when neither precision nor recall of any threshold is above 0 although both are defined (line 130 then reads
    with the index -1); in all other cases there is a report. *)
Theorem C50_report_exists st : counters_ok st ->
  (exists r, bs_update_all st = Ok r) \/
  (bs_update_all st = UB /\ forall t tp fp fn, counter (bs_tp st) t tp -> counter (bs_fp st) t fp -> counter (bs_fn st) t fn -> ratio tp fp = Some 0 /\ ratio tp fn = Some 0).
Proof.
  intros Ok_. set (val := fun t => bs_f1 (bs_ratio (nth t (bs_tp st) f32_zero) (nth t (bs_fp st) f32_zero)) (bs_ratio (nth t (bs_tp st) f32_zero) (nth t (bs_fn st) f32_zero))).
  destruct (Ok_ (bs_tp st)) as [Ltp Gtp]; [cbn; auto|]. destruct (Ok_ (bs_fp st)) as [Lfp Gfp]; [cbn; auto|]. destruct (Ok_ (bs_fn st)) as [Lfn Gfn]; [cbn; auto|]. destruct (Ok_ (bs_tn st)) as [Ltn Gtn]; [cbn; auto|].
  assert (Hv : forall t tp fp fn, nth_error (bs_tp st) t = Some tp -> nth_error (bs_fp st) t = Some fp -> nth_error (bs_fn st) t = Some fn -> val t = bs_f1 (bs_ratio tp fp) (bs_ratio tp fn)).
  { intros t tp fp fn A B C. unfold val. now rewrite (nth_error_nth _ _ _ A), (nth_error_nth _ _ _ B), (nth_error_nth _ _ _ C). }
  destruct (choose_spec st val Ltp Lfp Lfn Hv) as (fmax & o & Ec & Ho). unfold bs_update_all. rewrite Ec. cbn [bind snd]. destruct o as [t|].
  - left. destruct Ho as (Lt & _). destruct (nth_error_lt (bs_tp st) (a := t)) as [tp Etp]; [congruence|]. destruct (nth_error_lt (bs_fp st) (a := t)) as [fp Efp]; [congruence|].
    destruct (nth_error_lt (bs_fn st) (a := t)) as [fn Efn]; [congruence|]. destruct (nth_error_lt (bs_tn st) (a := t)) as [tn Etn]; [congruence|].
    unfold load. rewrite Etp, Efp, Efn, Etn. cbn [bind]. eauto.
  - right. split; [reflexivity|]. intros t tp fp fn (x & Ex & X) (y & Ey & Y) (z & Ez & Z).
    assert (Bd : tp <= bpow radix2 100 /\ fp <= bpow radix2 100 /\ fn <= bpow radix2 100).
    { destruct (Gtp x) as (? & N1 & ?); [eapply nth_error_In; eauto|]. destruct (Gfp y) as (? & N2 & ?); [eapply nth_error_In; eauto|]. destruct (Gfn z) as (? & N3 & ?); [eapply nth_error_In; eauto|].
      rewrite (nn_unique _ _ _ X N1), (nn_unique _ _ _ Y N2), (nn_unique _ _ _ Z N3). auto. }
    destruct Bd as (B1 & B2 & B3). pose proof (f1_spec _ _ _ _ (ratio_spec _ _ _ _ X Y B1 B2) (ratio_spec _ _ _ _ X Z B1 B3)) as Rf. rewrite <- (Hv t x y z Ex Ey Ez) in Rf.
    assert (Lt' : (t < length (bs_thresholds st))%nat) by (rewrite <- Ltp; apply nth_error_Some; congruence). specialize (Ho t Lt').
    destruct (f1_measure (ratio tp fp) (ratio tp fn)) as [v|].
    + exfalso. destruct (key_nonneg _ (nn_range _ _ Rf)) as [Kv Nv]. unfold fgt in Ho. rewrite Kv, Nv in Ho. change (f32_nan minus_two) with false in Ho. cbn [negb andb] in Ho. apply Z.ltb_ge in Ho.
      change (f32_key minus_two) with (-1073741824)%Z in Ho. apply nn_range in Rf. unfold f32_nonneg in Rf. lia.
    + destruct Rf as [Rf|(A & B & _)]; [|now split]. exfalso. rewrite Rf in Ho. vm_compute in Ho. discriminate.
Qed.

(** The thresholds: one in the middle, or evenly spaced from the lower bound to the upper bound. *)
Theorem C50_thresholds n lo hi a b : rep32 lo a -> rep32 hi b -> Rabs a <= bpow radix2 100 -> Rabs b <= bpow radix2 100 -> (0 < n)%nat -> (Z.of_nat n < 2 ^ 24)%Z ->
  length (bs_threshold_values n lo hi) = n /\
  (n = 1%nat -> exists v, bs_threshold_values n lo hi = [v] /\ rep32 v (rnd32 (rnd32 (a + b) / 2))) /\
  ((1 < n)%nat -> forall t, (t < n)%nat -> exists v, nth_error (bs_threshold_values n lo hi) t = Some v /\
     rep32 v (rnd32 (a + rnd32 (rnd32 (rnd32 (b - a) / INR (n - 1)) * INR t)))).
Proof.
  intros A B LA LB Hn Hz. pose proof b101 as E1. assert (X : Rabs (a + b) <= bpow radix2 101) by (eapply Rle_trans; [apply Rabs_triang|lra]).
  assert (X' : Rabs (b - a) <= bpow radix2 101) by (unfold Rminus; eapply Rle_trans; [apply Rabs_triang|rewrite Rabs_Ropp; lra]).
  pose proof b101_127 as E2. unfold bs_threshold_values. destruct (Nat.eqb_spec n 1) as [->|N1].
  - split; [reflexivity|]. split; [|lia]. intros _. eexists. split; [reflexivity|].
    apply (rep32_div _ _ _ 2); [apply rep32_add; auto; lra|apply (rep32_int 2); lia|lra|]. pose proof (rnd32_abs _ 101 ltac:(lia) X) as Y.
    unfold Rdiv. rewrite Rabs_mult, (Rabs_right (/ 2)) by lra. pose proof (Rabs_pos (rnd32 (a + b))). lra.
  - split; [now rewrite map_length, seq_length|]. split; [lia|]. intros H1 t Ht. rewrite nth_error_map, (nth_error_nth' _ 0%nat) by (rewrite seq_length; exact Ht). rewrite seq_nth by exact Ht. cbn [option_map Nat.add].
    eexists. split; [reflexivity|]. assert (I1 : 1 <= INR (n - 1)) by (change 1 with (INR 1); apply le_INR; lia).
    assert (R1 : rep32 (fsub hi lo) (rnd32 (b - a))) by (apply rep32_sub; auto; lra). pose proof (rnd32_abs _ 101 ltac:(lia) X') as Y.
    assert (Q : Rabs (rnd32 (b - a) / INR (n - 1)) <= bpow radix2 101).
    { unfold Rdiv. rewrite Rabs_mult, (Rabs_right (/ INR (n - 1))) by (apply Rle_ge, Rlt_le, Rinv_0_lt_compat; lra).
      rewrite <- (Rmult_1_r (bpow radix2 101)). apply Rmult_le_compat; [apply Rabs_pos|apply Rlt_le, Rinv_0_lt_compat; lra|exact Y|]. rewrite <- Rinv_1. apply Rinv_le_contravar; lra. }
    assert (R2 : rep32 (fdiv (fsub hi lo) (f_of_Z (Z.of_nat (n - 1)))) (rnd32 (rnd32 (b - a) / INR (n - 1)))).
    { apply rep32_div; auto; [rewrite INR_IZR_INZ; apply rep32_int; lia|lra|lra]. }
    pose proof (rnd32_abs _ 101 ltac:(lia) Q) as Q'.
    assert (I2 : Rabs (INR t) <= bpow radix2 24).
    { rewrite Rabs_right by (apply Rle_ge, pos_INR). rewrite INR_IZR_INZ. change (bpow radix2 24) with (IZR (2 ^ 24)). apply IZR_le. lia. }
    assert (M : Rabs (rnd32 (rnd32 (b - a) / INR (n - 1)) * INR t) <= bpow radix2 125).
    { rewrite Rabs_mult. change 125%Z with (101 + 24)%Z. rewrite bpow_plus. apply Rmult_le_compat; auto using Rabs_pos. }
    assert (E3 : bpow radix2 125 + bpow radix2 125 <= bpow radix2 127).
    { replace (bpow radix2 127) with (bpow radix2 2 * bpow radix2 125) by (rewrite <- bpow_plus; reflexivity). change (bpow radix2 2) with 4. pose proof (bpow_gt_0 radix2 125). lra. }
    assert (R3 : rep32 (fmul (fdiv (fsub hi lo) (f_of_Z (Z.of_nat (n - 1)))) (f_of_Z (Z.of_nat t))) (rnd32 (rnd32 (rnd32 (b - a) / INR (n - 1)) * INR t))).
    { pose proof (bpow_gt_0 radix2 125). apply rep32_mul'; auto; [rewrite (INR_IZR_INZ t); apply rep32_int; lia|lra]. }
    apply rep32_add; auto. pose proof (rnd32_abs _ 125 ltac:(lia) M) as M'. assert (bpow radix2 100 <= bpow radix2 125) by (apply bpow_le; lia).
    eapply Rle_trans; [apply Rabs_triang|]. lra.
Qed.

(** Three thresholds with counters 3 1 0 / 1 2 1 ... *)
Definition report_ex : binary f32 := mkBin [f_of_Z 0; f_of_Z 1] [f_of_Z 3; f_of_Z 1] [f_of_Z 2; f_of_Z 4] [f_of_Z 2; f_of_Z 0] [f_of_Z 1; f_of_Z 3] false.
Example report_ex_ok : counters_ok report_ex /\ exists r, bs_update_all report_ex = Ok r /\ st_precision r = Some 1058642330%Z.
Proof.
  split; [|vm_compute; eexists; split; reflexivity].
  assert (H : forall n, (0 < n < 100)%Z -> exists v, nn (f_of_Z n) v /\ v <= bpow radix2 100).
  { intros n Hn. pose proof (rep32_int n ltac:(lia)) as R. assert (P : 0 < IZR n) by (apply IZR_lt; lia). exists (IZR n). destruct R as (b & E & F & V). split.
    - exists b. repeat split; auto. destruct b as [s|s| |s m e Hb]; try discriminate; [cbn in V; lra|]. destruct s; [|reflexivity]. exfalso. cbn [B2R cond_Zopp] in V.
      assert (F2R (Float radix2 (Z.neg m) e) < 0) by now apply F2R_lt_0. cbn [Z.opp] in V. change (- Z.pos m)%Z with (Z.neg m) in V. lra.
    - apply Rle_trans with (bpow radix2 7); [|apply bpow_le; lia]. change (bpow radix2 7) with (IZR 128). apply IZR_le. lia. }
  assert (H0 : exists v, nn (f_of_Z 0) v /\ v <= bpow radix2 100) by (exists 0; split; [exact nn_zero|apply bpow_ge_0]).
  intros l [<-|[<-|[<-|[<-|[]]]]]; (split; [reflexivity|]); intros x [<-|[<-|[]]]; try exact H0; apply H; lia.
Qed.

Print Assumptions C50_report.
Print Assumptions C50_report_exists.
Print Assumptions C50_thresholds.

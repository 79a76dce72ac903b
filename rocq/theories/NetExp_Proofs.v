(** Lemmas for C86: the logistic function and the hyperbolic tangent. *)
From Coq Require Import ZArith Bool Lia Reals Lra Floats.SpecFloat.
From Flocq Require Import Core.Core IEEE754.BinarySingleNaN.
From Verif Require Import Base BaseFacts Float32 FloatOps Num RealNum Act_Model Act_Spec Act_Proofs FloatOps_Flocq Float64_Flocq FloatNonneg Rounding_Spec Rounding_Proofs NetError_Proofs.
Local Open Scope R_scope.
#[local] Existing Instance Hprec.
#[local] Existing Instance Hmax.

Lemma rep32_neg a v : rep32 a v -> rep32 (fneg a) (- v).
Proof.
  intros (b & -> & F & <-). exists (Bopp b). unfold fneg. rewrite sf_bits. split; [|split; [now rewrite is_finite_Bopp|apply B2R_Bopp]]. now destruct b.
Qed.
Lemma rep32_double a v : rep32 a v -> Rabs (2 * v) <= bpow radix2 127 -> rep32 (fmul (f_of_Z 2) a) (2 * v).
Proof.
  intros H L. assert (E : rnd32 (2 * v) = 2 * v).
  { destruct H as (b & _ & F & <-). destruct b as [s|s| |s m e Hb]; try discriminate; [cbn [B2R]; rewrite Rmult_0_r; apply (rnd32_int 0); lia|].
    cbn [B2R]. unfold F2R. cbn [Fnum Fexp]. replace (2 * (IZR (cond_Zopp s (Z.pos m)) * bpow radix2 e)) with (IZR (cond_Zopp s (Z.pos m)) * bpow radix2 (1 + e)) by (rewrite bpow_plus; change (bpow radix2 1) with 2; ring).
    pose proof (Float32_Flocq.bounded_cases _ _ Hb). apply rnd32_dyadic; [destruct s; cbn [cond_Zopp]; lia|lia]. }
  rewrite <- E. apply rep32_mul'; [|exact H|exact L]. apply (rep32_int 2). lia.
Qed.

Lemma ratio_close i n : (i < n)%nat -> (Z.of_nat n < 2 ^ 24)%Z -> close 1 (/ IZR (2 ^ 23)) (fdiv (f_of_Z (Z.of_nat i)) (f_of_Z (Z.of_nat n))) (INR i / INR n).
Proof.
  intros H L. assert (Pn : 0 < INR n) by (apply lt_0_INR; lia). pose proof (pos_INR i) as Pi. assert (Hi : INR i <= INR n) by (apply le_INR; lia).
  assert (Q : 0 <= INR i / INR n <= 1). { split; [apply Rmult_le_pos; [exact Pi|left; now apply Rinv_0_lt_compat]|]. apply Rmult_le_reg_r with (INR n); [exact Pn|]. unfold Rdiv. rewrite Rmult_assoc, Rinv_l by lra. lra. }
  exists (rnd32 (INR i / INR n)). split; [|split; [|rewrite Rabs_right; lra]].
  - apply rep32_div; [rewrite INR_IZR_INZ; apply rep32_int; lia|rewrite INR_IZR_INZ; apply rep32_int; lia|lra|]. rewrite Rabs_right by lra. apply Rle_trans with 1; [lra|]. apply Rle_trans with (bpow radix2 0); [apply Rle_refl|apply bpow_le; lia].
  - eapply Rle_trans; [apply round_error|]. rewrite Rabs_right by lra. pose proof u24_pos. assert (eta <= u24) by (apply bpow_le; lia).
    assert (u24 * (INR i / INR n) <= u24 * 1) by (apply Rmult_le_compat_l; lra). replace (/ IZR (2 ^ 23)) with (2 * u24); [lra|]. rewrite u24_value. replace (2 ^ 24)%Z with (2 * 2 ^ 23)%Z by reflexivity. rewrite mult_IZR. field. apply not_0_IZR. discriminate.
Qed.

(** The quotient k / (1 + exp x) for an [e] close to exp x. *)
Lemma quotient_error (k : R) fk fs e t delta : 0 <= delta <= / 1024 -> 1 <= k <= 2 -> rep32 fk k -> 0 < t -> t <= bpow radix2 124 ->
  Rabs (e - t) <= delta * t -> rep32 fs (rnd32 (1 + e)) ->
  exists q, rep32 (fdiv fk fs) q /\ Rabs (q - k / (1 + t)) <= k * (2 * delta + 7 * u24) /\ 0 <= q <= 2.
Proof.
  intros Hd Hk Rk Ht Lt He Rs. pose proof u24_pos as U. pose proof u24_small as U1. pose proof eta_pos as T.
  assert (Te : eta <= u24 / 1048576). { unfold eta, u24. change (-24)%Z with (126 + -150)%Z. rewrite bpow_plus. assert (1048576 <= bpow radix2 126) by (apply Rle_trans with (bpow radix2 20); [apply Rle_refl|apply bpow_le; lia]). pose proof (bpow_gt_0 radix2 (-150)). nra. }
  set (s := rnd32 (1 + e)) in *. pose proof (round_error (1 + e)) as Re. fold s in Re.
  assert (Ee : 0 < e) by (assert (delta * t <= / 1024 * t) by (apply Rmult_le_compat_r; lra); revert He; unfold Rabs; destruct Rcase_abs; intros; lra).
  rewrite (Rabs_right (1 + e)) in Re by lra.
  set (w := 1 + t) in *. assert (Hw : 1 < w) by (unfold w; lra).
  assert (Hdt : delta * t <= delta * w) by (apply Rmult_le_compat_l; unfold w; lra).
  assert (E1 : e <= t + delta * t) by (revert He; unfold Rabs; destruct Rcase_abs; intros; lra).
  assert (Hue : u24 * (1 + e) <= u24 * (w * (1 + delta))) by (apply Rmult_le_compat_l; [lra|]; unfold w in *; lra).
  set (kap := delta + 2 * u24). assert (Hk2 : 0 <= kap <= / 512) by (unfold kap; lra).
  assert (Hs : Rabs (s - w) <= kap * w).
  { replace (s - w) with ((s - (1 + e)) + (e - t)) by (unfold w; ring). pose proof (Rabs_triang (s - (1 + e)) (e - t)).
    assert (u24 * (w * (1 + delta)) <= u24 * w + u24 / 1024 * w). { replace (u24 * (w * (1 + delta))) with (u24 * w + u24 * delta * w) by ring. apply Rplus_le_compat_l. apply Rmult_le_compat_r; [lra|]. unfold Rdiv. apply Rmult_le_compat_l; lra. }
    assert (eta <= u24 / 1048576 * w) by (apply Rle_trans with (u24 / 1048576 * 1); [lra|apply Rmult_le_compat_l; lra]). unfold kap.
    replace ((delta + 2 * u24) * w) with (delta * w + u24 * w + u24 * w) by ring. assert (0 < u24 * w) by (apply Rmult_lt_0_compat; lra). lra. }
  assert (kw : kap * w <= / 512 * w) by (apply Rmult_le_compat_r; lra).
  assert (Sl : w / 2 <= s <= 2 * w) by (revert Hs; unfold Rabs; destruct Rcase_abs; intros; lra).
  assert (Ps : 0 < s) by lra. assert (Iw : 0 < / w) by (apply Rinv_0_lt_compat; lra). assert (Is : 0 < / s) by now apply Rinv_0_lt_compat.
  assert (Iw1 : / w <= 1) by (rewrite <- Rinv_1; apply Rinv_le_contravar; lra).
  assert (Ed : Rabs (/ s - / w) <= 2 * kap * 1).
  { replace (/ s - / w) with (- ((s - w) * / s * / w)) by (field; lra). rewrite Rabs_Ropp, !Rabs_mult, (Rabs_right (/ s)), (Rabs_right (/ w)) by lra.
    assert (Is2 : / s <= 2 * / w). { replace (2 * / w) with (/ (w / 2)) by (field; lra). apply Rinv_le_contravar; lra. }
    apply Rle_trans with (kap * w * (2 * / w) * / w).
    - apply Rmult_le_compat_r; [lra|]. apply Rmult_le_compat; [apply Rabs_pos|lra|exact Hs|exact Is2].
    - replace (kap * w * (2 * / w) * / w) with (2 * kap * / w) by (field; lra). apply Rmult_le_compat_l; lra. }
  assert (Si1 : / s <= 2). { apply Rle_trans with (/ (w / 2)); [apply Rinv_le_contravar; lra|]. replace (/ (w / 2)) with (2 * / w) by (field; lra). lra. }
  assert (Si2 : / s <= 1 + 2 * kap) by (revert Ed; unfold Rabs; destruct Rcase_abs; intros; lra).
  assert (Kq : 0 <= k / s <= 2 * (1 + 2 * kap)). { unfold Rdiv. split; [apply Rmult_le_pos; lra|]. apply Rmult_le_compat; lra. }
  exists (rnd32 (k / s)). split; [|split].
  - apply rep32_div; [exact Rk|exact Rs|lra|]. rewrite Rabs_right by lra. apply Rle_trans with 4; [lra|]. change 4 with (bpow radix2 2). apply bpow_le. lia.
  - pose proof (round_error (k / s)) as Rq. rewrite (Rabs_right (k / s)) in Rq by lra.
    replace (rnd32 (k / s) - k / w) with ((rnd32 (k / s) - k / s) + k * (/ s - / w)) by (unfold Rdiv; ring). pose proof (Rabs_triang (rnd32 (k / s) - k / s) (k * (/ s - / w))) as Tr.
    rewrite (Rabs_mult k), (Rabs_right k) in Tr by lra. assert (k * Rabs (/ s - / w) <= k * (2 * kap * 1)) by (apply Rmult_le_compat_l; lra).
    assert (u24 * (k / s) <= k * (2 * u24)). { unfold Rdiv. replace (k * (2 * u24)) with (u24 * (k * 2)) by ring. apply Rmult_le_compat_l; [lra|]. apply Rmult_le_compat_l; lra. }
    assert (eta <= k * u24) by (apply Rle_trans with (1 * u24); [lra|apply Rmult_le_compat_r; lra]).
    replace (k * (2 * delta + 7 * u24)) with (k * (2 * kap * 1) + k * (2 * u24) + k * u24) by (unfold kap; ring). lra.
  - split; [apply rnd32_nonneg; lra|].
    assert (L1 : k / s <= 2 * (/ s)) by (unfold Rdiv; apply Rmult_le_compat_r; lra).
    assert (S1 : 1 <= s). { unfold s. replace 1 with (rnd32 1) at 1 by (apply (rnd32_int 1); lia). apply rnd32_le. lra. }
    assert (/ s <= 1) by (rewrite <- Rinv_1; apply Rinv_le_contravar; lra).
    change 2 with (bpow radix2 1) at 1. apply (rnd32_bound (k / s) 1); [lia|]. change (bpow radix2 1) with 2. lra.
Qed.

Lemma exp_64 : exp 64 <= bpow radix2 124.
Proof.
  assert (E : forall n : nat, exp (INR n) <= 3 ^ n).
  { induction n as [|n IH]; [cbn [INR pow]; rewrite exp_0; lra|]. rewrite S_INR, exp_plus. cbn [pow]. rewrite Rmult_comm. pose proof exp_le_3. pose proof (exp_pos 1). pose proof (exp_pos (INR n)). apply Rmult_le_compat; lra. }
  replace 64 with (INR 64) by (rewrite INR_IZR_INZ; reflexivity). eapply Rle_trans; [apply E|]. rewrite pow_IZR. change (bpow radix2 124) with (IZR (2 ^ 124)). apply IZR_le. vm_compute. discriminate.
Qed.
Lemma exp_bound v : v <= 64 -> exp v <= bpow radix2 124.
Proof. intros H. eapply Rle_trans; [|exact exp_64]. destruct (Req_dec v 64) as [->|N]; [lra|]. left. apply exp_increasing. lra. Qed.

(** The two functions do not enlarge differences. *)
Lemma lipschitz (f df : R -> R) k : (forall x, derivable_pt_lim f x (df x)) -> (forall x, Rabs (df x) <= k) -> forall x y, Rabs (f x - f y) <= k * Rabs (x - y).
Proof.
  intros D B x y. destruct (Rtotal_order x y) as [L|[->|L]].
  - destruct (MVT_cor2 f df x y L ltac:(intros; apply D)) as (c & E & _). replace (f x - f y) with (- (df c * (y - x))) by lra. rewrite Rabs_Ropp, Rabs_mult, (Rabs_minus_sym x y). apply Rmult_le_compat_r; [apply Rabs_pos|apply B].
  - rewrite !Rminus_diag_eq, Rabs_R0 by reflexivity. lra.
  - destruct (MVT_cor2 f df y x L ltac:(intros; apply D)) as (c & E & _). rewrite E, Rabs_mult. apply Rmult_le_compat_r; [apply Rabs_pos|apply B].
Qed.
Lemma logistic_lipschitz x y : Rabs (logistic x - logistic y) <= / 4 * Rabs (x - y).
Proof.
  apply (lipschitz logistic (fun x => logistic x * (1 - logistic x))); [apply logistic_derivative|]. intros v. pose proof (logistic_range v). rewrite Rabs_right by (apply Rle_ge, Rmult_le_pos; lra).
  pose proof (pow2_ge_0 (logistic v - / 2)). lra.
Qed.
Lemma tanh_lipschitz x y : Rabs (tanh x - tanh y) <= 1 * Rabs (x - y).
Proof.
  apply (lipschitz tanh (fun x => 1 - tanh x * tanh x)); [apply tanh_derivative|]. intros v. pose proof (tanh_range v) as [A B].
  assert (0 <= tanh v * tanh v <= 1). { split; [apply Rle_0_sqr|]. rewrite <- (Rmult_1_r 1). rewrite <- (Rabs_right (tanh v * tanh v)) by (apply Rle_ge, Rle_0_sqr). rewrite Rabs_mult. assert (Rabs (tanh v) <= 1) by (apply Rabs_le; lra). pose proof (Rabs_pos (tanh v)). apply Rmult_le_compat; lra. }
  rewrite Rabs_right; lra.
Qed.

Section Exp.
Variables (nexp : f32 -> f32) (range delta : R).
Hypotheses (Hexp : accurate_exp nexp range delta) (Hrange : range <= 64) (Hdelta : 0 <= delta <= / 1024).

Lemma exp_sum a v : rep32 a v -> Rabs v <= range -> exists e, rep32 (nexp a) e /\ Rabs (e - exp v) <= delta * exp v /\ 0 < exp v /\ exp v <= bpow radix2 124 /\
  rep32 (fadd f32_one (nexp a)) (rnd32 (1 + e)) /\ rep32 (fadd (nexp a) f32_one) (rnd32 (1 + e)).
Proof using Hexp Hrange Hdelta.
  intros V L. destruct (Hexp a v V L) as (e & Ve & Ee). exists e. split; [exact Ve|]. split; [exact Ee|]. pose proof (exp_pos v) as P. split; [exact P|].
  assert (v <= 64) by (pose proof (Rle_abs v); lra). pose proof (exp_bound v H) as Eb. split; [exact Eb|].
  assert (delta * exp v <= / 1024 * exp v) by (apply Rmult_le_compat_r; lra). pose proof big_number. pose proof big_one.
  assert (B : Rabs (1 + e) <= bpow radix2 127) by (revert Ee; unfold Rabs; repeat destruct Rcase_abs; lra).
  split; [apply rep32_add; [exact rep32_one|exact Ve|exact B]|]. rewrite Rplus_comm. apply rep32_add; [exact Ve|exact rep32_one|]. now rewrite Rplus_comm.
Qed.

Lemma sigmoid_close most error a r : close most error a r -> most + error <= range ->
  close 1 (error / 4 + 2 * delta + 7 / IZR (2 ^ 24)) (sigmoid f32_num fdiv nexp a) (sigmoid R_num Rdiv exp r).
Proof using Hexp Hrange Hdelta.
  intros (v & V & A & B) L. pose proof (abs_diff v r) as Av.
  destruct (exp_sum (fneg a) (- v) (rep32_neg _ _ V)) as (e & Ve & Ee & P & Eb & Rs & _); [rewrite Rabs_Ropp; lra|].
  destruct (quotient_error 1 f32_one _ e (exp (- v)) delta Hdelta ltac:(lra) rep32_one P Eb Ee Rs) as (q & Rq & Eq & _).
  exists q. split; [exact Rq|]. rewrite sigmoid_logistic. pose proof (logistic_range r) as Lr. split; [|rewrite Rabs_right; lra].
  replace (1 / (1 + exp (- v))) with (logistic v) in Eq by (unfold logistic, Rdiv; ring).
  replace (q - logistic r) with ((q - logistic v) + (logistic v - logistic r)) by ring. pose proof (Rabs_triang (q - logistic v) (logistic v - logistic r)). pose proof (logistic_lipschitz v r).
  unfold Rdiv in *. rewrite <- u24_value. lra.
Qed.

Lemma tangent_close most error a r : close most error a r -> 2 * (most + error) <= range ->
  close 1 (error + 4 * delta + 16 / IZR (2 ^ 24)) (tangent f32_num fdiv nexp (f_of_Z 2) a) (tangent R_num Rdiv exp 2 r).
Proof using Hexp Hrange Hdelta.
  intros (v & V & A & B) L. pose proof (abs_diff v r) as Av. pose proof big_number as Bn. pose proof big_one as Bo. pose proof u24_pos as U. pose proof u24_small as U1. pose proof eta_pos as T.
  assert (A2 : Rabs (2 * v) <= range) by (rewrite Rabs_mult, (Rabs_right 2) by lra; lra).
  assert (Big : 64 <= bpow radix2 127). { apply Rle_trans with (bpow radix2 6); [apply Rle_refl|apply bpow_le; lia]. }
  assert (Vd : rep32 (fmul (f_of_Z 2) a) (2 * v)) by (apply rep32_double; [exact V|lra]).
  destruct (exp_sum _ (2 * v) Vd A2) as (e & Ve & Ee & P & Eb & _ & Rs).
  assert (R2 : rep32 (f_of_Z 2) 2) by (apply (rep32_int 2); lia).
  destruct (quotient_error 2 (f_of_Z 2) _ e (exp (2 * v)) delta Hdelta ltac:(lra) R2 P Eb Ee Rs) as (q & Rq & Eq & Hq).
  exists (rnd32 (1 - q)). split.
  - unfold tangent. cbn [nsub n1 nadd nmul f32_num]. apply rep32_sub; [exact rep32_one|exact Rq|]. apply Rle_trans with 64; [|exact Big]. unfold Rabs. destruct Rcase_abs; lra.
  - rewrite tangent_tanh. pose proof (tanh_range r) as Lr. split; [|unfold Rabs; destruct Rcase_abs; lra].
    assert (Ev : tanh v = 1 - 2 / (1 + exp (2 * v))). { rewrite <- tangent_tanh. unfold tangent. cbn [nsub n1 nadd nmul R_num]. now rewrite (Rplus_comm (exp (2 * v))). }
    pose proof (round_error (1 - q)) as Rr. assert (Aq : Rabs (1 - q) <= 1) by (unfold Rabs; destruct Rcase_abs; lra). assert (u24 * Rabs (1 - q) <= u24 * 1) by (apply Rmult_le_compat_l; lra).
    assert (eta <= u24) by (apply bpow_le; lia).
    replace (rnd32 (1 - q) - tanh r) with ((rnd32 (1 - q) - (1 - q)) + ((1 - q - tanh v) + (tanh v - tanh r))) by ring.
    pose proof (Rabs_triang (rnd32 (1 - q) - (1 - q)) ((1 - q - tanh v) + (tanh v - tanh r))). pose proof (Rabs_triang (1 - q - tanh v) (tanh v - tanh r)). pose proof (tanh_lipschitz v r).
    replace (1 - q - tanh v) with (- (q - 2 / (1 + exp (2 * v)))) in * by (rewrite Ev; ring). rewrite Rabs_Ropp in *. unfold Rdiv in *. rewrite <- u24_value. lra.
Qed.
End Exp.

(** The exponential of the value, correctly rounded. *)
Definition rounded_exp (a : f32) : f32 :=
  let x := exp (SF2R radix2 (sf_of_bits a)) in
  bits_of_sf (B2SF (binary_normalize 24 128 Hprec Hmax mode_NE (ZnearestE (scaled_mantissa radix2 (SpecFloat.fexp 24 128) x)) (cexp radix2 (SpecFloat.fexp 24 128) x) false)).
Lemma rounded_exp_accurate : accurate_exp rounded_exp 64 (/ IZR (2 ^ 20)).
Proof.
  intros a v V L. pose proof (NetError_Proofs.value_fn a v V) as E. unfold rounded_exp. rewrite <- E. set (x := exp v). assert (P : 0 < x) by apply exp_pos.
  assert (Hx : x <= bpow radix2 124) by (apply exp_bound; pose proof (Rle_abs v); lra).
  assert (Hlow : bpow radix2 (-124) <= x).
  { unfold x. replace v with (- - v) by ring. rewrite exp_Ropp. replace (bpow radix2 (-124)) with (/ bpow radix2 124) by (symmetry; exact (bpow_opp radix2 124)). apply Rinv_le; [apply exp_pos|]. apply exp_bound. pose proof (Rle_abs (- v)). rewrite Rabs_Ropp in *. lra. }
  set (m := ZnearestE (scaled_mantissa radix2 (SpecFloat.fexp 24 128) x)). set (ex := cexp radix2 (SpecFloat.fexp 24 128) x).
  pose proof (binary_normalize_correct 24 128 Hprec Hmax mode_NE m ex false) as N.
  assert (Er : F2R (Float radix2 m ex) = rnd32 x) by reflexivity. rewrite Er in N.
  assert (Ei : round radix2 (SpecFloat.fexp 24 128) (round_mode mode_NE) (rnd32 x) = rnd32 x).
  { apply round_generic; [apply valid_rnd_N|]. apply generic_format_round; [apply fexp_correct; exact Hprec|apply valid_rnd_N]. }
  cbv zeta in N. rewrite Ei in N. pose proof (round_error x) as Rx. rewrite (Rabs_right x) in Rx by lra. pose proof u24_pos. pose proof u24_small. pose proof eta_pos.
  assert (Eta : eta <= u24 * x). { apply Rle_trans with (u24 * bpow radix2 (-124)); [|apply Rmult_le_compat_l; lra]. unfold u24. rewrite <- bpow_plus. apply bpow_le. lia. }
  assert (U20 : 2 * u24 <= / IZR (2 ^ 20)). { change (/ IZR (2 ^ 20)) with (bpow radix2 (-20)). apply Rle_trans with (bpow radix2 (-23)); [|apply bpow_le; lia]. change (-23)%Z with (1 + -24)%Z. rewrite bpow_plus. apply Rle_refl. }
  assert (Er2 : Rabs (rnd32 x - x) <= / IZR (2 ^ 20) * x). { apply Rle_trans with (2 * u24 * x); [lra|]. apply Rmult_le_compat_r; lra. }
  rewrite Rlt_bool_true in N.
  - destruct N as (N1 & N2 & _). exists (rnd32 x). split; [|exact Er2]. eexists. split; [reflexivity|]. split; [exact N2|exact N1].
  - apply below_max. assert (/ IZR (2 ^ 20) <= 1) by (change (/ IZR (2 ^ 20)) with (bpow radix2 (-20)); change 1 with (bpow radix2 0); apply bpow_le; lia).
    assert (/ IZR (2 ^ 20) * x <= 1 * x) by (apply Rmult_le_compat_r; lra). assert (2 * bpow radix2 124 <= bpow radix2 127) by (change 2 with (bpow radix2 1); rewrite <- bpow_plus; apply bpow_le; lia).
    revert Er2. unfold Rabs. repeat destruct Rcase_abs; lra.
Qed.

(** Rounding errors of sums of products of floats. *)
From Coq Require Import ZArith Bool Lia Reals Lra Psatz Floats.SpecFloat.
From Flocq Require Import Core.Core IEEE754.BinarySingleNaN Relative.
From Verif Require Import Base Float32 FloatOps Num RealNum FloatOps_Flocq Float64_Flocq FloatNonneg.
Local Open Scope R_scope.
#[local] Existing Instance Hprec.
#[local] Existing Instance Hmax.

(** Half a unit in the last place of 1, and half of the smallest positive float. *)
Definition u24 : R := bpow radix2 (-24).
Definition eta : R := bpow radix2 (-150).

Lemma u24_value : u24 = / IZR (2 ^ 24). Proof. reflexivity. Qed.
Lemma eta_value : eta = / IZR (2 ^ 150). Proof. reflexivity. Qed.
Lemma u24_pos : 0 < u24. Proof. apply bpow_gt_0. Qed.
Lemma eta_pos : 0 < eta. Proof. apply bpow_gt_0. Qed.
Lemma u24_small : 16777216 * u24 = 1.
Proof. rewrite u24_value. change (2 ^ 24)%Z with 16777216%Z. field. Qed.

Lemma round_error x : Rabs (rnd32 x - x) <= u24 * Rabs x + eta.
Proof.
  destruct (Rle_or_lt (bpow radix2 (-126)) (Rabs x)) as [H|H].
  - pose proof (relative_error_N_FLT radix2 (-149) 24 eq_refl (fun x => negb (Z.even x)) x H) as E.
    change (Rabs (rnd32 x - x) <= / 2 * bpow radix2 (-24 + 1) * Rabs x) in E. rewrite bpow_plus in E. change (bpow radix2 1) with 2 in E. fold u24 in E.
    pose proof eta_pos. lra.
  - assert (V : Valid_exp (SpecFloat.fexp 24 128)) by (apply fexp_correct; exact Hprec). assert (M : Monotone_exp (SpecFloat.fexp 24 128)) by apply fexp_monotone.
    apply Rle_trans with eta.
    + eapply Rle_trans; [apply (error_le_half_ulp radix2 (SpecFloat.fexp 24 128) (fun x => negb (Z.even x)))|].
      apply Rle_trans with (/ 2 * ulp radix2 (SpecFloat.fexp 24 128) (bpow radix2 (-126))).
      * apply Rmult_le_compat_l; [lra|]. apply ulp_le; auto. rewrite (Rabs_pos_eq (bpow radix2 (-126))) by apply bpow_ge_0. lra.
      * rewrite ulp_bpow. change (SpecFloat.fexp 24 128 (-126 + 1)) with (-150 + 1)%Z. rewrite bpow_plus. change (bpow radix2 1) with 2. unfold eta. lra.
    + pose proof u24_pos. pose proof (Rabs_pos x). assert (0 <= u24 * Rabs x) by (apply Rmult_le_pos; lra). lra.
Qed.

Lemma abs_diff x y : Rabs x <= Rabs y + Rabs (x - y).
Proof. pose proof (Rabs_triang y (x - y)). replace (y + (x - y)) with x in H by lra. lra. Qed.

(** One more product: [s] is the exact sum, [S] the computed one. *)
Lemma step_error (k A s S p P : R) : 0 <= k -> k <= 1048576 -> 0 <= A -> Rabs s <= A ->
  Rabs (S - s) <= 2 * (k + 1) * u24 * A + 4 * k * eta -> Rabs (P - p) <= u24 * Rabs p + eta ->
  Rabs (rnd32 (S + P) - (s + p)) <= 2 * (k + 1 + 1) * u24 * (A + Rabs p) + 4 * (k + 1) * eta.
Proof.
  intros Hk Hk2 HA Hs HE HP. pose proof u24_pos as U. pose proof eta_pos as T. pose proof u24_small as U1. pose proof (round_error (S + P)) as R.
  pose proof (Rabs_pos p) as Pp. set (E := Rabs (S - s)) in *. set (F := Rabs (P - p)) in *.
  assert (B : Rabs (S + P) <= A + E + Rabs p + F).
  { replace (S + P) with (s + (S - s) + (p + (P - p))) by lra.
    pose proof (Rabs_triang (s + (S - s)) (p + (P - p))). pose proof (Rabs_triang s (S - s)). pose proof (Rabs_triang p (P - p)). fold E in H0. fold F in H1. lra. }
  assert (G : Rabs (rnd32 (S + P) - (s + p)) <= Rabs (rnd32 (S + P) - (S + P)) + E + F).
  { replace (rnd32 (S + P) - (s + p)) with ((rnd32 (S + P) - (S + P)) + ((S - s) + (P - p))) by lra.
    pose proof (Rabs_triang (rnd32 (S + P) - (S + P)) ((S - s) + (P - p))). pose proof (Rabs_triang (S - s) (P - p)). fold E in H0. fold F in H0. lra. }
  assert (Ub : u24 * Rabs (S + P) <= u24 * (A + E + Rabs p + F)) by (apply Rmult_le_compat_l; lra).
  apply Rle_trans with (1 := G). apply Rle_trans with (u24 * (A + E + Rabs p + F) + eta + E + F); [lra|]. clear G R B Ub.
  assert (E0 : 0 <= E) by apply Rabs_pos. clearbody E F. clear S s P Hs.
  (* (1+u)E + uA + (1+u)F + u|p| + eta *)
  set (u := u24) in *. set (t := eta) in *. set (q := Rabs p) in *. clearbody u t q.
  assert (Uk : (k + 1) * u <= / 8) by (apply Rle_trans with (1048577 * u); [apply Rmult_le_compat_r; lra|lra]).
  assert (H1 : u * E <= u * (2 * (k + 1) * u * A + 4 * k * t)) by (apply Rmult_le_compat_l; lra).
  assert (H2 : u * F <= u * (u * q + t)) by (apply Rmult_le_compat_l; lra).
  assert (H3 : (k + 1) * u * (u * A) <= / 8 * (u * A)) by (apply Rmult_le_compat_r; [apply Rmult_le_pos; lra|lra]).
  assert (H4 : k * u * t <= / 8 * t) by (apply Rmult_le_compat_r; lra).
  assert (H5 : u * (u * q) <= / 8 * (u * q)). { assert (u <= / 8) by lra. apply Rmult_le_compat_r; [apply Rmult_le_pos; lra|lra]. }
  assert (H6 : u * t <= / 8 * t) by (apply Rmult_le_compat_r; lra).
  assert (H7 : 0 <= u * A) by (apply Rmult_le_pos; lra). assert (H8 : 0 <= u * q) by (apply Rmult_le_pos; lra). assert (H9 : 0 <= k * (u * q)) by (apply Rmult_le_pos; lra).
  assert (G1 : u * (2 * (k + 1) * u * A + 4 * k * t) = 2 * ((k + 1) * u * (u * A)) + 4 * (k * u * t)) by ring.
  assert (G2 : 2 * (k + 1 + 1) * u * (A + q) + 4 * (k + 1) * t = 2 * (k + 1) * u * A + 2 * (u * A) + 2 * (k * (u * q)) + 4 * (u * q) + 4 * k * t + 4 * t) by ring.
  rewrite G2. rewrite G1 in H1. replace (u * (u * q + t)) with (u * (u * q) + u * t) in H2 by ring.
  replace (u * (A + E + q + F)) with (u * A + u * E + u * q + u * F) by ring. lra.
Qed.

Lemma big_number : bpow radix2 127 = 8 * bpow radix2 124.
Proof. change 127%Z with (3 + 124)%Z. rewrite bpow_plus. change (bpow radix2 3) with 8. reflexivity. Qed.
Lemma big_one : 1 <= bpow radix2 124.
Proof. change 1 with (bpow radix2 0). apply bpow_le. lia. Qed.
Lemma eta_small : 4 * 1048576 * eta <= 1.
Proof. unfold eta. apply Rle_trans with (4 * 1048576 * bpow radix2 (-24)); [apply Rmult_le_compat_l; [lra|apply bpow_le; lia]|]. fold u24. pose proof u24_small. lra. Qed.

(** How far a computed sum of [k] products may be from the exact one, if the products add up to [A] in absolute value. *)
Definition sum_bound (k A : R) : R := 2 * (k + 1) * u24 * A + 4 * k * eta.
Lemma sum_bound_size k A : 0 <= k -> k <= 1048576 -> 0 <= A -> sum_bound k A <= A + 1.
Proof.
  intros Hk Hk2 HA. unfold sum_bound. pose proof u24_pos. pose proof u24_small. pose proof eta_small. pose proof eta_pos.
  assert (2 * (k + 1) * u24 * A <= 1 * A). { apply Rmult_le_compat_r; [exact HA|]. apply Rle_trans with (2 * 1048577 * u24); [|lra]. apply Rmult_le_compat_r; lra. }
  assert (4 * k * eta <= 4 * 1048576 * eta) by (apply Rmult_le_compat_r; lra). lra.
Qed.

Lemma nsum_abs n f g : (forall i, (i < n)%nat -> Rabs (f i) <= g i) -> Rabs (nsum R_num n f) <= nsum R_num n g.
Proof.
  induction n as [|n IH]; intros H; cbn [nsum n0 nadd R_num]; [rewrite Rabs_R0; lra|].
  pose proof (Rabs_triang (nsum R_num n f) (f n)). pose proof (H n ltac:(lia)). assert (Rabs (nsum R_num n f) <= nsum R_num n g) by (apply IH; intros; apply H; lia). lra.
Qed.
Lemma nsum_nonneg n g : (forall i, (i < n)%nat -> 0 <= g i) -> 0 <= nsum R_num n g.
Proof.
  induction n as [|n IH]; intros H; cbn [nsum n0 nadd R_num]; [lra|]. pose proof (H n ltac:(lia)). assert (0 <= nsum R_num n g) by (apply IH; intros; apply H; lia). lra.
Qed.
Lemma nsum_mono n f g : (forall i, (i < n)%nat -> f i <= g i) -> nsum R_num n f <= nsum R_num n g.
Proof.
  induction n as [|n IH]; intros H; cbn [nsum n0 nadd R_num]; [lra|]. pose proof (H n ltac:(lia)). assert (nsum R_num n f <= nsum R_num n g) by (apply IH; intros; apply H; lia). lra.
Qed.

Lemma rep32_zero : rep32 f32_zero 0.
Proof. apply nn_rep, nn_zero. Qed.
Lemma rep32_one : rep32 f32_one 1.
Proof. apply (rep32_int 1). lia. Qed.

Lemma sum_error n (a b : nat -> f32) (ra rb : nat -> R) :
  (forall i, (i < n)%nat -> rep32 (a i) (ra i)) -> (forall i, (i < n)%nat -> rep32 (b i) (rb i)) -> (Z.of_nat n <= 1048576)%Z ->
  nsum R_num n (fun i => Rabs (ra i * rb i)) <= bpow radix2 124 ->
  exists S, rep32 (nsum f32_num n (fun i => fmul (a i) (b i))) S /\
    Rabs (S - nsum R_num n (fun i => ra i * rb i)) <= sum_bound (INR n) (nsum R_num n (fun i => Rabs (ra i * rb i))).
Proof.
  induction n as [|n IH]; intros Ha Hb Hn HM.
  - exists 0. split; [exact rep32_zero|]. cbn [nsum n0 R_num]. unfold sum_bound. cbn [INR]. rewrite Rminus_0_r, Rabs_R0. lra.
  - cbn [nsum n0 nadd R_num f32_num] in *. set (A := nsum R_num n (fun i => Rabs (ra i * rb i))) in *.
    assert (A0 : 0 <= A) by (apply nsum_nonneg; intros; apply Rabs_pos). pose proof (Rabs_pos (ra n * rb n)) as P0.
    destruct IH as (S & RS & ES); [intros; apply Ha; lia|intros; apply Hb; lia|lia|lra|].
    assert (Ns : Rabs (nsum R_num n (fun i => ra i * rb i)) <= A) by (apply nsum_abs; intros; apply Rle_refl).
    pose proof (Ha n ltac:(lia)) as Rn. pose proof (Hb n ltac:(lia)) as Rm. pose proof big_number as B1. pose proof big_one as B2. pose proof (pos_INR n) as I0.
    assert (In : INR n <= 1048576) by (rewrite INR_IZR_INZ; apply IZR_le; lia).
    assert (Hp : rep32 (fmul (a n) (b n)) (rnd32 (ra n * rb n))) by (apply rep32_mul'; auto; lra).
    pose proof (round_error (ra n * rb n)) as Ep. pose proof (sum_bound_size (INR n) A I0 In A0) as Sb.
    assert (SP : Rabs (S + rnd32 (ra n * rb n)) <= bpow radix2 127).
    { pose proof (Rabs_triang S (rnd32 (ra n * rb n))) as T. pose proof (abs_diff S (nsum R_num n (fun i => ra i * rb i))) as T2.
      pose proof (abs_diff (rnd32 (ra n * rb n)) (ra n * rb n)) as T3. pose proof u24_pos. pose proof u24_small. pose proof eta_small. pose proof eta_pos.
      assert (u24 * Rabs (ra n * rb n) <= 1 * Rabs (ra n * rb n)) by (apply Rmult_le_compat_r; lra). lra. }
    exists (rnd32 (S + rnd32 (ra n * rb n))). split; [now apply rep32_add|].
    unfold sum_bound in *. rewrite S_INR. apply step_error; auto.
Qed.

(** Products with 1 and sums with 0 are exact. *)
Lemma rep32_times_one a r : rep32 a r -> rep32 (fmul f32_one a) r.
Proof.
  intros H. pose proof (rnd32_rep a r H) as E. assert (G : rep32 (fmul f32_one a) (rnd32 (1 * r))); [|now rewrite Rmult_1_l, E in G]. apply rep32_mul; [exact rep32_one|exact H|].
  rewrite Rmult_1_l, E. destruct H as (x & _ & F & <-). apply abs_B2R_lt_emax.
Qed.
Lemma rep32_one_times a r : rep32 a r -> rep32 (fmul a f32_one) r.
Proof.
  intros H. pose proof (rnd32_rep a r H) as E. assert (G : rep32 (fmul a f32_one) (rnd32 (r * 1))); [|now rewrite Rmult_1_r, E in G]. apply rep32_mul; [exact H|exact rep32_one|].
  rewrite Rmult_1_r, E. destruct H as (x & _ & F & <-). apply abs_B2R_lt_emax.
Qed.
Lemma rep32_plus_zero a r : rep32 a r -> rep32 (fadd f32_zero a) r.
Proof.
  intros H. pose proof (rnd32_rep a r H) as E. destruct H as (x & -> & F & <-). pose proof (Bplus_correct 24 128 Hprec Hmax mode_NE (B754_zero false) x eq_refl F) as N.
  change (round radix2 (SpecFloat.fexp 24 128) (round_mode mode_NE) (B2R (B754_zero false : float) + B2R x)) with (rnd32 (0 + B2R x)) in N.
  rewrite Rplus_0_l, E in N. rewrite Rlt_bool_true in N by apply abs_B2R_lt_emax. destruct N as (N1 & N2 & _).
  exists (Bplus mode_NE (B754_zero false) x). split; [change f32_zero with (bits_of_sf (B2SF (B754_zero false : float))); apply fadd_bits|]. now split.
Qed.

(** [al * S + be * c], where [S] is a sum of [k] products. *)
Lemma combine_error (k A s S al be c : R) fa fS fb fc : 0 <= k -> k <= 1048576 -> 0 <= A -> Rabs s <= A -> Rabs (S - s) <= sum_bound k A ->
  rep32 fa al -> rep32 fS S -> rep32 fb be -> rep32 fc c -> Rabs al * A + Rabs (be * c) <= bpow radix2 124 ->
  exists v, rep32 (fadd (fmul fa fS) (fmul fb fc)) v /\ rep32 (fadd (fmul fb fc) (fmul fa fS)) v /\
    Rabs (v - (al * s + be * c)) <= 2 * (k + 3) * u24 * (Rabs al * A + Rabs (be * c)) + (5 * k * Rabs al + 4) * eta.
Proof.
  intros Hk Hk2 HA Hs HE Ra RS Rb Rc HM. pose proof u24_pos as U. pose proof u24_small as U1. pose proof eta_pos as T. pose proof eta_small as T1.
  pose proof big_number as B1. pose proof big_one as B2. pose proof (Rabs_pos al) as P1. pose proof (Rabs_pos (be * c)) as P2.
  assert (P3 : 0 <= Rabs al * A) by (apply Rmult_le_pos; lra).
  assert (Hal : Rabs al <= bpow radix2 128) by (destruct Ra as (x & _ & F & <-); apply Rlt_le, abs_B2R_lt_emax).
  assert (T2 : 4 * 1048576 * eta * Rabs al <= 1).
  { apply Rle_trans with (bpow radix2 22 * eta * bpow radix2 128); [change (4 * 1048576) with (4 * 1048576); replace (4 * 1048576) with (bpow radix2 22) by (cbn; lra); apply Rmult_le_compat_l; [apply Rmult_le_pos; [apply bpow_ge_0|lra]|exact Hal]|].
    unfold eta. rewrite <- !bpow_plus. change 1 with (bpow radix2 0). apply bpow_le. lia. }
  assert (ES : Rabs (al * S - al * s) <= Rabs al * sum_bound k A).
  { replace (al * S - al * s) with (al * (S - s)) by lra. rewrite Rabs_mult. apply Rmult_le_compat_l; lra. }
  assert (SBal : Rabs al * sum_bound k A <= Rabs al * A + 1).
  { unfold sum_bound. replace (Rabs al * (2 * (k + 1) * u24 * A + 4 * k * eta)) with (2 * (k + 1) * u24 * (Rabs al * A) + 4 * k * eta * Rabs al) by ring.
    assert (2 * (k + 1) * u24 * (Rabs al * A) <= 1 * (Rabs al * A)). { apply Rmult_le_compat_r; [exact P3|]. apply Rle_trans with (2 * 1048577 * u24); [|lra]. apply Rmult_le_compat_r; lra. }
    assert (4 * k * eta * Rabs al <= 4 * 1048576 * eta * Rabs al) by (apply Rmult_le_compat_r; [exact P1|apply Rmult_le_compat_r; lra]). lra. }
  assert (Has : Rabs (al * s) <= Rabs al * A) by (rewrite Rabs_mult; apply Rmult_le_compat_l; lra).
  assert (HaS : Rabs (al * S) <= Rabs al * A + Rabs (al * S - al * s)) by (pose proof (abs_diff (al * S) (al * s)); lra).
  assert (R1 : rep32 (fmul fa fS) (rnd32 (al * S))) by (apply rep32_mul'; auto; lra).
  assert (R2 : rep32 (fmul fb fc) (rnd32 (be * c))) by (apply rep32_mul'; auto; lra).
  pose proof (round_error (al * S)) as E1. pose proof (round_error (be * c)) as E2.
  set (X := rnd32 (al * S)) in *. set (Y := rnd32 (be * c)) in *.
  set (d := Rabs (al * S - al * s)) in *. assert (D0 : 0 <= d) by apply Rabs_pos.
  set (M := Rabs al * A + Rabs (be * c)) in *. assert (M0 : 0 <= M) by (unfold M; lra).
  assert (UaS : u24 * Rabs (al * S) <= u24 * (Rabs al * A + d)) by (apply Rmult_le_compat_l; lra).
  (* the error of the two products *)
  assert (DX : Rabs ((X + Y) - (al * s + be * c)) <= d + u24 * (M + d) + 2 * eta).
  { replace (X + Y - (al * s + be * c)) with ((X - al * S) + ((al * S - al * s) + (Y - be * c))) by lra.
    pose proof (Rabs_triang (X - al * S) ((al * S - al * s) + (Y - be * c))). pose proof (Rabs_triang (al * S - al * s) (Y - be * c)). fold d in H0.
    assert (u24 * (M + d) = u24 * (Rabs al * A + d) + u24 * Rabs (be * c)) by (unfold M; ring). lra. }
  assert (XY : Rabs (X + Y) <= M + (d + u24 * (M + d) + 2 * eta)).
  { pose proof (abs_diff (X + Y) (al * s + be * c)). pose proof (Rabs_triang (al * s) (be * c)). unfold M at 1. lra. }
  assert (dM : d <= M + 1) by (unfold M; lra).
  assert (Ud : u24 * (M + d) <= / 8 * (M + d)) by (apply Rmult_le_compat_r; lra).
  assert (XYb : Rabs (X + Y) <= bpow radix2 127) by lra.
  assert (XYb' : Rabs (Y + X) <= bpow radix2 127) by (rewrite Rplus_comm; exact XYb).
  exists (rnd32 (X + Y)). split; [now apply rep32_add|]. split; [rewrite (Rplus_comm X Y); now apply rep32_add|].
  pose proof (round_error (X + Y)) as E3.
  assert (UXY : u24 * Rabs (X + Y) <= u24 * (M + (d + u24 * (M + d) + 2 * eta))) by (apply Rmult_le_compat_l; lra).
  assert (G : Rabs (rnd32 (X + Y) - (al * s + be * c)) <= u24 * (M + (d + u24 * (M + d) + 2 * eta)) + eta + (d + u24 * (M + d) + 2 * eta)).
  { replace (rnd32 (X + Y) - (al * s + be * c)) with ((rnd32 (X + Y) - (X + Y)) + ((X + Y) - (al * s + be * c))) by lra.
    pose proof (Rabs_triang (rnd32 (X + Y) - (X + Y)) ((X + Y) - (al * s + be * c))). lra. }
  apply Rle_trans with (1 := G). clear G E3 UXY XYb XYb' XY DX.
  assert (Hd : d <= 2 * (k + 1) * u24 * M + 4 * k * Rabs al * eta).
  { unfold sum_bound in ES. replace (Rabs al * (2 * (k + 1) * u24 * A + 4 * k * eta)) with (2 * (k + 1) * u24 * (Rabs al * A) + 4 * k * Rabs al * eta) in ES by ring.
    assert (2 * (k + 1) * u24 * (Rabs al * A) <= 2 * (k + 1) * u24 * M); [|lra]. apply Rmult_le_compat_l; [|unfold M; lra]. apply Rmult_le_pos; [|lra]. lra. }
  clearbody d M X Y. clear - Hk Hk2 U U1 T P1 D0 M0 Hd.
  set (q := k * Rabs al * eta). assert (Q0 : 0 <= q) by (unfold q; apply Rmult_le_pos; [apply Rmult_le_pos; lra|lra]).
  replace ((5 * k * Rabs al + 4) * eta) with (5 * q + 4 * eta) by (unfold q; ring). replace (4 * k * Rabs al * eta) with (4 * q) in Hd by (unfold q; ring).
  clearbody q. set (u := u24) in *. set (t := eta) in *. clearbody u t.
  (* (1+u)^2 d + ((1+u)u + u) M + (3+2u) t *)
  assert (Uk : (k + 1) * u <= / 8) by (apply Rle_trans with (1048577 * u); [apply Rmult_le_compat_r; lra|lra]).
  assert (V0 : 0 <= u * M) by (apply Rmult_le_pos; lra).
  assert (K1 : u * d <= u * (2 * (k + 1) * u * M + 4 * q)) by (apply Rmult_le_compat_l; lra).
  assert (K2 : u * (u * d) <= / 8 * (u * d)) by (apply Rmult_le_compat_r; [apply Rmult_le_pos; lra|lra]).
  assert (K3 : (k + 1) * u * (u * M) <= / 8 * (u * M)) by (apply Rmult_le_compat_r; lra).
  assert (K4 : u * (u * M) <= / 8 * (u * M)) by (apply Rmult_le_compat_r; lra).
  assert (K5 : u * q <= / 32 * q) by (apply Rmult_le_compat_r; lra).
  assert (K6 : u * t <= / 8 * t) by (apply Rmult_le_compat_r; lra).
  assert (0 <= u * d) by (apply Rmult_le_pos; lra).
  replace (u * (2 * (k + 1) * u * M + 4 * q)) with (2 * ((k + 1) * u * (u * M)) + 4 * (u * q)) in K1 by ring.
  replace (u * (M + (d + u * (M + d) + 2 * t)) + t + (d + u * (M + d) + 2 * t)) with (d + 2 * (u * d) + u * (u * d) + 2 * (u * M) + u * (u * M) + 2 * (u * t) + 3 * t) by ring.
  replace (2 * (k + 3) * u * M) with (2 * (k + 1) * u * M + 4 * (u * M)) by ring. lra.
Qed.

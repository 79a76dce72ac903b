(** C55: the KITTI error weighting. *)
From Coq Require Import ZArith Bool Lia Reals Lra Floats.SpecFloat.
From Flocq Require Import Core.Core IEEE754.BinarySingleNaN.
From Verif Require Import Base Float32 FloatOps FloatOps_Flocq Float64 Float64_Flocq Str_Model Config_Model Receptive_Model Kitti_Model.
Local Open Scope R_scope.

(** ** The constants *)
Lemma rep32_finite s m e (H : SpecFloat.bounded 24 128 m e = true) a : a = bits_of_sf (S754_finite s m e) -> rep32 a (F2R (Float radix2 (cond_Zopp s (Z.pos m)) e)).
Proof. intros ->. exists (B754_finite s m e H). repeat split. Qed.
Lemma rep64_finite s m e (H : SpecFloat.bounded 53 1024 m e = true) : rep64 (S754_finite s m e) (F2R (Float radix2 (cond_Zopp s (Z.pos m)) e)).
Proof. exists (B754_finite s m e H). repeat split. Qed.

Lemma rep_zero : rep32 f32_zero 0.
Proof. exists (B754_zero false). repeat split. Qed.
Lemma rep_one : rep32 f32_one 1.
Proof.
  replace 1 with (F2R (Float radix2 (cond_Zopp false (Z.pos 8388608)) (-23))) by (unfold F2R; cbn; lra).
  apply rep32_finite; reflexivity.
Qed.
Lemma rep_quarter : rep64 d_quarter (1 / 4).
Proof.
  replace (1 / 4) with (F2R (Float radix2 (cond_Zopp false (Z.pos 4503599627370496)) (-54))) by (unfold F2R; cbn; lra).
  apply rep64_finite. reflexivity.
Qed.
Definition r051 : R := IZR 4593671619917906 * bpow radix2 (-53).
Lemma rep_051 : rep64 d_051 r051.
Proof. apply (rep64_finite false 4593671619917906 (-53)). reflexivity. Qed.
Lemma r051_bounds : 51 / 100 - 1 / 10 ^ 15 <= r051 <= 51 / 100 + 1 / 10 ^ 15.
Proof. unfold r051. cbn. lra. Qed.

Definition lowest : f32 := 1040355164%Z.
Definition half_ : f32 := 1057132380%Z.
Definition highest : f32 := 1103620997%Z.
(** The patterns are the floats nearest to 0.51 * 0.25, 0.51 and 0.51 * 49. *)
Definition v_lowest : R := IZR 8556380 * bpow radix2 (-26).
Definition v_half : R := IZR 8556380 * bpow radix2 (-24).
Definition v_highest : R := IZR 13101957 * bpow radix2 (-19).
Lemma rep_lowest : rep32 lowest v_lowest.
Proof. apply (rep32_finite false 8556380 (-26)); reflexivity. Qed.
Lemma rep_half : rep32 half_ v_half.
Proof. apply (rep32_finite false 8556380 (-24)); reflexivity. Qed.
Lemma rep_highest : rep32 highest v_highest.
Proof. apply (rep32_finite false 13101957 (-19)); reflexivity. Qed.

Lemma small u : -1000000 <= u <= 1000000 -> Rabs (rnd64 u) < bpow radix2 1024 /\ Rabs (rnd32 u) < bpow radix2 128.
Proof.
  intros [H1 H2]. assert (A : IZR 1000000 < bpow radix2 20) by (cbn; lra).
  pose proof (rnd64_le _ _ H1) as L1. pose proof (rnd64_le _ _ H2) as L2. pose proof (rnd32_le _ _ H1) as L3. pose proof (rnd32_le _ _ H2) as L4.
  rewrite (rnd64_int (-1000000)) in L1 by lia. rewrite (rnd64_int 1000000) in L2 by lia.
  rewrite (rnd32_int (-1000000)) in L3 by lia. rewrite (rnd32_int 1000000) in L4 by lia.
  split; apply Rabs_lt; split.
  - apply Rlt_le_trans with (- bpow radix2 20); [apply Ropp_lt_contravar, bpow_lt; lia|lra].
  - apply Rlt_trans with (bpow radix2 20); [lra|apply bpow_lt; lia].
  - apply Rlt_le_trans with (- bpow radix2 20); [apply Ropp_lt_contravar, bpow_lt; lia|lra].
  - apply Rlt_trans with (bpow radix2 20); [lra|apply bpow_lt; lia].
Qed.

Lemma mul_small x y r s : rep64 x r -> rep64 y s -> -1000000 <= r * s <= 1000000 -> rep64 (dmul x y) (rnd64 (r * s)).
Proof. intros Hx Hy H. apply rep64_mul; auto. now apply small. Qed.
Lemma add_small x y r s : rep64 x r -> rep64 y s -> -1000000 <= r + s <= 1000000 -> rep64 (dadd x y) (rnd64 (r + s)).
Proof. intros Hx Hy H. apply rep64_add; auto. now apply small. Qed.
Lemma sub_small x y r s : rep64 x r -> rep64 y s -> -1000000 <= r - s <= 1000000 -> rep64 (dsub x y) (rnd64 (r - s)).
Proof. intros Hx Hy H. apply rep64_sub; auto. now apply small. Qed.
Lemma narrow_small x r : rep64 x r -> -1000000 <= r <= 1000000 -> rep32 (f_of_d x) (rnd32 r).
Proof. intros Hx H. apply rep32_narrow; auto. now apply small. Qed.

(** Exact roundings of the constants that occur. *)
Lemma rnd64_const m e v : (Z.abs m < 2 ^ 53)%Z -> (-1074 <= e)%Z -> v = IZR m * bpow radix2 e -> rnd64 v = v.
Proof. intros ? ? ->. now apply rnd64_dyadic. Qed.
Lemma rnd32_const m e v : (Z.abs m < 2 ^ 24)%Z -> (-149 <= e)%Z -> v = IZR m * bpow radix2 e -> rnd32 v = v.
Proof. intros ? ? ->. now apply rnd32_dyadic. Qed.
Lemma in64 lo hi u : rnd64 lo = lo -> rnd64 hi = hi -> lo <= u <= hi -> lo <= rnd64 u <= hi.
Proof. intros E1 E2 [H1 H2]. apply rnd64_le in H1, H2. lra. Qed.
Lemma in32 lo hi u : rnd32 lo = lo -> rnd32 hi = hi -> lo <= u <= hi -> lo <= rnd32 u <= hi.
Proof. intros E1 E2 [H1 H2]. apply rnd32_le in H1, H2. lra. Qed.

(** ** The last two statements of the function *)
Lemma weighted_zero q r : rep32 q r -> 1 <= r <= 7 -> rep32 (weighted q f32_zero) (1 / 4).
Proof.
  intros Hq Hr. unfold weighted. pose proof (rep64_widen _ _ Hq) as W.
  assert (S1 : 1 <= r * r <= 49) by (split; nra).
  assert (M := mul_small _ _ _ _ W W ltac:(lra)).
  pose proof (in64 1 49 (r * r) (rnd64_int 1 ltac:(lia)) (rnd64_int 49 ltac:(lia)) S1) as B1. set (u := rnd64 (r * r)) in *.
  assert (D := sub_small _ _ _ _ M rep_quarter ltac:(lra)).
  assert (B2 := in64 (3 / 4) 49 (u - 1 / 4) (rnd64_const 3 (-2) (3 / 4) ltac:(lia) ltac:(lia) ltac:(cbn; lra)) (rnd64_int 49 ltac:(lia)) ltac:(lra)).
  set (d := rnd64 (u - 1 / 4)) in *.
  assert (P := mul_small _ _ _ _ D (rep64_widen _ _ rep_zero) ltac:(lra)). replace (d * 0) with 0 in P by ring.
  rewrite (rnd64_int 0) in P by lia.
  assert (A := add_small _ _ _ _ rep_quarter P ltac:(lra)). rewrite Rplus_0_r in A.
  rewrite (rnd64_const 1 (-2) (1 / 4) ltac:(lia) ltac:(lia) ltac:(cbn; lra)) in A.
  assert (N := narrow_small _ _ A ltac:(lra)). now rewrite (rnd32_const 1 (-2) (1 / 4) ltac:(lia) ltac:(lia) ltac:(cbn; lra)) in N.
Qed.
Lemma weighted_one q r : rep32 q r -> 1 <= r <= 7 -> exists e, rep32 (weighted q f32_one) e /\ 1 <= e <= 49.
Proof.
  intros Hq Hr. unfold weighted. pose proof (rep64_widen _ _ Hq) as W.
  assert (S1 : 1 <= r * r <= 49) by (split; nra).
  assert (M := mul_small _ _ _ _ W W ltac:(lra)).
  pose proof (in64 1 49 (r * r) (rnd64_int 1 ltac:(lia)) (rnd64_int 49 ltac:(lia)) S1) as B1. set (u := rnd64 (r * r)) in *.
  assert (D := sub_small _ _ _ _ M rep_quarter ltac:(lra)).
  assert (B2 := in64 (3 / 4) (195 / 4) (u - 1 / 4) (rnd64_const 3 (-2) (3 / 4) ltac:(lia) ltac:(lia) ltac:(cbn; lra))
                  (rnd64_const 195 (-2) (195 / 4) ltac:(lia) ltac:(lia) ltac:(cbn; lra)) ltac:(lra)).
  set (d := rnd64 (u - 1 / 4)) in *.
  assert (P := mul_small _ _ _ _ D (rep64_widen _ _ rep_one) ltac:(lra)). rewrite Rmult_1_r, (rnd64_rep _ _ D) in P.
  assert (A := add_small _ _ _ _ rep_quarter P ltac:(lra)).
  assert (B3 := in64 1 49 (1 / 4 + d) (rnd64_int 1 ltac:(lia)) (rnd64_int 49 ltac:(lia)) ltac:(lra)). set (e := rnd64 (1 / 4 + d)) in *.
  assert (N := narrow_small _ _ A ltac:(lra)). exists (rnd32 e). split; [exact N|].
  now apply (in32 1 49 e (rnd32_int 1 ltac:(lia)) (rnd32_int 49 ltac:(lia))).
Qed.

Lemma scaled_mono a b r s : rep32 a r -> rep32 b s -> 1 / 4 <= r -> r <= s -> s <= 49 ->
  exists u v, rep32 (scaled_error a) u /\ rep32 (scaled_error b) v /\ 1 / 10 <= u /\ u <= v.
Proof.
  intros Ha Hb H1 H2 H3. unfold scaled_error. pose proof r051_bounds as Z5. assert (Z6 : 1 / 2 <= r051 <= 1) by lra.
  assert (P : forall t, 1 / 4 <= t <= 49 -> 1 / 8 <= r051 * t <= 49) by (intros t Ht; split; nra).
  assert (M1 := mul_small _ _ _ _ rep_051 (rep64_widen _ _ Ha) ltac:(specialize (P r); lra)).
  assert (M2 := mul_small _ _ _ _ rep_051 (rep64_widen _ _ Hb) ltac:(specialize (P s); lra)).
  assert (E8 : rnd64 (1 / 8) = 1 / 8) by (apply (rnd64_const 1 (-3)); [lia|lia|cbn; lra]).
  assert (E8' : rnd32 (1 / 8) = 1 / 8) by (apply (rnd32_const 1 (-3)); [lia|lia|cbn; lra]).
  pose proof (in64 (1 / 8) 49 _ E8 (rnd64_int 49 ltac:(lia)) (P r ltac:(lra))) as B1.
  pose proof (in64 (1 / 8) 49 _ E8 (rnd64_int 49 ltac:(lia)) (P s ltac:(lra))) as B2.
  assert (L : rnd64 (r051 * r) <= rnd64 (r051 * s)) by (apply rnd64_le; nra).
  assert (N1 := narrow_small _ _ M1 ltac:(lra)). assert (N2 := narrow_small _ _ M2 ltac:(lra)).
  eexists _, _. split; [exact N1|]. split; [exact N2|].
  pose proof (in32 (1 / 8) 49 _ E8' (rnd32_int 49 ltac:(lia)) B1). split; [lra|]. now apply rnd32_le.
Qed.
Lemma scaled_order a b r s : rep32 a r -> rep32 b s -> 1 / 4 <= r -> r <= s -> s <= 49 -> (scaled_error a <= scaled_error b)%Z.
Proof.
  intros Ha Hb H1 H2 H3. destruct (scaled_mono a b r s Ha Hb H1 H2 H3) as (u & v & Hu & Hv & L & LE).
  apply (rep32_order _ _ _ _ Hu Hv); lra.
Qed.

Lemma rep32_unique a b r : rep32 a r -> rep32 b r -> 0 < r -> a = b.
Proof. intros Ha Hb Hr. apply Z.le_antisymm; apply (rep32_order _ _ r r); auto; lra. Qed.
Definition f_quarter : f32 := 1048576000%Z.
Definition f_49 : f32 := 1111752704%Z.
Lemma rep_fquarter : rep32 f_quarter (1 / 4).
Proof.
  replace (1 / 4) with (F2R (Float radix2 (cond_Zopp false (Z.pos 8388608)) (-25))) by (unfold F2R; cbn; lra). apply rep32_finite; reflexivity.
Qed.
Lemma rep_f49 : rep32 f_49 49.
Proof.
  replace 49 with (F2R (Float radix2 (cond_Zopp false (Z.pos 12845056)) (-18))) by (unfold F2R; cbn; lra). apply rep32_finite; reflexivity.
Qed.

(** The quotient lies between 1 and 7, whatever the division gives. *)
Lemma clamp_range v : (d_nan v = true \/ (exists s, v = S754_infinity s) \/ exists r, rep64 v r) ->
  exists q, rep64 (dmax (d_of_Z 1) (dmin (d_of_Z 7) v)) q /\ 1 <= q <= 7.
Proof.
  assert (R1 : rep64 (d_of_Z 1) 1) by (rewrite <- (rnd64_int 1) by lia; apply rep64_Z; apply small; lra).
  assert (R7 : rep64 (d_of_Z 7) 7) by (rewrite <- (rnd64_int 7) by lia; apply rep64_Z; apply small; lra).
  intros [H|[[s ->]|[r H]]].
  - destruct v; try discriminate. exists 7. split; [|lra]. exact R7.
  - destruct s; [exists 1; split; [exact R1|lra]|exists 7; split; [exact R7|lra]].
  - assert (N1 : d_nan (d_of_Z 1) = false) by reflexivity. assert (N7 : d_nan (d_of_Z 7) = false) by reflexivity.
    assert (Nv : d_nan v = false) by (destruct H as (b & -> & F & _); destruct b; [reflexivity|reflexivity|discriminate F|reflexivity]).
    unfold dmin. rewrite N7, Nv, (rep64_ltb _ _ _ _ H R7).
    assert (K : forall w s, d_nan w = false -> rep64 w s -> s <= 7 -> exists q, rep64 (dmax (d_of_Z 1) w) q /\ 1 <= q <= 7).
    { intros w s Nw Hw Hs. unfold dmax. rewrite N1, Nw, (rep64_ltb _ _ _ _ R1 Hw). destruct (Rlt_bool_spec 1 s); eexists; split; eauto; lra. }
    destruct (Rlt_bool_spec r 7); eapply K; eauto; lra.
Qed.
Lemma widen_cases (b : float) : let v := d_of_f (bits_of_sf (B2SF b)) in d_nan v = true \/ (exists s, v = S754_infinity s) \/ exists r, rep64 v r.
Proof.
  intros v. assert (E : is_finite b = true -> exists r, rep64 v r) by (intros F; eexists; apply rep64_widen; exists b; repeat split; exact F).
  unfold v, d_of_f in *. rewrite sf_bits in *. destruct b; cbn [B2SF] in *; eauto.
Qed.

Lemma quotient_range c (b : float) : exists q,
  rep32 (if c : bool then f_of_Z 7 else f_of_d (dmax (d_of_Z 1) (dmin (d_of_Z 7) (d_of_f (bits_of_sf (B2SF b)))))) q /\ 1 <= q <= 7.
Proof.
  destruct c.
  - exists 7. split; [|lra]. rewrite <- (rnd32_int 7) by lia. apply rep32_Z. apply small. lra.
  - destruct (clamp_range _ (widen_cases b)) as (q & Hq & B). exists (rnd32 q). split; [apply rep32_narrow; [exact Hq|apply small; lra]|].
    now apply (in32 1 7 q (rnd32_int 1 ltac:(lia)) (rnd32_int 7 ltac:(lia))).
Qed.

(** The last statements of the function, on any quotient between 1 and 7. *)
Lemma final_zero q r : rep32 q r -> 1 <= r <= 7 -> scaled_error (weighted q f32_zero) = lowest.
Proof.
  intros Hq Hr. replace (weighted q f32_zero) with f_quarter by (eapply rep32_unique; [apply rep_fquarter|eapply weighted_zero; eauto|lra]).
  vm_compute. reflexivity.
Qed.
Lemma final_one q r : rep32 q r -> 1 <= r <= 7 -> (half_ <= scaled_error (weighted q f32_one) <= highest)%Z.
Proof.
  intros Hq Hr. destruct (weighted_one q r Hq Hr) as (e & He & B).
  replace half_ with (scaled_error f32_one) by (vm_compute; reflexivity). replace highest with (scaled_error f_49) by (vm_compute; reflexivity).
  split; [apply (scaled_order _ _ 1 e)|apply (scaled_order _ _ e 49)]; auto using rep_one, rep_f49; lra.
Qed.
Lemma of_Z_float n : exists d : float, f_of_Z n = bits_of_sf (B2SF d).
Proof. eexists. unfold f_of_Z. rewrite binary_normalize_equiv. reflexivity. Qed.
Lemma div_float a b c : exists d : float, fdiv (f_of_Z a) (fsub (f_of_Z b) (f_of_Z c)) = bits_of_sf (B2SF d).
Proof.
  destruct (of_Z_float a) as [x ->], (of_Z_float b) as [y ->], (of_Z_float c) as [z ->]. rewrite fsub_bits, fdiv_bits. eauto.
Qed.

(** ** Scaled coordinates *)
Lemma pow2_rnd j : (0 <= j <= 120)%Z -> rnd32 (IZR (2 ^ j)) = IZR (2 ^ j) /\ rnd64 (IZR (2 ^ j)) = IZR (2 ^ j) /\ IZR (2 ^ j) < bpow radix2 128.
Proof.
  intros Hj. change 2%Z with (radix_val radix2). rewrite IZR_Zpower by lia. repeat split.
  - apply (rnd32_const 1 j); [lia|lia|lra].
  - apply (rnd64_const 1 j); [lia|lia|lra].
  - apply bpow_lt. lia.
Qed.
Lemma scaled_floor full size v k j : (0 <= v < 2 ^ 24)%Z -> (0 <= size < 2 ^ 24)%Z -> (1 <= full < 2 ^ 24)%Z ->
  (v * size <= 2 ^ k)%Z -> (2 ^ k <= full * 2 ^ j)%Z -> (0 <= k <= 60)%Z -> (0 <= j <= 30)%Z ->
  exists n, scaled full size v = Ok n /\ n = Zfloor (rnd64 (rnd32 (IZR (v * size)) / IZR full)) /\ (0 <= n <= 2 ^ j)%Z.
Proof.
  intros Hv Hs Hf H1 H2 Hk Hj. unfold scaled.
  assert (Z24 : forall n, (0 <= n < 2 ^ 24)%Z -> rep32 (f_of_Z n) (IZR n)).
  { intros n Hn. rewrite <- (rnd32_int n) by lia. apply rep32_Z. rewrite (rnd32_int n) by lia. rewrite Rabs_right by (apply Rle_ge, IZR_le; lia).
    apply big_bpow. apply IZR_le. apply Z.le_trans with (2 ^ 24)%Z; [lia|]. now vm_compute. }
  destruct (pow2_rnd k ltac:(lia)) as (K1 & K2 & K3). destruct (pow2_rnd j ltac:(lia)) as (J1 & J2 & J3).
  assert (P0 : 0 <= IZR (v * size) <= IZR (2 ^ k)) by (split; apply IZR_le; nia).
  pose proof (in32 0 _ _ (rnd32_int 0 ltac:(lia)) K1 P0) as P1.
  assert (M := rep32_mul _ _ _ _ (Z24 _ Hv) (Z24 _ Hs)). rewrite <- mult_IZR in M.
  assert (M' := M ltac:(rewrite Rabs_right by lra; lra)). clear M. apply rep64_widen in M'.
  set (p := rnd32 (IZR (v * size))) in *.
  assert (F : rep64 (d_of_Z full) (IZR full)).
  { rewrite <- (rnd64_int full) by lia. apply rep64_Z. rewrite (rnd64_int full) by lia. rewrite Rabs_right by (apply Rle_ge, IZR_le; lia).
    apply Rlt_trans with (bpow radix2 128); [|apply bpow_lt; lia]. apply big_bpow, IZR_le. apply Z.le_trans with (2 ^ 24)%Z; [lia|]. now vm_compute. }
  assert (F0 : 0 < IZR full) by (apply IZR_lt; lia).
  assert (Q0 : 0 <= p / IZR full <= IZR (2 ^ j)).
  { split; [apply Rmult_le_pos; [lra|apply Rlt_le, Rinv_0_lt_compat, F0]|].
    apply Rmult_le_reg_r with (IZR full); [exact F0|]. unfold Rdiv. rewrite Rmult_assoc, Rinv_l, Rmult_1_r by lra.
    apply Rle_trans with (IZR (2 ^ k)); [lra|]. rewrite <- mult_IZR. apply IZR_le. lia. }
  pose proof (in64 0 _ _ (rnd64_int 0 ltac:(lia)) J2 Q0) as Q1.
  assert (D := rep64_div _ _ _ _ M' F ltac:(lra)). set (q := rnd64 (p / IZR full)) in *.
  assert (D' : rep64 (ddiv (d_of_f (fmul (f_of_Z v) (f_of_Z size))) (d_of_Z full)) q).
  { apply D. rewrite Rabs_right by lra. apply Rlt_trans with (bpow radix2 128); [lra|apply bpow_lt; lia]. }
  exists (Zfloor q). unfold d_to_int. rewrite (rep64_trunc _ _ D'). rewrite Ztrunc_floor by lra.
  assert (B : (0 <= Zfloor q <= 2 ^ j)%Z).
  { split; [apply Zfloor_lub; lra|]. rewrite <- (Zfloor_IZR (2 ^ j)). apply Zfloor_le. lra. }
  assert (J : (2 ^ j <= 2 ^ 30)%Z) by (apply Z.pow_le_mono_r; lia).
  replace ((- 2 ^ 31 <=? Zfloor q) && (Zfloor q <? 2 ^ 31))%Z with true; [auto|]. symmetry. apply andb_true_iff. split; [apply Z.leb_le|apply Z.ltb_lt]; lia.
Qed.

Lemma one_of (c : bool) : exists v, (if c then f32_zero else f32_one) = v /\ (v = f32_zero \/ v = f32_one).
Proof. destruct c; eauto. Qed.
Lemma int_ok z : (- 2 ^ 31 <= z < 2 ^ 31)%Z -> int_ z = Ok z.
Proof.
  intros H. unfold int_, int_range. replace ((-2147483648 <=? z) && (z <=? 2147483647))%Z with true; [reflexivity|].
  symmetry. apply andb_true_iff. split; apply Z.leb_le; lia.
Qed.

(** Every run: the shape of the result. *)
Lemma localized_shape x y w h r : localized_error x y w h = Ok r ->
  exists q v h190, rep32 q v /\ 1 <= v <= 7 /\ scaled 370 h 190 = Ok h190 /\
    (r = scaled_error (weighted q f32_zero) \/ ((to_uint h190 < y)%Z /\ r = scaled_error (weighted q f32_one))).
Proof.
  unfold localized_error. intros H.
  destruct (scaled 1226 w 613) as [middle| |]; [|discriminate..]. cbn [bind] in H.
  destruct (int_ (middle - to_int x)) as [difference| |]; [|discriminate..]. cbn [bind] in H.
  destruct (int_ (Z.abs difference)) as [idistance| |]; [|discriminate..]. cbn [bind] in H.
  destruct (scaled 1226 w idistance) as [distance| |]; [|discriminate..]. cbn [bind] in H.
  destruct (scaled 370 h 140) as [h140| |]; [|discriminate..]. cbn [bind] in H.
  destruct (int_ (to_int y - h140)) as [below| |]; [|discriminate..]. cbn [bind] in H.
  destruct (int_ (3 * below)) as [limit| |]; [|discriminate..]. cbn [bind] in H.
  destruct (scaled 370 h 190) as [h190| |]; [|discriminate..]. cbn [bind] in H.
  destruct (scaled 370 h 170) as [h170| |]; [|discriminate..]. cbn [bind] in H.
  destruct (scaled 370 h 200) as [h200| |]; [|discriminate..]. cbn [bind] in H.
  destruct (div_float h200 y h170) as [d E]. rewrite E in H. clear E.
  destruct (quotient_range (y <=? to_uint h170)%Z d) as (v & Hv & B).
  exists (if (y <=? to_uint h170)%Z then f_of_Z 7 else f_of_d (dmax (d_of_Z 1) (dmin (d_of_Z 7) (d_of_f (bits_of_sf (B2SF d)))))), v, h190.
  split; [exact Hv|]. split; [exact B|]. split; [reflexivity|].
  assert (E0 : fmul f32_zero f32_zero = f32_zero) by (vm_compute; reflexivity). assert (E1 : fmul f32_zero f32_one = f32_zero) by (vm_compute; reflexivity).
  assert (E2 : fmul f32_one f32_zero = f32_zero) by (vm_compute; reflexivity). assert (E3 : fmul f32_one f32_one = f32_one) by (vm_compute; reflexivity).
  destruct (Z.ltb_spec (to_uint h190) y) as [L|L]; destruct (limit <? distance)%Z; rewrite ?E0, ?E1, ?E2, ?E3 in H; injection H as <-; auto.
Qed.

(** Whatever the pixel and the image size, the result is the least weight 0.51 * 0.25 or lies between 0.51 and 0.51 * 49 (rounded to floats). *)
Theorem C55_bounds x y w h r : localized_error x y w h = Ok r -> (r = lowest \/ half_ <= r <= highest)%Z.
Proof.
  intros H. destruct (localized_shape _ _ _ _ _ H) as (q & v & h190 & Hq & B & _ & [-> |[_ ->]]); [left|right].
  - now apply final_zero with v.
  - now apply final_one with v.
Qed.
Theorem C55_values x y w h r : localized_error x y w h = Ok r ->
  exists v, rep32 r v /\ 51 / 100 * (1 / 4) - 1 / 10 ^ 8 <= v <= 51 / 100 * 49 + 1 / 10 ^ 6.
Proof.
  intros H. destruct (localized_shape _ _ _ _ _ H) as (q & v & h190 & Hq & B & _ & C).
  assert (B1 : v_lowest <= v_half <= v_highest) by (unfold v_lowest, v_half, v_highest; cbn; lra).
  assert (B2 : 51 / 100 * (1 / 4) - 1 / 10 ^ 8 <= v_lowest) by (unfold v_lowest; cbn; lra).
  assert (B3 : v_highest <= 51 / 100 * 49 + 1 / 10 ^ 6) by (unfold v_highest; cbn; lra).
  assert (B4 : 0 < v_lowest) by (unfold v_lowest; cbn; lra).
  destruct C as [-> |[_ ->]].
  - exists v_lowest. rewrite (final_zero q v Hq B). split; [apply rep_lowest|lra].
  - destruct (weighted_one q v Hq B) as (e & He & Be).
    destruct (scaled_mono _ _ e 49 He rep_f49 ltac:(lra) ltac:(lra) ltac:(lra)) as (u & t & Hu & _ & Lu & _).
    exists u. split; [exact Hu|]. pose proof (final_one q v Hq B) as [F1 F2].
    apply (rep32_order _ _ _ _ rep_half Hu) in F1; [|lra|lra]. apply (rep32_order _ _ _ _ Hu rep_highest) in F2; lra.
Qed.

(** The weight of every pixel of an image of at most 2^20 by 2^20 pixels is defined. *)
Theorem C55_defined x y w h : (0 <= x < w)%Z -> (0 <= y < h)%Z -> (w <= 2 ^ 20)%Z -> (h <= 2 ^ 20)%Z -> exists r, localized_error x y w h = Ok r.
Proof.
  intros Hx Hy Hw Hh. unfold localized_error.
  destruct (scaled_floor 1226 w 613 30 20) as (middle & -> & _ & Bm); [lia..|]. cbn [bind].
  replace (to_int x) with x by (unfold to_int; destruct (Z.ltb_spec x (2 ^ 31)); lia).
  replace (to_int y) with y by (unfold to_int; destruct (Z.ltb_spec y (2 ^ 31)); lia).
  rewrite int_ok by lia. cbn [bind]. rewrite int_ok by lia. cbn [bind].
  destruct (scaled_floor 1226 w (Z.abs (middle - x)) 40 30) as (distance & -> & _ & Bd); [lia|lia|lia|nia|lia..|]. cbn [bind].
  destruct (scaled_floor 370 h 140 28 20) as (h140 & -> & _ & B140); [lia..|]. cbn [bind].
  rewrite int_ok by lia. cbn [bind]. rewrite int_ok by lia. cbn [bind].
  destruct (scaled_floor 370 h 190 28 20) as (h190 & -> & _ & B190); [lia..|]. cbn [bind].
  destruct (scaled_floor 370 h 170 28 20) as (h170 & -> & _ & B170); [lia..|]. cbn [bind].
  destruct (scaled_floor 370 h 200 28 20) as (h200 & -> & _ & B200); [lia..|]. cbn [bind]. eauto.
Qed.

(** Rows in the upper 190/370 of the image have the least weight. *)
Theorem C55_upper_rows x y w h r : (0 <= y < h)%Z -> (h <= 2 ^ 16)%Z -> (370 * y <= 190 * h)%Z -> localized_error x y w h = Ok r -> r = lowest.
Proof.
  intros Hy Hh Hr H. destruct (localized_shape _ _ _ _ _ H) as (q & v & h190 & Hq & B & E & [-> |[L _]]); [now apply final_zero with v|].
  exfalso. destruct (scaled_floor 370 h 190 28 20) as (n & E' & En & Bn); [lia..|]. rewrite E' in E. injection E as <-.
  rewrite rnd32_int in En by lia.
  assert (Hn : (y <= n)%Z).
  { rewrite En. apply Zfloor_lub. rewrite <- (rnd64_int y) by lia. apply rnd64_le. apply Rmult_le_reg_r with (IZR 370); [lra|].
    unfold Rdiv. rewrite Rmult_assoc, Rinv_l, Rmult_1_r by lra. rewrite <- mult_IZR. apply IZR_le. lia. }
  unfold to_uint in L. rewrite Z.mod_small in L by lia. lia.
Qed.

(** Scaling is integer division as long as the product is exact in a float. *)
Lemma scaled_exact full size v : (0 <= v < 2 ^ 24)%Z -> (0 <= size < 2 ^ 24)%Z -> (0 < full < 2 ^ 11)%Z -> (v * size < 2 ^ 24)%Z ->
  scaled full size v = Ok (v * size / full)%Z.
Proof.
  intros Hv Hs Hf Hp. destruct (scaled_floor full size v 24 24) as (n & -> & -> & _); [lia..|]. f_equal. rewrite rnd32_int by lia.
  set (p := (v * size)%Z) in *. set (n := (p / full)%Z). assert (P0 : (0 <= p)%Z) by (unfold p; nia).
  pose proof (Z.div_mod p full ltac:(lia)) as DM. pose proof (Z.mod_pos_bound p full ltac:(lia)) as MB. fold n in DM.
  assert (N0 : (0 <= n < 2 ^ 24)%Z) by (split; [apply Z.div_pos; lia|nia]).
  assert (F0 : 0 < IZR full) by (apply IZR_lt; lia).
  assert (U : p = (full * n + p mod full)%Z) by exact DM.
  apply Zfloor_imp. split.
  - rewrite <- (rnd64_int n) by lia. apply rnd64_le. apply Rmult_le_reg_r with (IZR full); [exact F0|].
    unfold Rdiv. rewrite Rmult_assoc, Rinv_l, Rmult_1_r by lra. rewrite <- mult_IZR. apply IZR_le. nia.
  - set (t := IZR (n * 2048 + 2047) * bpow radix2 (-11)).
    assert (T : rnd64 t = t) by (apply rnd64_dyadic; lia).
    apply Rle_lt_trans with t.
    + rewrite <- T. apply rnd64_le. apply Rmult_le_reg_r with (IZR full); [exact F0|].
      unfold Rdiv. rewrite Rmult_assoc, Rinv_l, Rmult_1_r by lra. unfold t. cbn [bpow]. apply Rmult_le_reg_r with 2048; [lra|].
      replace (IZR (n * 2048 + 2047) * / IZR (Z.pow_pos radix2 11) * IZR full * 2048) with (IZR (n * 2048 + 2047) * IZR full) by (cbn; field).
      rewrite <- !mult_IZR. apply IZR_le. nia.
    + unfold t. rewrite plus_IZR, mult_IZR, plus_IZR. cbn. lra.
Qed.

(** The pixels with a higher weight: below the horizon and inside the triangle in front of the car. *)
Definition beside (x y w h : Z) : Prop := (3 * (y - 140 * h / 370) < Z.abs (w / 2 - x) * w / 1226)%Z.
Theorem C55_region x y w h r : (0 <= x < w)%Z -> (0 <= y < h)%Z -> (w <= 4096)%Z -> (h <= 2 ^ 16)%Z -> localized_error x y w h = Ok r ->
  ((y <= 190 * h / 370)%Z \/ beside x y w h -> r = lowest) /\
  ((190 * h / 370 < y)%Z -> ~ beside x y w h -> (half_ <= r <= highest)%Z).
Proof.
  intros Hx Hy Hw Hh. unfold localized_error, beside.
  assert (Ew : (613 * w / 1226 = w / 2)%Z) by (replace (613 * w)%Z with (w * 613)%Z by ring; apply (Z.div_mul_cancel_r w 2 613); lia).
  rewrite (scaled_exact 1226 w 613), Ew by lia. cbn [bind].
  assert (W2 : (0 <= w / 2 <= 2048)%Z) by (split; [apply Z.div_pos; lia|apply Z.div_le_upper_bound; lia]).
  replace (to_int x) with x by (unfold to_int; destruct (Z.ltb_spec x (2 ^ 31)); lia).
  replace (to_int y) with y by (unfold to_int; destruct (Z.ltb_spec y (2 ^ 31)); lia).
  rewrite int_ok by lia. cbn [bind]. rewrite int_ok by lia. cbn [bind].
  rewrite (scaled_exact 1226 w (Z.abs (w / 2 - x))) by nia. cbn [bind].
  rewrite (scaled_exact 370 h 140) by lia. cbn [bind].
  assert (H1 : (0 <= 140 * h / 370 <= 2 ^ 20)%Z) by (split; [apply Z.div_pos; lia|apply Z.div_le_upper_bound; lia]).
  assert (H2 : (0 <= 190 * h / 370 <= 2 ^ 20)%Z) by (split; [apply Z.div_pos; lia|apply Z.div_le_upper_bound; lia]).
  rewrite int_ok by lia. cbn [bind]. rewrite int_ok by lia. cbn [bind].
  rewrite (scaled_exact 370 h 190), (scaled_exact 370 h 170), (scaled_exact 370 h 200) by lia. cbn [bind].
  set (d := (Z.abs (w / 2 - x) * w / 1226)%Z). set (h140 := (140 * h / 370)%Z) in *. set (h190 := (190 * h / 370)%Z) in *.
  destruct (div_float (200 * h / 370) y (170 * h / 370)) as [b ->].
  destruct (quotient_range (y <=? to_uint (170 * h / 370))%Z b) as (v & Hv & B).
  set (q := if (y <=? to_uint (170 * h / 370))%Z then _ else _) in *. clearbody q.
  replace (to_uint h190) with h190 by (unfold to_uint; rewrite Z.mod_small; lia).
  assert (E0 : fmul f32_zero f32_zero = f32_zero) by (vm_compute; reflexivity). assert (E1 : fmul f32_zero f32_one = f32_zero) by (vm_compute; reflexivity).
  assert (E2 : fmul f32_one f32_zero = f32_zero) by (vm_compute; reflexivity). assert (E3 : fmul f32_one f32_one = f32_one) by (vm_compute; reflexivity).
  pose proof (final_zero q v Hv B) as FZ. pose proof (final_one q v Hv B) as FO.
  destruct (Z.ltb_spec h190 y) as [L|L]; destruct (Z.ltb_spec (3 * (y - h140)) d) as [M|M]; rewrite ?E0, ?E1, ?E2, ?E3; intros H; injection H as <-; split; auto; lia.
Qed.

(** The computation is undefined for very wide images: WSC(613) exceeds int. *)
Theorem C55_wide_refuted : exists x y w h, (0 <= x < w)%Z /\ (0 <= y < h)%Z /\ (w < 2 ^ 32)%Z /\ (h < 2 ^ 32)%Z /\ localized_error x y w h = UB.
Proof. exists 0%Z, 0%Z, 4294967295%Z, 10%Z. vm_compute. repeat split; auto; discriminate. Qed.

Print Assumptions C55_bounds.
Print Assumptions C55_values.
Print Assumptions C55_defined.
Print Assumptions C55_upper_rows.
Print Assumptions C55_region.
Print Assumptions C55_wide_refuted.

(** A KITTI picture has 1226 * 370 pixels: a pixel in front of the car, one further away, one at the top. *)
Example C55_ex1 : localized_error 613 191 1226 370 = Ok highest.
Proof. vm_compute. reflexivity. Qed.
Example C55_ex2 : localized_error 613 369 1226 370 = Ok 1057218591%Z /\ (half_ < 1057218591 < highest)%Z.
Proof. vm_compute. auto. Qed.
Example C55_ex3 : localized_error 0 0 1226 370 = Ok lowest.
Proof. vm_compute. reflexivity. Qed.
(** Beside the triangle the weight is the least one, below the upper rows too. *)
Example C55_ex4 : localized_error 0 200 1226 370 = Ok lowest /\ localized_error 613 200 1226 370 <> Ok lowest.
Proof. vm_compute. split; [reflexivity|discriminate]. Qed.

(** C33 (continued): labels of lists with a single class. *)
From Coq Require Import ZArith Bool Lia Reals Lra Psatz Floats.SpecFloat.
From Flocq Require Import Core.Core IEEE754.BinarySingleNaN Relative.
From Verif Require Import Base BaseFacts Float32 FloatOps FloatOps_Flocq Float64 Float64_Flocq FloatNonneg Tensor_Model Tensor_Spec Tensor_Proofs DatasetInput_Proofs
  Pixel_Model Pixel_Proofs List_Model List_Props Single_Model Raw_Props.
Local Open Scope R_scope.
#[local] Existing Instance Hprec.
#[local] Existing Instance Hmax.
#[local] Existing Instance Hprec64.
#[local] Existing Instance Hmax64.

(** ** Square roots *)
Lemma rep32_sqrt a r : rep32 a r -> 0 <= r -> rep32 (fsqrt a) (rnd32 (sqrt r)).
Proof.
  intros (x & -> & F & <-) P. exists (Bsqrt mode_NE x). destruct (Bsqrt_correct 24 128 Hprec Hmax mode_NE x) as (V & Fi & _).
  assert (E : SFsqrt 24 128 (B2SF x) = B2SF (Bsqrt mode_NE x)).
  { destruct x as [sx|sx| |sx mx ex Bx]; try (now (trivial || case sx)). destruct sx; [reflexivity|]. simpl. rewrite B2SF_SF2B.
    set (melz := SFsqrt_core_binary _ _ _ _). case melz as [[mz ez] lz]. apply binary_round_aux_equiv. }
  split; [unfold fsqrt; now rewrite sf_bits, E|]. split; [|exact V]. rewrite Fi. destruct x as [sx|sx| |sx mx ex Bx]; try discriminate; [reflexivity|].
  destruct sx; [|reflexivity]. exfalso. cbn [B2R] in P. assert (F2R (Float radix2 (cond_Zopp true (Z.pos mx)) ex) < 0) by (apply F2R_lt_0; reflexivity). lra.
Qed.

(** ** Rounding errors *)
Lemma rnd32_rel x : x = 0 \/ bpow radix2 (-126) <= Rabs x -> Rabs (rnd32 x - x) <= / 16777216 * Rabs x.
Proof.
  intros [-> |H].
  - rewrite Rabs_R0, Rmult_0_r. pose proof (rnd32_int 0 ltac:(lia)) as E. change (IZR 0) with 0 in E. rewrite E, Rminus_0_r, Rabs_R0. lra.
  - destruct (relative_error_N_FLT_ex radix2 (-149) 24 ltac:(lia) (fun x => negb (Z.even x)) x H) as (eps & He & E). change (round radix2 (FLT_exp (-149) 24) ZnearestE x) with (rnd32 x) in E. rewrite E.
    replace (x * (1 + eps) - x) with (eps * x) by lra. rewrite Rabs_mult. apply Rmult_le_compat_r; [apply Rabs_pos|].
    change (bpow radix2 (- (24) + 1)) with (/ IZR 8388608) in He. lra.
Qed.
Lemma rnd64_error x k : (-100 <= k <= 120)%Z -> Rabs x <= bpow radix2 k -> Rabs (rnd64 x - x) <= bpow radix2 (k - 53).
Proof.
  intros K H. assert (V : Valid_exp (SpecFloat.fexp 53 1024)) by (apply fexp_correct; exact Hprec64). assert (M : Monotone_exp (SpecFloat.fexp 53 1024)) by apply fexp_monotone.
  eapply Rle_trans; [apply (error_le_half_ulp radix2 (SpecFloat.fexp 53 1024) (fun x => negb (Z.even x)))|].
  apply Rle_trans with (/ 2 * ulp radix2 (SpecFloat.fexp 53 1024) (bpow radix2 k)).
  - apply Rmult_le_compat_l; [lra|]. apply ulp_le; auto. rewrite (Rabs_pos_eq (bpow radix2 k)) by apply bpow_ge_0. exact H.
  - rewrite ulp_bpow. unfold SpecFloat.fexp, SpecFloat.emin. replace (Z.max (k + 1 - 53) (3 - 1024 - 53)) with (k - 53 + 1)%Z by lia. rewrite bpow_plus. change (bpow radix2 1) with 2. lra.
Qed.
Lemma below_max64 x : Rabs x <= 4 -> Rabs (rnd64 x) < bpow radix2 1024.
Proof.
  intros H. pose proof (rnd64_error x 2 ltac:(lia) H) as E. assert (Rabs (rnd64 x) <= 5).
  { replace (rnd64 x) with ((rnd64 x - x) + x) by lra. eapply Rle_trans; [apply Rabs_triang|]. assert (bpow radix2 (2 - 53) <= 1) by (change 1 with (bpow radix2 0); apply bpow_le; lia). lra. }
  apply Rle_lt_trans with 8; [lra|]. change 8 with (bpow radix2 3). apply bpow_lt. lia.
Qed.

(** ** One channel *)
Definition dist (n c : Z) : R := IZR (n - c) / 255.
Lemma bpow_m18 : bpow radix2 (-18) = / 262144. Proof. reflexivity. Qed.
Lemma bpow_m9 : bpow radix2 (-9) = / 512. Proof. reflexivity. Qed.

Lemma big_enough x : / 1000000 <= Rabs x -> bpow radix2 (-126) <= Rabs x.
Proof. intros H. apply Rle_trans with (bpow radix2 (-20)); [apply bpow_le; lia|]. change (bpow radix2 (-20)) with (/ 1048576). lra. Qed.
Lemma small_max r : Rabs r <= 100 -> Rabs r <= bpow radix2 127.
Proof. intros H. apply Rle_trans with (bpow radix2 7); [change (bpow radix2 7) with 128; lra|apply bpow_le; lia]. Qed.

Lemma square_channel n c : (0 <= n < 256)%Z -> (0 <= c < 256)%Z ->
  exists e q, rep32 (fmul (fsub (datum_from_uchar n) (datum_from_uchar c)) (fsub (datum_from_uchar n) (datum_from_uchar c))) q /\
    Rabs (e - dist n c) <= 3 / 10 ^ 6 /\ Rabs e <= 1.1 /\ (1 - / 16777216) * (e * e) <= q <= (1 + / 16777216) * (e * e) /\
    (n = c /\ q = 0 /\ e = 0 \/ n <> c /\ / 300000 <= q).
Proof.
  intros Hn Hc. destruct (C52_uchar n Hn) as (x & Rx & Ex). destruct (C52_uchar c Hc) as (y & Ry & Ey).
  apply Rabs_le_inv in Ex, Ey. assert (E6 : / 10 ^ 6 = / 1000000) by (f_equal; lra). rewrite E6 in *.
  assert (Bn : 0 <= IZR n <= 255) by (split; apply IZR_le; lia). assert (Bc : 0 <= IZR c <= 255) by (split; apply IZR_le; lia).
  set (e := rnd32 (x - y)).
  assert (Re : rep32 (fsub (datum_from_uchar n) (datum_from_uchar c)) e) by (apply rep32_sub; auto; apply small_max, Rabs_le; lra).
  assert (Er : Rabs (e - (x - y)) <= / 8388608).
  { eapply Rle_trans; [apply (rnd32_error (x - y) 1); [lia|apply Rabs_le; change (bpow radix2 1) with 2; lra]|]. change (bpow radix2 (1 - 24)) with (/ 8388608). lra. }
  apply Rabs_le_inv in Er.
  assert (Ed : Rabs (e - dist n c) <= 3 / 10 ^ 6).
  { unfold dist. rewrite minus_IZR. replace (3 / 10 ^ 6) with (3 / 1000000) by lra. apply Rabs_le. lra. }
  assert (Ee : Rabs e <= 1.1) by (apply Rabs_le; lra).
  assert (Es : Rabs (e * e) <= 2).
  { rewrite Rabs_mult. pose proof (Rabs_pos e). nra. }
  assert (Rq : rep32 (fmul (fsub (datum_from_uchar n) (datum_from_uchar c)) (fsub (datum_from_uchar n) (datum_from_uchar c))) (rnd32 (e * e))).
  { apply rep32_mul'; auto. apply small_max. lra. }
  exists e, (rnd32 (e * e)). split; [exact Rq|]. split; [exact Ed|]. split; [exact Ee|].
  assert (P : 0 <= e * e) by nra.
  destruct (Z.eq_dec n c) as [->|D].
  - assert (x = y) as ->.
    { destruct Rx as (b1 & B1 & F1 & <-), Ry as (b2 & B2 & F2 & <-). rewrite B1 in B2. apply (f_equal sf_of_bits) in B2. rewrite !sf_bits in B2. now rewrite (B2SF_inj _ _ b1 b2 B2). }
    assert (e = 0) as ->.
    { unfold e. rewrite Rminus_diag_eq by reflexivity. exact (rnd32_int 0 ltac:(lia)). }
    rewrite Rmult_0_l. assert (Z0 : rnd32 0 = 0) by exact (rnd32_int 0 ltac:(lia)). rewrite Z0. split; [lra|]. left. auto.
  - assert (A : / 400 <= Rabs e).
    { assert (Dx : IZR n - IZR c <= -1 \/ 1 <= IZR n - IZR c) by (rewrite <- minus_IZR; destruct (Z_lt_le_dec n c); [left|right]; apply IZR_le; lia).
      unfold Rabs. destruct (Rcase_abs e); lra. }
    assert (S : / 160000 <= e * e) by (rewrite <- (Rabs_pos_eq (e * e)), Rabs_mult by assumption; nra).
    pose proof (rnd32_rel (e * e)) as Q. rewrite (Rabs_pos_eq (e * e)) in Q by assumption.
    assert (Q' : Rabs (rnd32 (e * e) - e * e) <= / 16777216 * (e * e)).
    { apply Q. right. rewrite <- (Rabs_pos_eq (e * e)) by assumption. apply big_enough. rewrite Rabs_pos_eq by assumption. lra. }
    apply Rabs_le_inv in Q'. split; [lra|]. right. split; [exact D|]. lra.
Qed.

(** ** The root *)
Lemma root_close s t : 0 <= t -> (1 - / 4194304) * t <= s <= (1 + / 4194304) * t -> t <= 4 -> Rabs (sqrt s - sqrt t) <= / 10 ^ 6.
Proof.
  intros P [L U] B. assert (Pt : 0 <= sqrt t <= 2).
  { split; [apply sqrt_pos|]. rewrite <- (sqrt_square 2) by lra. apply sqrt_le_1_alt. lra. }
  assert (Q : sqrt t * sqrt t = t) by (apply sqrt_sqrt; lra).
  assert (A : sqrt s <= (1 + / 4194304) * sqrt t).
  { rewrite <- (sqrt_square ((1 + / 4194304) * sqrt t)) by nra. apply sqrt_le_1_alt. replace ((1 + / 4194304) * sqrt t * ((1 + / 4194304) * sqrt t)) with ((1 + / 4194304) * ((1 + / 4194304) * t)) by (rewrite <- Q at 1; ring). nra. }
  assert (A' : (1 - / 4194304) * sqrt t <= sqrt s).
  { rewrite <- (sqrt_square ((1 - / 4194304) * sqrt t)) by nra. apply sqrt_le_1_alt. replace ((1 - / 4194304) * sqrt t * ((1 - / 4194304) * sqrt t)) with ((1 - / 4194304) * ((1 - / 4194304) * t)) by (rewrite <- Q at 1; ring). nra. }
  replace (/ 10 ^ 6) with (/ 1000000) by (f_equal; lra). apply Rabs_le. lra.
Qed.

Lemma abs_le_norm a b c : Rabs a <= sqrt (a * a + b * b + c * c).
Proof. rewrite <- sqrt_Rsqr_abs. apply sqrt_le_1_alt. unfold Rsqr. nra. Qed.

Lemma norm_close a b c x y z k : 0 <= k -> Rabs (a - x) <= k -> Rabs (b - y) <= k -> Rabs (c - z) <= k ->
  Rabs (sqrt (a * a + b * b + c * c) - sqrt (x * x + y * y + z * z)) <= 3 * k.
Proof.
  intros K A B C.
  set (n := sqrt (a * a + b * b + c * c)). set (m := sqrt (x * x + y * y + z * z)).
  assert (Pn : 0 <= n) by apply sqrt_pos. assert (Pm : 0 <= m) by apply sqrt_pos.
  assert (N : n * n = a * a + b * b + c * c) by (apply sqrt_sqrt; nra). assert (M : m * m = x * x + y * y + z * z) by (apply sqrt_sqrt; nra).
  assert (T : forall u v, Rabs (u - v) <= k -> Rabs u <= n -> Rabs v <= m -> Rabs (u * u - v * v) <= k * (n + m)).
  { intros u v Huv Hu Hv. replace (u * u - v * v) with ((u - v) * (u + v)) by ring. rewrite Rabs_mult. apply Rmult_le_compat; try apply Rabs_pos; auto. eapply Rle_trans; [apply Rabs_triang|]. lra. }
  assert (D : Rabs (n * n - m * m) <= 3 * k * (n + m)).
  { rewrite N, M. replace (a * a + b * b + c * c - (x * x + y * y + z * z)) with ((a * a - x * x) + (b * b - y * y) + (c * c - z * z)) by ring.
    assert (T1 : Rabs (a * a - x * x) <= k * (n + m)) by (apply T; auto; apply abs_le_norm).
    assert (T2 : Rabs (b * b - y * y) <= k * (n + m)).
    { apply T; auto; [unfold n; replace (a * a + b * b + c * c) with (b * b + a * a + c * c) by ring|unfold m; replace (x * x + y * y + z * z) with (y * y + x * x + z * z) by ring]; apply abs_le_norm. }
    assert (T3 : Rabs (c * c - z * z) <= k * (n + m)).
    { apply T; auto; [unfold n; replace (a * a + b * b + c * c) with (c * c + b * b + a * a) by ring|unfold m; replace (x * x + y * y + z * z) with (z * z + y * y + x * x) by ring]; apply abs_le_norm. }
    eapply Rle_trans; [apply Rabs_triang|]. eapply Rle_trans; [apply Rplus_le_compat_r, Rabs_triang|]. lra. }
  destruct (Rle_lt_or_eq_dec 0 (n + m)) as [H|H]; [lra| |].
  - replace (n * n - m * m) with ((n - m) * (n + m)) in D by ring. rewrite Rabs_mult, (Rabs_pos_eq (n + m)) in D by lra. apply Rmult_le_reg_r with (n + m); [exact H|]. exact D.
  - replace n with 0 by lra. replace m with 0 by lra. rewrite Rminus_0_r, Rabs_R0. lra.
Qed.

Definition root3 : R := F2R (Float radix2 7800463371553962 (-52)).
Lemma root3_rep : rep64 d_sqrt3 root3.
Proof. exists (@B754_finite 53 1024 false 7800463371553962 (-52) (eq_refl true)). split; [vm_compute; reflexivity|]. split; reflexivity. Qed.
Lemma root3_value : 1.7320508 <= root3 <= 1.7320509.
Proof. unfold root3, F2R. cbn [Fnum Fexp]. change (bpow radix2 (-52)) with (/ IZR 4503599627370496). lra. Qed.
Lemma sqrt3_value : 1.7320508 <= sqrt 3 <= 1.7320509.
Proof.
  split; [rewrite <- (sqrt_square 1.7320508) by lra|rewrite <- (sqrt_square 1.7320509) by lra]; apply sqrt_le_1_alt; lra.
Qed.

(** A colour 0xRRGGBB; the highest byte of the number is ignored. *)
Definition rgb_color (a r g b : Z) : Z := (((a * 256 + r) * 256 + g) * 256 + b)%Z.
Lemma channels a r g b : (0 <= r < 256)%Z -> (0 <= g < 256)%Z -> (0 <= b < 256)%Z ->
  channel (rgb_color a r g b) 0 = r /\ channel (rgb_color a r g b) 1 = g /\ channel (rgb_color a r g b) 2 = b.
Proof.
  intros Hr Hg Hb. unfold channel, rgb_color. change (8 * (2 - Z.of_nat 0))%Z with 16%Z. change (8 * (2 - Z.of_nat 1))%Z with 8%Z. change (8 * (2 - Z.of_nat 2))%Z with 0%Z.
  rewrite !Z.shiftr_div_pow2 by lia. change (2 ^ 16)%Z with 65536%Z. change (2 ^ 8)%Z with 256%Z. change (2 ^ 0)%Z with 1%Z.
  split; [|split]; Z.div_mod_to_equations; lia.
Qed.

(** The colour distance, between 0 and 1, of two 8-bit colours. *)
Definition color_distance (r g b r' g' b' : Z) : R := sqrt (dist r r' * dist r r' + dist g g' * dist g g' + dist b b' * dist b b') / sqrt 3.

(** The label of a pixel of an 8-bit image is 1 - 2 d, where d is the distance between its colour and the colour of the class, up to
    2/100000.  It is exactly 1 for the colour of the class and for no other 8-bit colour. *)
Theorem C33_one_class_value a r g b r' g' b' :
  (0 <= r < 256)%Z -> (0 <= g < 256)%Z -> (0 <= b < 256)%Z -> (0 <= r' < 256)%Z -> (0 <= g' < 256)%Z -> (0 <= b' < 256)%Z ->
  exists v, rep32 (single_class (datum_from_uchar r) (datum_from_uchar g) (datum_from_uchar b) (rgb_color a r' g' b')) v /\
    Rabs (v - (1 - 2 * color_distance r g b r' g' b')) <= 2 / 10 ^ 5 /\ (v = 1 <-> (r, g, b) = (r', g', b')).
Proof.
  intros Hr Hg Hb Hr' Hg' Hb'. unfold single_class. destruct (channels a r' g' b' Hr' Hg' Hb') as (-> & -> & ->). cbv zeta.
  destruct (square_channel r r' Hr Hr') as (e1 & q1 & R1 & D1 & M1 & Q1 & C1).
  destruct (square_channel g g' Hg Hg') as (e2 & q2 & R2 & D2 & M2 & Q2 & C2).
  destruct (square_channel b b' Hb Hb') as (e3 & q3 & R3 & D3 & M3 & Q3 & C3).
  assert (B : forall e, Rabs e <= 1.1 -> 0 <= e * e <= 1.25).
  { intros e H. apply Rabs_le_inv in H. nra. }
  pose proof (B e1 M1) as B1. pose proof (B e2 M2) as B2. pose proof (B e3 M3) as B3. clear B.
  assert (Z0 : rnd32 0 = 0) by exact (rnd32_int 0 ltac:(lia)).
  assert (P1 : q1 = 0 \/ / 300000 <= q1) by (destruct C1 as [(_ & -> & _)|(_ & H)]; auto).
  assert (P2 : q2 = 0 \/ / 300000 <= q2) by (destruct C2 as [(_ & -> & _)|(_ & H)]; auto).
  assert (P3 : q3 = 0 \/ / 300000 <= q3) by (destruct C3 as [(_ & -> & _)|(_ & H)]; auto).
  (* the two sums *)
  set (s1 := rnd32 (q1 + q2)). assert (S1 : (1 - / 16777216) * (q1 + q2) <= s1 <= (1 + / 16777216) * (q1 + q2)).
  { assert (H : Rabs (s1 - (q1 + q2)) <= / 16777216 * Rabs (q1 + q2)).
    { apply rnd32_rel. destruct P1 as [-> |P1], P2 as [-> |P2]; [left; lra| | |]; right; apply big_enough; rewrite Rabs_pos_eq; lra. }
    rewrite (Rabs_pos_eq (q1 + q2)) in H by lra. apply Rabs_le_inv in H. lra. }
  assert (R12 := rep32_add _ _ _ _ R1 R2 ltac:(apply small_max, Rabs_le; lra)). fold s1 in R12.
  set (s2 := rnd32 (s1 + q3)). assert (S2 : (1 - / 16777216) * (s1 + q3) <= s2 <= (1 + / 16777216) * (s1 + q3)).
  { assert (H : Rabs (s2 - (s1 + q3)) <= / 16777216 * Rabs (s1 + q3)).
    { apply rnd32_rel. destruct P1 as [-> |P1], P2 as [-> |P2], P3 as [-> |P3]; [left; lra| | | | | | |]; right; apply big_enough; rewrite Rabs_pos_eq; lra. }
    rewrite (Rabs_pos_eq (s1 + q3)) in H by lra. apply Rabs_le_inv in H. lra. }
  assert (R123 := rep32_add _ _ _ _ R12 R3 ltac:(apply small_max, Rabs_le; lra)). fold s2 in R123.
  (* the root *)
  set (nn_ := e1 * e1 + e2 * e2 + e3 * e3).
  assert (Sn : (1 - / 4194304) * nn_ <= s2 <= (1 + / 4194304) * nn_) by (unfold nn_; lra).
  assert (Rt := root_close s2 nn_ ltac:(unfold nn_; lra) Sn ltac:(unfold nn_; lra)).
  assert (Nc := norm_close e1 e2 e3 _ _ _ (3 / 10 ^ 6) ltac:(lra) D1 D2 D3). fold nn_ in Nc.
  set (d := sqrt (dist r r' * dist r r' + dist g g' * dist g g' + dist b b' * dist b b')) in *.
  assert (Rm := rep32_sqrt _ _ R123 ltac:(lra)). set (m := rnd32 (sqrt s2)) in *.
  assert (Pr : 0 <= sqrt s2 <= 2).
  { split; [apply sqrt_pos|]. rewrite <- (sqrt_square 2) by lra. apply sqrt_le_1_alt. lra. }
  assert (Em : Rabs (m - sqrt s2) <= / 8388608).
  { eapply Rle_trans; [apply (rnd32_error (sqrt s2) 1); [lia|rewrite Rabs_pos_eq by lra; change (bpow radix2 1) with 2; lra]|]. change (bpow radix2 (1 - 24)) with (/ 8388608). lra. }
  assert (Rw := rep64_widen _ _ Rm).
  apply Rabs_le_inv in Rt, Nc, Em. replace (/ 10 ^ 6) with (/ 1000000) in Rt by (f_equal; lra). replace (3 * (3 / 10 ^ 6)) with (9 / 1000000) in Nc by lra.
  assert (Pm : 0 <= m) by (apply rnd32_nonneg; lra). assert (Um : m <= 2.1) by lra.
  (* division *)
  pose proof root3_value as V3. pose proof sqrt3_value as W3.
  assert (Iv : / 1.7320509 <= / root3 <= / 1.7320508) by (split; apply Rinv_le_contravar; lra).
  assert (Iw : / 1.7320509 <= / sqrt 3 <= / 1.7320508) by (split; apply Rinv_le_contravar; lra).
  assert (Qm : 0 <= m / root3 <= 1.3) by (unfold Rdiv; split; [apply Rmult_le_pos; lra|]; apply Rle_trans with (2.1 * / 1.7320508); [apply Rmult_le_compat; lra|lra]).
  assert (R4 := rep64_div _ _ _ _ Rw root3_rep ltac:(lra) ltac:(apply below_max64; rewrite Rabs_pos_eq; lra)). set (c0 := rnd64 (m / root3)) in *.
  assert (F53 : forall x, Rabs x <= 4 -> Rabs (rnd64 x - x) <= / 10000000).
  { intros x H. eapply Rle_trans; [apply (rnd64_error x 2); [lia|exact H]|]. change (bpow radix2 (2 - 53)) with (/ 2251799813685248). lra. }
  assert (F24 : forall x, Rabs x <= 4 -> Rabs (rnd32 x - x) <= / 4000000).
  { intros x H. eapply Rle_trans; [apply (rnd32_error x 2); [lia|exact H]|]. change (bpow radix2 (2 - 24)) with (/ 4194304). lra. }
  assert (E4 := F53 (m / root3) ltac:(rewrite Rabs_pos_eq; lra)). fold c0 in E4. apply Rabs_le_inv in E4.
  assert (R5 := rep32_narrow _ _ R4 ltac:(apply below_max, small_max, Rabs_le; lra)). set (c1 := rnd32 c0) in *.
  assert (E5 := F24 c0 ltac:(apply Rabs_le; lra)). fold c1 in E5. apply Rabs_le_inv in E5.
  assert (R6 := rep64_widen _ _ R5).
  assert (One : rep64 (d_of_Z 1) 1). { pose proof (rep64_Z 1) as H. rewrite (rnd64_int 1) in H by lia. apply H. rewrite Rabs_R1. change 1 with (bpow radix2 0). apply bpow_lt. lia. }
  assert (Two : rep64 (d_of_Z 2) 2). { pose proof (rep64_Z 2) as H. rewrite (rnd64_int 2) in H by lia. apply H. rewrite Rabs_pos_eq by lra. change 2 with (bpow radix2 1). apply bpow_lt. lia. }
  assert (R7 := rep64_mul _ _ _ _ Two R6 ltac:(apply below_max64, Rabs_le; lra)). set (c2 := rnd64 (2 * c1)) in *.
  assert (E7 := F53 (2 * c1) ltac:(apply Rabs_le; lra)). fold c2 in E7. apply Rabs_le_inv in E7.
  assert (R8 := rep64_sub _ _ _ _ One R7 ltac:(apply below_max64, Rabs_le; lra)). set (c3 := rnd64 (1 - c2)) in *.
  assert (E8 := F53 (1 - c2) ltac:(apply Rabs_le; lra)). fold c3 in E8. apply Rabs_le_inv in E8.
  assert (R9 := rep32_narrow _ _ R8 ltac:(apply below_max, small_max, Rabs_le; lra)). set (c4 := rnd32 c3) in *.
  assert (E9 := F24 c3 ltac:(apply Rabs_le; lra)). fold c4 in E9. apply Rabs_le_inv in E9.
  exists c4. split; [exact R9|].
  assert (Acc : Rabs (c4 - (1 - 2 * color_distance r g b r' g' b')) <= 2 / 10 ^ 5).
  { unfold color_distance. fold d. unfold Rdiv at 1. assert (Pd : 0 <= d <= 2.2) by (split; [apply sqrt_pos|lra]).
    assert (K : Rabs (m / root3 - d * / sqrt 3) <= 65 / 10000000).
    { replace (m / root3 - d * / sqrt 3) with ((m - d) * / root3 + d * (/ root3 - / sqrt 3)) by (unfold Rdiv; ring).
      assert (K1 : Rabs ((m - d) * / root3) <= 62 / 10000000).
      { rewrite Rabs_mult, (Rabs_pos_eq (/ root3)) by lra. apply Rle_trans with (102 / 10000000 * / 1.7320508); [|lra]. apply Rmult_le_compat; try lra; [apply Rabs_pos|apply Rabs_le; lra]. }
      assert (K2 : Rabs (d * (/ root3 - / sqrt 3)) <= 2 / 10000000).
      { rewrite Rabs_mult, (Rabs_pos_eq d) by lra. apply Rle_trans with (2.2 * (/ 1.7320508 - / 1.7320509)); [|lra]. apply Rmult_le_compat; try lra; [apply Rabs_pos|apply Rabs_le; lra]. }
      eapply Rle_trans; [apply Rabs_triang|]. lra. }
    apply Rabs_le_inv in K. replace (2 / 10 ^ 5) with (2 / 100000) by lra. apply Rabs_le. lra. }
  split; [exact Acc|]. split.
  - intros V. destruct C1 as [(-> & _)|(_ & L)]; [destruct C2 as [(-> & _)|(_ & L)]; [destruct C3 as [(-> & _)|(_ & L)]; [reflexivity|]|]|]; exfalso.
    all: assert (Ls : / 600 * / 600 <= s2) by (apply Rle_trans with (/ 350000); lra);
      assert (Lr : / 600 <= sqrt s2) by (rewrite <- (sqrt_square (/ 600)) by lra; apply sqrt_le_1_alt; exact Ls);
      assert (Lq : / 601 * / 1.7320509 <= m / root3) by (unfold Rdiv; apply Rmult_le_compat; lra); lra.
  - intros E. injection E as -> -> ->. destruct C1 as [(_ & -> & ->)|(H & _)]; [|now contradiction H]. destruct C2 as [(_ & -> & ->)|(H & _)]; [|now contradiction H]. destruct C3 as [(_ & -> & ->)|(H & _)]; [|now contradiction H].
    assert (s1 = 0) as A1 by (unfold s1; rewrite Rplus_0_r; exact Z0). assert (s2 = 0) as A2 by (unfold s2; rewrite A1, Rplus_0_r; exact Z0).
    assert (m = 0) as A3 by (unfold m; rewrite A2, sqrt_0; exact Z0). assert (Z64 : rnd64 0 = 0) by exact (rnd64_int 0 ltac:(lia)).
    assert (c0 = 0) as A4 by (unfold c0, Rdiv; rewrite A3, Rmult_0_l; exact Z64). assert (c1 = 0) as A5 by (unfold c1; rewrite A4; exact Z0).
    assert (c2 = 0) as A6 by (unfold c2; rewrite A5, Rmult_0_r; exact Z64). assert (c3 = 1) as A7 by (unfold c3; rewrite A6, Rminus_0_r; exact (rnd64_int 1 ltac:(lia))).
    unfold c4. rewrite A7. exact (rnd32_int 1 ltac:(lia)).
Qed.

(** Orange against a class in orange, in black and in the colour that differs only in one step of blue. *)
Example C33_one_class_example :
  single_class (datum_from_uchar 255) (datum_from_uchar 128) (datum_from_uchar 0) 0xff8000 = f32_one /\
  single_class (datum_from_uchar 255) (datum_from_uchar 255) (datum_from_uchar 255) 0x000000 = f_of_Z (-1) /\
  single_class (datum_from_uchar 255) (datum_from_uchar 128) (datum_from_uchar 1) 0xff8000 <> f32_one.
Proof. vm_compute. repeat split; discriminate. Qed.
Print Assumptions C33_one_class_value.

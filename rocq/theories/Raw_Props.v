(** C69: the raw 8-bit export of a tensor; C52 (continued): the values of 8-bit and 16-bit pixels. *)
From Coq Require Import ZArith Bool Lia Reals Lra.
From Flocq Require Import Core.Core IEEE754.BinarySingleNaN.
From Verif Require Import Base BaseFacts Float32 FloatOps FloatOps_Flocq Float64_Flocq FloatNonneg Tensor_Model Tensor_Spec Pixel_Model Pixel_Proofs Raw_Model.
From Verif Require Kitti_Props.
Local Open Scope R_scope.

(** ** Values of pixels *)
Lemma close_to_1 (c : f32) m e p k n : c = bits_of_sf (SpecFloat.S754_finite false m e) -> SpecFloat.bounded 24 128 m e = true -> F2R (Float radix2 (Z.pos m) e) = k ->
  (0 <= n < p)%Z -> (p <= 65536)%Z -> 0 < k -> Rabs (k * IZR (p - 1) - 1) <= / 10 ^ 7 ->
  exists v, nn (fmul c (f_of_Z n)) v /\ Rabs (v - IZR n / IZR (p - 1)) <= / 10 ^ 6.
Proof.
  intros Ec Hb Ek Hn Hp Pk Hk. assert (P1 : 1 <= IZR (p - 1) \/ n = 0%Z) by (destruct (Z.eq_dec n 0); [now right|left; apply IZR_le; lia]).
  assert (C : nn c k) by (exists (B754_finite false m e Hb); repeat split; auto).
  assert (N : nn (f_of_Z n) (IZR n)) by (apply nn_int; lia).
  assert (U : k * IZR n <= 2).
  { destruct P1 as [P1| ->]; [|rewrite Rmult_0_r; lra]. assert (IZR n <= IZR (p - 1)) by (apply IZR_le; lia). apply Rle_trans with (k * IZR (p - 1)); [apply Rmult_le_compat_l; lra|].
    pose proof (Rle_abs (k * IZR (p - 1) - 1)). assert (/ 10 ^ 7 <= 1) by (rewrite <- Rinv_1; apply Rinv_le_contravar; lra). lra. }
  assert (L : 0 <= k * IZR n) by (apply Rmult_le_pos; [lra|apply IZR_le; lia]).
  exists (rnd32 (k * IZR n)). split.
  - apply nn_mul; auto. apply Rle_trans with (bpow radix2 1); [exact U|apply bpow_le; lia].
  - replace (rnd32 (k * IZR n) - IZR n / IZR (p - 1)) with ((rnd32 (k * IZR n) - k * IZR n) + (k * IZR n - IZR n / IZR (p - 1))) by lra. eapply Rle_trans; [apply Rabs_triang|].
    pose proof (rnd32_error (k * IZR n) 1 ltac:(lia) ltac:(rewrite Rabs_right by lra; exact U)) as Er. change (bpow radix2 (1 - 24)) with (/ IZR 8388608) in Er.
    assert (D : Rabs (k * IZR n - IZR n / IZR (p - 1)) <= / 10 ^ 7).
    { destruct P1 as [P1| ->]; [|unfold Rdiv; rewrite Rmult_0_r, Rmult_0_l, Rminus_0_r, Rabs_R0; apply Rlt_le, Rinv_0_lt_compat; lra].
      replace (k * IZR n - IZR n / IZR (p - 1)) with ((k * IZR (p - 1) - 1) * (IZR n / IZR (p - 1))) by (field; lra). rewrite Rabs_mult.
      assert (Q : 0 <= IZR n / IZR (p - 1) <= 1).
      { assert (I : 0 < / IZR (p - 1)) by (apply Rinv_0_lt_compat; lra). assert (0 <= IZR n) by (apply IZR_le; lia). assert (IZR n <= IZR (p - 1)) by (apply IZR_le; lia). split; [apply Rmult_le_pos; lra|].
        apply Rmult_le_reg_r with (IZR (p - 1)); [lra|]. unfold Rdiv. rewrite Rmult_assoc, Rinv_l; lra. }
      rewrite (Rabs_right (IZR n / IZR (p - 1))) by lra. rewrite <- (Rmult_1_r (/ 10 ^ 7)). apply Rmult_le_compat; [apply Rabs_pos|lra|exact Hk|lra]. }
    lra.
Qed.
(** A 16-bit value n becomes the float n / 65535 up to an error of 10^-6, a byte the float n / 255. *)
Definition v_ushort : R := 8388736 * / 549755813888.
Definition v_uchar : R := 8421505 * / 2147483648.
Lemma ushort_value n : (0 <= n < 65536)%Z -> exists v, nn (datum_from_ushort n) v /\ Rabs (v - IZR n / 65535) <= / 10 ^ 6.
Proof.
  intros Hn. assert (H1 : F2R (Float radix2 (Z.pos 8388736) (-39)) = v_ushort) by (unfold F2R, v_ushort; cbn; lra). assert (H2 : 0 < v_ushort) by (unfold v_ushort; lra).
  assert (H3 : Rabs (v_ushort * IZR (65536 - 1) - 1) <= / 10 ^ 7) by (unfold v_ushort; change (65536 - 1)%Z with 65535%Z; apply Rabs_le; split; lra).
  exact (close_to_1 k_ushort 8388736 (-39) 65536 v_ushort n eq_refl eq_refl H1 Hn (Z.le_refl _) H2 H3).
Qed.
Theorem C52_ushort n : (0 <= n < 65536)%Z -> exists v, rep32 (datum_from_ushort n) v /\ Rabs (v - IZR n / 65535) <= / 10 ^ 6.
Proof. intros Hn. destruct (ushort_value n Hn) as (v & N & B). exists v. split; [now apply nn_rep|exact B]. Qed.
Theorem C52_uchar n : (0 <= n < 256)%Z -> exists v, rep32 (datum_from_uchar n) v /\ Rabs (v - IZR n / 255) <= / 10 ^ 6.
Proof.
  intros Hn. assert (H1 : F2R (Float radix2 (Z.pos 8421505) (-31)) = v_uchar) by (unfold F2R, v_uchar; cbn; lra). assert (H2 : 0 < v_uchar) by (unfold v_uchar; lra).
  assert (H3 : Rabs (v_uchar * IZR (256 - 1) - 1) <= / 10 ^ 7) by (unfold v_uchar; change (256 - 1)%Z with 255%Z; apply Rabs_le; split; lra).
  assert (Hk : k_uchar = bits_of_sf (SpecFloat.S754_finite false 8421505 (-31))) by (vm_compute; reflexivity).
  destruct (close_to_1 k_uchar 8421505 (-31) 256 v_uchar n Hk eq_refl H1 Hn ltac:(lia) H2 H3) as (v & N & B). exists v. split; [now apply nn_rep|exact B].
Qed.
(** So different 16-bit values stay different, larger ones larger. *)
Theorem C52_order16 a b : (0 <= a < b)%Z -> (b < 65536)%Z -> fgt (datum_from_ushort b) (datum_from_ushort a) = true.
Proof.
  intros Ha Hb. destruct (ushort_value a ltac:(lia)) as (u & U & Bu), (ushort_value b ltac:(lia)) as (v & V & Bv). rewrite (nn_gt _ _ _ _ V U). apply Rlt_bool_true. apply Rabs_le_inv in Bu, Bv.
  assert (IZR a + 1 <= IZR b) by (rewrite <- plus_IZR; apply IZR_le; lia). lra.
Qed.

(** ** The raw export *)
(** The byte for the value [v]: 127 + 127 v in float arithmetic, rounded down. *)
Definition raw_byte (v : R) : Z := Zfloor (rnd32 (127 + rnd32 (127 * v))).
Lemma mchar_value d v : rep32 d v -> -1 <= v <= 1 -> mchar_from_datum d = Ok (raw_byte v).
Proof.
  intros D B. assert (E7 : bpow radix2 7 = 128) by reflexivity. assert (E8 : bpow radix2 8 = 256) by reflexivity. assert (M127 : bpow radix2 8 <= bpow radix2 127) by (apply bpow_le; lia).
  assert (R1 : rep32 (fmul (f_of_Z 127) d) (rnd32 (127 * v))) by (apply rep32_mul'; [apply (rep32_int 127); lia|exact D|apply Rabs_le; lra]).
  assert (B1 : -127 <= rnd32 (127 * v) <= 127).
  { pose proof (rnd32_int (-127) ltac:(lia)) as I1. pose proof (rnd32_int 127 ltac:(lia)) as I2. pose proof (rnd32_le (-127) (127 * v) ltac:(lra)). pose proof (rnd32_le (127 * v) 127 ltac:(lra)). lra. }
  assert (R2 : rep32 (fadd (f_of_Z 127) (fmul (f_of_Z 127) d)) (rnd32 (127 + rnd32 (127 * v)))) by (apply rep32_add; [apply (rep32_int 127); lia|exact R1|apply Rabs_le; lra]).
  unfold mchar_from_datum. apply (rep32_uchar _ _ R2). split; [apply rnd32_nonneg; lra|]. pose proof (rnd32_int 254 ltac:(lia)) as I. pose proof (rnd32_le (127 + rnd32 (127 * v)) 254 ltac:(lra)). lra.
Qed.
(** It is close to 127 + 127 v, grows with v and lies between 0 and 254. *)
Theorem C69_byte v : -1 <= v <= 1 -> (0 <= raw_byte v <= 254)%Z /\ 127 + 127 * v - 1 - / 10000 < IZR (raw_byte v) <= 127 + 127 * v + / 10000.
Proof.
  intros B. assert (E7 : bpow radix2 7 = 128) by reflexivity. assert (E8 : bpow radix2 8 = 256) by reflexivity.
  assert (B1 : -127 <= rnd32 (127 * v) <= 127).
  { pose proof (rnd32_int (-127) ltac:(lia)) as I1. pose proof (rnd32_int 127 ltac:(lia)) as I2. pose proof (rnd32_le (-127) (127 * v) ltac:(lra)). pose proof (rnd32_le (127 * v) 127 ltac:(lra)). lra. }
  assert (B2 : 0 <= rnd32 (127 + rnd32 (127 * v)) <= 254).
  { split; [apply rnd32_nonneg; lra|]. pose proof (rnd32_int 254 ltac:(lia)) as I. pose proof (rnd32_le (127 + rnd32 (127 * v)) 254 ltac:(lra)). lra. }
  pose proof (rnd32_error (127 * v) 7 ltac:(lia) ltac:(apply Rabs_le; lra)) as X1. pose proof (rnd32_error (127 + rnd32 (127 * v)) 8 ltac:(lia) ltac:(apply Rabs_le; lra)) as X2.
  change (bpow radix2 (7 - 24)) with (/ 131072) in X1. change (bpow radix2 (8 - 24)) with (/ 65536) in X2. apply Rabs_le_inv in X1, X2.
  unfold raw_byte. pose proof (Zfloor_lb (rnd32 (127 + rnd32 (127 * v)))) as F1. pose proof (Zfloor_ub (rnd32 (127 + rnd32 (127 * v)))) as F2. split; [split|split].
  - apply Zfloor_lub. lra.
  - apply le_IZR. lra.
  - lra.
  - lra.
Qed.
Theorem C69_monotone u v : u <= v -> (raw_byte u <= raw_byte v)%Z.
Proof. intros H. unfold raw_byte. apply Zfloor_le, rnd32_le. assert (rnd32 (127 * u) <= rnd32 (127 * v)) by (apply rnd32_le; lra). lra. Qed.

Local Open Scope nat_scope.
Lemma foldm_append {A} (f : A -> res (list Z)) (g : A -> list Z) step l : (forall out a, In a l -> step out a = (b <- f a ;; Ok (out ++ b))) -> (forall a, In a l -> f a = Ok (g a)) ->
  forall out, foldm step l out = Ok (out ++ concat (map g l)).
Proof.
  intros Hs Hf. induction l as [|a l IH]; intros out; cbn [foldm map concat]; [now rewrite app_nil_r|]. rewrite Hs, Hf by (cbn; auto). cbn [bind]. rewrite IH, app_assoc; auto; intros; [apply Hs|apply Hf]; now right.
Qed.
Lemma concat_nth {A} (g : nat -> list A) k d : (forall i, length (g i) = k) -> forall n i j, i < n -> j < k -> nth (i * k + j) (concat (map g (seq 0 n))) d = nth j (g i) d.
Proof.
  intros Hk. assert (L : forall n, length (concat (map g (seq 0 n))) = n * k).
  { induction n; [reflexivity|]. rewrite seq_S, map_app, concat_app, app_length, IHn. cbn. rewrite app_length, Hk. cbn. lia. }
  induction n as [|n IH]; intros i j Hi Hj; [lia|]. rewrite seq_S, map_app, concat_app. cbn [map concat Nat.add]. rewrite app_nil_r. destruct (Nat.eq_dec i n) as [->|Hn].
  - rewrite app_nth2; rewrite L; [|lia]. f_equal. lia.
  - rewrite app_nth1; [apply IH; lia|]. rewrite L. nia.
Qed.
Lemma concat_length_const {A} (g : nat -> list A) k n : (forall i, length (g i) = k) -> length (concat (map g (seq 0 n))) = n * k.
Proof. intros Hk. induction n; [reflexivity|]. rewrite seq_S, map_app, concat_app, app_length, IHn. cbn. rewrite app_length, Hk. cbn. lia. Qed.

(** The export has one byte per element.  Three maps are written pixel by pixel as r, g, b; other tensors in the order of the memory. *)
Theorem C69_raw (t : tensor f32) (value : nat -> nat -> nat -> nat -> R) : wf t ->
  (forall x y m s, x < width t -> y < height t -> m < maps t -> s < samples t -> exists d, at_pos t x y m s = Some d /\ rep32 d (value x y m s) /\ (-1 <= value x y m s <= 1)%R) ->
  exists bytes, raw_bytes t = Ok bytes /\ length bytes = samples t * height t * width t * maps t /\
    forall x y m s, x < width t -> y < height t -> m < maps t -> s < samples t ->
      nth (if maps t =? 3 then ((s * height t + y) * width t + x) * 3 + m else ((s * maps t + m) * height t + y) * width t + x) bytes (-1)%Z = raw_byte (value x y m s).
Proof.
  intros [We Wd] Hv. destruct (data t) as [l|] eqn:Ed.
  2: { destruct Wd as (S0 & W0 & H0 & M0). exists []. unfold raw_bytes. rewrite S0, W0, M0, We, S0. cbn. split; [reflexivity|]. split; [reflexivity|]. intros. lia. }
  destruct Wd as [Ll Pe]. set (w := width t) in *. set (h := height t) in *. set (n := samples t) in *.
  (* the byte of memory cell i *)
  assert (Cell : forall x y m s, x < w -> y < h -> m < maps t -> s < n -> (d <- raw_elt t (offset t x y m s) ;; mchar_from_datum d) = Ok (raw_byte (value x y m s))).
  { intros x y m s Hx Hy Hm Hs. destruct (Hv x y m s Hx Hy Hm Hs) as (d & Ea & R & B). unfold at_pos in Ea. unfold raw_elt, buffer. rewrite Ed in *.
    destruct ((x <? width t) && (y <? height t) && (m <? maps t) && (s <? samples t))%bool; [|discriminate]. cbn [bind]. unfold load. rewrite Ea. cbn [bind]. now apply mchar_value. }
  unfold raw_bytes. fold w h n. destruct (Nat.eqb_spec (maps t) 3) as [M3|M3].
  - set (px := fun s i => map (fun m => raw_byte (value (i mod w) (i / w) m s)) [0; 1; 2]).
    assert (Row : forall s, s < n -> forall out, foldm (raw_pixel t (w * h) (w * h * maps t) s) (seq 0 (w * h)) out = Ok (out ++ concat (map (px s) (seq 0 (w * h))))).
    { intros s Hs. apply (foldm_append (fun i => Ok (px s i))).
      - intros out i Hi. apply in_seq in Hi. unfold raw_pixel. assert (Hw : 0 < w) by nia. assert (Hx : i mod w < w) by (apply Nat.mod_upper_bound; lia).
        assert (Hy : i / w < h) by (apply Nat.div_lt_upper_bound; lia). pose proof (Nat.div_mod i w ltac:(lia)) as Ei.
        assert (O : forall m, m < 3 -> offset t (i mod w) (i / w) m s = w * h * maps t * s + w * h * m + i) by (intros m Hm; unfold offset; fold w h; rewrite M3; nia).
        pose proof (Cell (i mod w) (i / w) 0 s Hx Hy ltac:(lia) Hs) as C0. pose proof (Cell (i mod w) (i / w) 1 s Hx Hy ltac:(lia) Hs) as C1. pose proof (Cell (i mod w) (i / w) 2 s Hx Hy ltac:(lia) Hs) as C2.
        rewrite O in C0, C1, C2 by lia. rewrite Nat.mul_0_r, Nat.add_0_r in C0. rewrite C0. cbn [bind]. rewrite C1. cbn [bind]. rewrite C2. reflexivity.
      - reflexivity. }
    rewrite (foldm_append (fun s => Ok (concat (map (px s) (seq 0 (w * h))))) (fun s => concat (map (px s) (seq 0 (w * h))))).
    + eexists. split; [reflexivity|]. cbn [app]. assert (L3 : forall s, length (concat (map (px s) (seq 0 (w * h)))) = w * h * 3) by (intros s; now apply concat_length_const).
      split; [rewrite (concat_length_const _ (w * h * 3)) by exact L3; rewrite M3; lia|]. intros x y m s Hx Hy Hm Hs.
      replace (((s * h + y) * w + x) * 3 + m) with (s * (w * h * 3) + ((y * w + x) * 3 + m)) by ring.
      assert (Hyx : y * w + x < w * h) by nia. rewrite (concat_nth (fun s => concat (map (px s) (seq 0 (w * h)))) (w * h * 3) (-1)%Z L3 n s ((y * w + x) * 3 + m)) by (auto; lia).
      rewrite (concat_nth (px s) 3 (-1)%Z) by (auto; lia). unfold px. rewrite Nat.add_comm, Nat.mod_add, Nat.mod_small, Nat.div_add, Nat.div_small by lia.
      rewrite (nth_indep _ (-1)%Z (raw_byte (value x (0 + y) 0 s))) by (cbn; lia). rewrite (map_nth (fun m => raw_byte (value x (0 + y) m s)) [0; 1; 2] 0 m).
      f_equal. f_equal. destruct m as [|[|[|m]]]; try reflexivity. lia.
    + intros out s Hs. apply in_seq in Hs. now rewrite Row by lia.
    + reflexivity.
  - set (at_e := fun e => value (e mod w) (e / w mod h) (e / (w * h) mod maps t) (e / (w * h * maps t))).
    assert (Pos : 0 < w /\ 0 < h /\ 0 < maps t /\ 0 < n) by (rewrite We in Pe; fold w h n in Pe; nia). destruct Pos as (Pw & Ph & Pm & Pn).
    rewrite (foldm_append (fun e => Ok [raw_byte (at_e e)]) (fun e => [raw_byte (at_e e)])).
    + eexists. split; [reflexivity|]. cbn [app]. assert (L1 : forall e, length [raw_byte (at_e e)] = 1) by reflexivity.
      split; [rewrite (concat_length_const _ 1) by exact L1; rewrite We; fold w h n; ring|]. intros x y m s Hx Hy Hm Hs.
      set (e := ((s * maps t + m) * h + y) * w + x). assert (He : e < elements t).
      { rewrite We. fold w h n. assert (A1 : s * maps t + m + 1 <= n * maps t) by nia. assert (A2 : (s * maps t + m) * h + y + 1 <= n * maps t * h) by nia. unfold e. nia. }
      replace e with (e * 1 + 0) by lia. rewrite (concat_nth _ 1 (-1)%Z L1) by lia. cbn [nth]. f_equal. unfold at_e, e.
      assert (E1 : (((s * maps t + m) * h + y) * w + x) mod w = x) by (rewrite Nat.add_comm, Nat.mod_add by lia; now apply Nat.mod_small).
      assert (E2 : (((s * maps t + m) * h + y) * w + x) / w = (s * maps t + m) * h + y) by (rewrite Nat.div_add_l by lia; rewrite Nat.div_small by exact Hx; lia).
      assert (E3 : ((s * maps t + m) * h + y) mod h = y) by (rewrite Nat.add_comm, Nat.mod_add by lia; now apply Nat.mod_small).
      assert (E4 : (((s * maps t + m) * h + y) * w + x) / (w * h) = s * maps t + m) by (rewrite <- Nat.div_div, E2 by lia; rewrite Nat.div_add_l by lia; rewrite Nat.div_small by exact Hy; lia).
      assert (E5 : (s * maps t + m) mod maps t = m) by (rewrite Nat.add_comm, Nat.mod_add by lia; now apply Nat.mod_small).
      assert (E6 : (((s * maps t + m) * h + y) * w + x) / (w * h * maps t) = s) by (rewrite <- Nat.div_div, E4 by lia; rewrite Nat.div_add_l by lia; rewrite Nat.div_small by exact Hm; lia).
      now rewrite E1, E2, E3, E4, E5, E6.
    + intros out e He. apply in_seq in He. rewrite We in He. fold w h n in He.
      assert (X : e / (w * h * maps t) < n) by (apply Nat.div_lt_upper_bound; nia). assert (Y : e / (w * h) mod maps t < maps t) by (apply Nat.mod_upper_bound; lia).
      assert (Z : e / w mod h < h) by (apply Nat.mod_upper_bound; lia). assert (V : e mod w < w) by (apply Nat.mod_upper_bound; lia).
      pose proof (Cell _ _ _ _ V Z Y X) as C. replace (offset t (e mod w) (e / w mod h) (e / (w * h) mod maps t) (e / (w * h * maps t))) with e in C; [now rewrite C|].
      unfold offset. fold w h. pose proof (Nat.div_mod e w ltac:(lia)) as A1. pose proof (Nat.div_mod (e / w) h ltac:(lia)) as A2. pose proof (Nat.div_mod (e / w / h) (maps t) ltac:(lia)) as A3.
      rewrite <- (Nat.div_div e (w * h) (maps t)) by lia. rewrite <- (Nat.div_div e w h) by lia. nia.
    + reflexivity.
Qed.
(** Finding: values above 1.0157 or below -1, as networks compute them, have no byte. *)
Theorem C69_range_refuted : mchar_from_datum (f_of_Z 2) = UB /\ mchar_from_datum (f_of_Z (-2)) = UB.
Proof. split; vm_compute; reflexivity. Qed.

(** Two pixels with three maps. *)
Example raw_ex : raw_bytes (mkTensor 1 2 1 3 6 (Some [f32_zero; f32_one; f32_one; f32_zero; 3212836864%Z; f32_zero])) = Ok [127; 254; 0; 254; 127; 127]%Z.
Proof. vm_compute. reflexivity. Qed.
Example raw_ex_meets : rep32 f32_one 1 /\ (-1 <= 1 <= 1)%R.
Proof. split; [exact Kitti_Props.rep_one|lra]. Qed.

Print Assumptions C52_ushort.
Print Assumptions C52_uchar.
Print Assumptions C52_order16.
Print Assumptions C69_byte.
Print Assumptions C69_monotone.
Print Assumptions C69_raw.
Print Assumptions C69_range_refuted.

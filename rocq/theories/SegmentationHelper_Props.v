(** C53 (continued): the positions of patches. *)
From Coq Require Import ZArith Lia Reals Lra.
From Flocq Require Import Core.Core.
From Verif Require Import Base Float32 FloatOps FloatOps_Flocq Float64 Float64_Flocq FloatNonneg Tensor_Model Tensor_Spec Math_Spec Segmentation_Model Segmentation_Props Single_Props.
Local Open Scope R_scope.

(** The patch around position [p] of a row of [size] pixels begins [patch / 2] pixels before [p]; [k] is this position, moved to 0 when
    the patch begins before the row, and to size - patch + 1 (but at least 0) when it begins behind that. *)
Definition patch_start (size patch p k : Z) : Prop :=
  (let start := p - patch / 2 in let last := size - patch + 1 in
   (start < 0 \/ last < 0) /\ k = 0 \/ 0 <= start <= last /\ k = start \/ 0 <= last < start /\ k = last)%Z.
(** The float [h] is the position divided by the size of the image, up to rounding errors. *)
Definition relative_start (size patch p : nat) (h : f32) : Prop :=
  exists k r, patch_start (Z.of_nat size) (Z.of_nat patch) (Z.of_nat p) k /\ rep32 h r /\ 0 <= r <= 1 /\
    Rabs (r - IZR k / IZR (Z.of_nat size)) <= / 2 ^ 23 /\ (k = 0%Z -> r = 0).

Lemma place_relative size patch p : (0 < patch)%nat -> (p < size)%nat -> (Z.of_nat size < 2 ^ 31)%Z -> relative_start size patch p (place size patch p).
Proof.
  intros Hp Hs Hz. unfold place. set (k := Z.max 0 _). exists k, (rnd32 (rnd64 (IZR k / IZR (Z.of_nat size)))).
  assert (Hk : (0 <= k <= Z.of_nat size)%Z). { unfold k. assert (0 <= Z.of_nat patch / 2)%Z by (apply Z.div_pos; lia). lia. }
  assert (Sp : 0 < IZR (Z.of_nat size)) by (apply IZR_lt; lia).
  assert (Q : 0 <= IZR k / IZR (Z.of_nat size) <= 1).
  { split; [apply Rmult_le_pos; [apply IZR_le; lia|apply Rlt_le, Rinv_0_lt_compat, Sp]|]. apply Rmult_le_reg_r with (IZR (Z.of_nat size)); [exact Sp|].
    unfold Rdiv. rewrite Rmult_assoc, Rinv_l, Rmult_1_r, Rmult_1_l by lra. apply IZR_le. lia. }
  set (q := IZR k / IZR (Z.of_nat size)) in *.
  assert (R0 : 0 <= rnd64 q <= 1).
  { split; [rewrite <- (rnd64_int 0) by reflexivity; apply rnd64_le; apply Q|rewrite <- (rnd64_int 1) by reflexivity; apply rnd64_le; apply Q]. }
  assert (R1 : 0 <= rnd32 (rnd64 q) <= 1).
  { split; [now apply rnd32_nonneg|]. rewrite <- (rnd32_int 1) by reflexivity. apply rnd32_le. apply R0. }
  assert (Z64 : forall n, (0 <= n <= 2 ^ 31)%Z -> rep64 (d_of_Z n) (IZR n)).
  { intros n Hn. rewrite <- (rnd64_int n) by lia. apply rep64_Z. rewrite rnd64_int by lia. rewrite Rabs_pos_eq by (apply IZR_le; lia).
    apply Rle_lt_trans with (IZR (2 ^ 31)); [apply IZR_le; lia|]. change (IZR (2 ^ 31)) with (bpow radix2 31). now apply bpow_lt. }
  split; [|split; [|split; [exact R1|split]]].
  - unfold patch_start, k. lia.
  - apply rep32_narrow.
    + apply rep64_div; [apply Z64; lia|apply Z64; lia|lra|]. fold q. apply below_max64. rewrite Rabs_pos_eq by apply Q. lra.
    + rewrite Rabs_pos_eq by apply R1. apply Rle_lt_trans with (bpow radix2 0); [apply R1|now apply bpow_lt].
  - assert (E1 : Rabs (rnd64 q - q) <= bpow radix2 (0 - 53)) by (apply rnd64_error; [lia|]; rewrite Rabs_pos_eq by apply Q; apply Q).
    assert (E2 : Rabs (rnd32 (rnd64 q) - rnd64 q) <= bpow radix2 (0 - 24)) by (apply (rnd32_error _ 0); [lia|]; rewrite Rabs_pos_eq by apply R0; apply R0).
    change (bpow radix2 (0 - 53)) with (/ IZR (2 ^ 53)) in E1. change (bpow radix2 (0 - 24)) with (/ IZR (2 ^ 24)) in E2.
    assert (T : / IZR (2 ^ 53) + / IZR (2 ^ 24) <= / 2 ^ 23) by (cbn; lra).
    replace (rnd32 (rnd64 q) - q) with ((rnd32 (rnd64 q) - rnd64 q) + (rnd64 q - q)) by ring.
    eapply Rle_trans; [apply Rabs_triang|]. lra.
  - intros ->. unfold q. unfold Rdiv. rewrite Rmult_0_l, (rnd64_int 0), (rnd32_int 0); reflexivity.
Qed.

(** ** C53: the helper tensor of the patches holds the vertical and the horizontal position of every patch. *)
Theorem C53_position : forall (junk : nat -> f32) pw ph (target helper source : tensor f32) img sample,
  wf target -> wf helper -> wf source -> contents source img -> (sample < samples source)%nat -> (Z.of_nat (elements source) < 2 ^ 64)%Z ->
  (0 < pw < 2 * width source)%nat -> (0 < ph < 2 * height source)%nat -> (Z.of_nat (width source) < 2 ^ 31)%Z -> (Z.of_nat (height source) < 2 ^ 31)%Z ->
  exists target' helper', extract_patches junk pw ph target helper source sample false = Ok (target', helper') /\
    has_shape helper' (width source * height source) 2 1 1 /\
    forall px py, (px < width source)%nat -> (py < height source)%nat ->
      (exists v, at_pos helper' 0 0 0 (width source * py + px) = Some v /\ relative_start (height source) ph py v) /\
      (exists v, at_pos helper' 1 0 0 (width source * py + px) = Some v /\ relative_start (width source) pw px v).
Proof.
  intros junk pw ph target helper source img sample Wt Wh Ws C Hs He Hpw Hph Zw Zh.
  destruct (C53_patches junk pw ph target helper source img sample Wt Wh Ws C Hs He Hpw Hph) as (t' & h' & E & _ & _ & Sh & P).
  exists t', h'. split; [exact E|]. split; [exact Sh|]. intros px py Hx Hy.
  assert (Hm : (0 < maps source)%nat).
  { destruct Ws as [We W]. destruct (data source); [|lia]. destruct (width source), (height source), (maps source); lia. }
  destruct (P px py 0%nat 0%nat 0%nat) as (qx & qy & _ & _ & _ & H0 & H1); try lia; auto.
  split; eexists; (split; [eassumption|]); apply place_relative; lia || assumption.
Qed.
Print Assumptions C53_position.

(** In a row of 3 pixels, patches of 3 pixels begin at 0, 0 and 1 of 3; in a row of 4 pixels, the last patch of 2 pixels begins at 2 of 4. *)
Example C53_position_example : List.map (place 3 3) [0; 1; 2]%nat = [0; 0; 1051372203]%Z /\ place 4 2 3 = 1056964608%Z.
Proof. vm_compute. auto. Qed.

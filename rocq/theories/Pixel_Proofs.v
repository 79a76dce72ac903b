(** Proofs about pixel conversion. *)
From Coq Require Import ZifyBool ZifyNat.
From Verif Require Import Base BaseFacts LoopFacts Float32 FloatOps Tensor_Model Tensor_Spec Tensor_Proofs Pixel_Model.

(** ** Single values *)
Lemma k_ushort_closest :
  sf_of_bits k_ushort = SpecFloat.S754_finite false 8388736 (-39) /\
  (Z.abs (2 * (8388736 * 10 ^ 13 - 152590219 * 2 ^ 39)) < 10 ^ 13)%Z.
Proof. split; vm_compute; reflexivity. Qed.

Lemma k_uchar_closest :
  sf_of_bits k_uchar = SpecFloat.S754_finite false 8421505 (-31) /\
  (Z.abs (2 * (8421505 * 10 ^ 9 - 3921569 * 2 ^ 31)) < 10 ^ 9)%Z.
Proof. split; vm_compute; reflexivity. Qed.

Lemma forall_below (P : Z -> bool) n : forallb P (map Z.of_nat (seq 0 n)) = true -> forall z, (0 <= z < Z.of_nat n)%Z -> P z = true.
Proof.
  intros H z Hz. rewrite forallb_forall in H. apply H. apply in_map_iff. exists (Z.to_nat z). split; [lia|]. apply in_seq. lia.
Qed.

Definition returns (n : Z) (r : res Z) : bool := match r with Ok v => (v =? n)%Z | _ => false end.
Lemma returns_spec n r : returns n r = true -> r = Ok n.
Proof. destruct r; cbn; try discriminate. intros ->%Z.eqb_eq. reflexivity. Qed.

Lemma byte_trip n : (0 <= n < 256)%Z -> uchar_from_datum (datum_from_uchar n) = Ok n.
Proof.
  intros H. apply returns_spec. revert n H. apply (forall_below (fun n => returns n (uchar_from_datum (datum_from_uchar n))) 256).
  vm_compute. reflexivity.
Qed.

Definition increasing (f : Z -> f32) (n : Z) : bool := fgt (f (n + 1)%Z) (f n).
Lemma increasing_lt (f : Z -> f32) n : (forall z, (0 <= z < n)%Z -> increasing f z = true) ->
  forall a b, (0 <= a < b)%Z -> (b <= n)%Z -> fgt (f b) (f a) = true.
Proof.
  intros H a b Hab Hb. pose proof (proj1 Hab) as Ha. replace b with (a + Z.of_nat (S (Z.to_nat (b - a - 1))))%Z in * by lia.
  clear Hab. revert Hb. induction (Z.to_nat (b - a - 1)) as [|k IH]; intros Hb.
  - apply H. lia.
  - eapply fgt_trans; [|apply IH; lia]. replace (a + Z.of_nat (S (S k)))%Z with (a + Z.of_nat (S k) + 1)%Z by lia. apply H. lia.
Qed.

Lemma uchar_increasing a b : (0 <= a < b)%Z -> (b < 256)%Z -> fgt (datum_from_uchar b) (datum_from_uchar a) = true.
Proof.
  intros Hab Hb. apply (increasing_lt datum_from_uchar 255); [|auto|lia].
  apply (forall_below (increasing datum_from_uchar) 255). vm_compute. reflexivity.
Qed.

Lemma fgt_feq a b : fgt a b = true -> feq a b = false /\ feq b a = false.
Proof.
  unfold fgt, feq. intros H. apply andb_true_iff in H as [H1 H2]. apply Z.ltb_lt in H2.
  split; apply andb_false_iff; right; apply Z.eqb_neq; lia.
Qed.

Lemma uchar_not_nan n : (0 <= n < 256)%Z -> f32_nan (datum_from_uchar n) = false.
Proof.
  intros H. assert (A : forall z, (0 <= z < 256)%Z -> negb (f32_nan (datum_from_uchar z)) = true).
  { apply (forall_below (fun n => negb (f32_nan (datum_from_uchar n))) 256). vm_compute. reflexivity. }
  specialize (A n H). destruct (f32_nan (datum_from_uchar n)); [discriminate A|reflexivity].
Qed.

Lemma uchar_feq a b : (0 <= a < 256)%Z -> (0 <= b < 256)%Z -> feq (datum_from_uchar a) (datum_from_uchar b) = (a =? b)%Z.
Proof.
  intros Ha Hb. destruct (Z.eqb_spec a b) as [->|Hne].
  - unfold feq. rewrite uchar_not_nan by auto. cbn [negb andb]. apply Z.eqb_refl.
  - destruct (Z.lt_ge_cases a b) as [L|L].
    + destruct (fgt_feq _ _ (uchar_increasing a b ltac:(lia) ltac:(lia))) as [_ E]. exact E.
    + destruct (fgt_feq _ _ (uchar_increasing b a ltac:(lia) ltac:(lia))) as [E _]. exact E.
Qed.

(** Keeps unification from computing products of floats. *)
#[global] Opaque datum_from_uchar datum_from_ushort uchar_from_datum.

Definition is_byte (z : Z) : Prop := (0 <= z < 256)%Z.

Lemma swap16_spec lo hi : is_byte lo -> is_byte hi -> swap16 (lo + 256 * hi)%Z = (256 * lo + hi)%Z.
Proof.
  intros Hl Hh. unfold swap16. rewrite Z.shiftr_div_pow2, Z.shiftl_mul_pow2 by lia. unfold is_byte in *.
  replace ((lo + 256 * hi) / 2 ^ 8)%Z with hi by (change (2 ^ 8)%Z with 256%Z; rewrite Z.mul_comm, Z.div_add, Z.div_small; lia).
  replace ((lo + 256 * hi) * 2 ^ 8 mod 2 ^ 16)%Z with (lo * 2 ^ 8)%Z.
  - rewrite Z.lor_comm.
    assert (E : Z.land (lo * 2 ^ 8) hi = 0%Z).
    { rewrite <- Z.shiftl_mul_pow2 by lia. apply Z.bits_inj'. intros n Hn. rewrite Z.land_spec, Z.bits_0.
      destruct (Z.lt_ge_cases n 8).
      - rewrite Z.shiftl_spec_low by lia. reflexivity.
      - rewrite andb_comm. replace (Z.testbit hi n) with false; [reflexivity|]. symmetry.
        destruct (Z.eq_dec hi 0) as [->|]; [apply Z.bits_0|]. apply Z.bits_above_log2; [lia|].
        apply Z.log2_lt_pow2; [lia|]. apply Z.lt_le_trans with (2 ^ 8)%Z; [lia|]. apply Z.pow_le_mono_r; lia. }
    rewrite <- Z.lxor_lor by exact E. rewrite <- Z.add_nocarry_lxor by exact E. lia.
  - change (2 ^ 8)%Z with 256%Z. change (2 ^ 16)%Z with 65536%Z. replace ((lo + 256 * hi) * 256)%Z with (lo * 256 + hi * 65536)%Z by lia.
    rewrite Z.mod_add by lia. rewrite Z.mod_small; lia.
Qed.

(** ** Loading *)
Section Load.
Variable junk : nat -> f32.

Lemma load_all {A} (t : tensor f32) (rd : nat -> nat -> nat -> res A) (conv : A -> f32) val w h c :
  wf t -> 0 < w * h * c ->
  (forall x y m, x < w -> y < h -> m < c -> rd x y m = Ok (val x y m)) ->
  let t1 := resize junk t 1 w h c in
  exists t', run_stores t1 (for_ c (fun m => for_ h (fun y => for_ w (fun x =>
      [(offset t1 0 y m 0 + x, p <- rd x y m ;; Ok (conv p))])))) = Ok t' /\ wf t' /\
    samples t' = 1 /\ width t' = w /\ height t' = h /\ maps t' = c /\
    forall x y m, x < w -> y < h -> m < c -> at_pos t' x y m 0 = Some (conv (val x y m)).
Proof.
  intros Hwf Hpos Hrd t1. assert (W1 : wf t1) by (apply wf_resize; auto).
  destruct (resize_data junk t 1 w h c) as (E1 & E2 & E3 & E4 & _); [nia|]. fold t1 in E1, E2, E3, E4.
  set (F := fun x y m (s : nat) => Some (conv (val x y m))).
  match goal with |- context [run_stores t1 ?o] => destruct (run_stores_frame t1 o F) as (t' & Hr & Hwf' & Hsh & Hat) end; auto.
  - intros a rv Hin. apply in_for in Hin as (m & Hm & Hin). apply in_for in Hin as (y & Hy & Hin). apply in_for in Hin as (x & Hx & [E|[]]).
    inversion E; subst a rv; clear E. exists x, y, m, 0, (conv (val x y m)). split; [repeat split; lia|]. split; [unfold offset; lia|].
    rewrite Hrd by auto. split; reflexivity.
  - intros x y m s v (Hx & Hy & Hm & Hs) E. inversion E; subst v. assert (s = 0) as -> by lia.
    apply in_for. exists m. split; [lia|]. apply in_for. exists y. split; [lia|]. apply in_for. exists x. split; [lia|]. left.
    rewrite Hrd by lia. cbn [bind]. f_equal. unfold offset. lia.
  - exists t'. destruct Hsh as (S1 & S2 & S3 & S4). split; [exact Hr|]. split; [exact Hwf'|].
    split; [congruence|]. split; [congruence|]. split; [congruence|]. split; [congruence|].
    intros x y m Hx Hy Hm. rewrite Hat by (repeat split; lia). reflexivity.
Qed.

End Load.

Lemma index_lt w h c x y m : x < w -> y < h -> m < c -> w * c * y + c * x + m < w * h * c.
Proof.
  intros Hx Hy Hm. pose proof (mix_lt (y * w + x) m (h * w) c (mix_lt y x h w Hy Hx) Hm). lia.
Qed.

Lemma index_dec w h c e : e < w * h * c -> exists x y m, x < w /\ y < h /\ m < c /\ e = w * c * y + c * x + m.
Proof.
  intros H. destruct (mix_surj e (h * w) c) as (a & m & Ha & Hm & ->); [lia|]. destruct (mix_surj a h w Ha) as (y & x & Hy & Hx & ->).
  exists x, y, m. repeat split; auto. ring.
Qed.
Lemma index_inj w c x y m x' y' m' : x < w -> x' < w -> m < c -> m' < c ->
  w * c * y + c * x + m = w * c * y' + c * x' + m' -> x = x' /\ y = y' /\ m = m'.
Proof.
  intros Hx Hx' Hm Hm' E.
  destruct (mix_inj (y * w + x) (y' * w + x') m m' c Hm Hm') as [E1 ->]; [lia|].
  destruct (mix_inj y y' x x' w Hx Hx' E1). auto.
Qed.

(** Reading an array at an index is what [nth] says. *)
Lemma load_nth {A} (l : list A) i d : i < length l -> load l i = Ok (nth i l d).
Proof. intros H. unfold load. now rewrite (nth_error_nth' l d H). Qed.

(** ** Writing *)
Definition pixel_ops (t : tensor f32) : list (nat * res Z) :=
  for_ (height t) (fun y => for_ (width t) (fun x => map (fun c =>
      (3 * width t * y + 3 * x + c, d <- get t x y c 0 ;; uchar_from_datum d)) [0; 1; 2])).

Lemma in_three {A} (f : nat -> A) a : In a (map f [0; 1; 2]) <-> exists c, c < 3 /\ a = f c.
Proof.
  cbn [map In]. split.
  - intros [<-|[<-|[<-|[]]]]; [exists 0|exists 1|exists 2]; split; auto.
  - intros (c & Hc & ->). destruct c as [|[|[|c]]]; auto. lia.
Qed.

Lemma write_spec (t : tensor f32) val l0 :
  wf t -> samples t = 1 -> maps t = 3 -> length l0 = 3 * width t * height t ->
  (forall x y m, x < width t -> y < height t -> m < 3 -> exists d, at_pos t x y m 0 = Some d /\ uchar_from_datum d = Ok (val x y m)) ->
  exists pixels, exec (pixel_ops t) l0 = Ok pixels /\ length pixels = 3 * width t * height t /\
    forall x y m, x < width t -> y < height t -> m < 3 -> nth_error pixels (width t * 3 * y + 3 * x + m) = Some (val x y m).
Proof.
  intros Hwf Hs Hm Hl Hv.
  assert (Hop : forall a rv, In (a, rv) (pixel_ops t) -> exists x y m, x < width t /\ y < height t /\ m < 3 /\
            a = width t * 3 * y + 3 * x + m /\ rv = Ok (val x y m)).
  { intros a rv Hin. apply in_for in Hin as (y & Hy & Hin). apply in_for in Hin as (x & Hx & Hin). apply in_three in Hin as (c & Hc & E).
    inversion E; subst a rv; clear E. exists x, y, c. repeat split; auto; [lia|].
    destruct (Hv x y c Hx Hy Hc) as (d & Ed & Eu). rewrite (at_pos_get _ _ _ _ _ _ Ed). exact Eu. }
  assert (Hok : ops_ok (length l0) (pixel_ops t)).
  { intros a rv Hin. destruct (Hop _ _ Hin) as (x & y & m & Hx & Hy & Hc & -> & ->). split; [|eauto]. rewrite Hl.
    pose proof (index_lt (width t) (height t) 3 x y m Hx Hy Hc). lia. }
  destruct (exec_total Hok) as (pixels & He & Hlen). exists pixels. split; [exact He|]. split; [lia|].
  intros x y m Hx Hy Hc. apply (exec_in He).
  - unfold pixel_ops. apply in_for. exists y. split; [auto|]. apply in_for. exists x. split; [auto|]. apply in_three. exists m. split; [auto|].
    destruct (Hv x y m Hx Hy Hc) as (d & Ed & Eu). rewrite (at_pos_get _ _ _ _ _ _ Ed). cbn [bind]. rewrite Eu. f_equal. lia.
  - intros v' Hin. destruct (Hop _ _ Hin) as (x' & y' & m' & Hx' & Hy' & Hc' & E & Er).
    apply index_inj in E as (-> & -> & ->); auto. congruence.
Qed.

Lemma row_spec (t : tensor f32) y row val :
  wf t -> samples t = 1 -> 3 <= maps t -> y < height t -> length row = 3 * width t ->
  (forall x m, x < width t -> m < 3 -> exists d, at_pos t x y m 0 = Some d /\ uchar_from_datum d = Ok (val x m)) ->
  exists row', jpg_row t y row = Ok row' /\ length row' = 3 * width t /\
    forall x m, x < width t -> m < 3 -> nth_error row' (3 * x + m) = Some (val x m).
Proof.
  intros Hwf Hs Hm Hy Hl Hv. unfold jpg_row.
  set (ops := for_ (width t) _).
  assert (Hop : forall a rv, In (a, rv) ops -> exists x m, x < width t /\ m < 3 /\ a = 3 * x + m /\ rv = Ok (val x m)).
  { intros a rv Hin. apply in_for in Hin as (x & Hx & Hin). apply in_three in Hin as (c & Hc & E).
    inversion E; subst a rv; clear E. exists x, c. repeat split; auto.
    destruct (Hv x c Hx Hc) as (d & Ed & Eu). rewrite (at_pos_get _ _ _ _ _ _ Ed). exact Eu. }
  assert (Hok : ops_ok (length row) ops).
  { intros a rv Hin. destruct (Hop _ _ Hin) as (x & m & Hx & Hc & -> & ->). split; [|eauto]. lia. }
  destruct (exec_total Hok) as (row' & He & Hlen). exists row'. split; [exact He|]. split; [lia|].
  intros x m Hx Hc. apply (exec_in He).
  - unfold ops. apply in_for. exists x. split; [auto|]. apply in_three. exists m. split; [auto|].
    destruct (Hv x m Hx Hc) as (d & Ed & Eu). rewrite (at_pos_get _ _ _ _ _ _ Ed). cbn [bind]. now rewrite Eu.
  - intros v' Hin. destruct (Hop _ _ Hin) as (x' & m' & Hx' & Hc' & E & Er). assert (x = x' /\ m = m') as [-> ->] by lia. congruence.
Qed.

(** C52: images with 8 bits per channel. *)
From Coq Require Import ZifyBool ZifyNat.
From Verif Require Import Base BaseFacts Float32 FloatOps Tensor_Model Tensor_Spec Tensor_Proofs Patch_Proofs Pixel_Model Pixel_Proofs.

(** Each byte survives the conversion to a datum and back. *)
Theorem C52_byte n : (0 <= n < 256)%Z -> uchar_from_datum (datum_from_uchar n) = Ok n.
Proof. apply byte_trip. Qed.

(** Different bytes become different datums, larger bytes larger ones. *)
Theorem C52_order a b : (0 <= a < b)%Z -> (b < 256)%Z -> fgt (datum_from_uchar b) (datum_from_uchar a) = true.
Proof. apply uchar_increasing. Qed.

(** A loaded PNG shows each channel of each pixel at its place. *)
Theorem C52_png_loaded junk (t : tensor f32) w h c image :
  wf t -> 0 < w * h * c -> length image = h * w * c ->
  exists t', png_load8 junk t w h c image = Ok t' /\ wf t' /\ samples t' = 1 /\ width t' = w /\ height t' = h /\ maps t' = c /\
    forall x y m, x < w -> y < h -> m < c -> at_pos t' x y m 0 = Some (datum_from_uchar (nth ((y * w + x) * c + m) image 0%Z)).
Proof.
  intros Hwf Hpos Hl. unfold png_load8.
  apply (load_all junk t (fun x y m => load image (w * c * y + c * x + m)) datum_from_uchar (fun x y m => nth ((y * w + x) * c + m) image 0%Z) w h c Hwf Hpos).
  intros x y m Hx Hy Hm. replace ((y * w + x) * c + m) with (w * c * y + c * x + m) by ring. apply load_nth.
  pose proof (index_lt w h c x y m Hx Hy Hm). nia.
Qed.

(** 16-bit PNGs store the high byte first. *)
Theorem C52_png16_loaded junk (t : tensor f32) w h c image :
  wf t -> 0 < w * h * c -> length image = 2 * (h * w * c) -> (forall i, is_byte (nth i image 0%Z)) ->
  exists t', png_load16 junk t w h c image = Ok t' /\ wf t' /\ samples t' = 1 /\ width t' = w /\ height t' = h /\ maps t' = c /\
    forall x y m, x < w -> y < h -> m < c ->
      let i := (y * w + x) * c + m in
      at_pos t' x y m 0 = Some (datum_from_ushort (256 * nth (2 * i) image 0 + nth (2 * i + 1) image 0)%Z).
Proof.
  intros Hwf Hpos Hl Hb. unfold png_load16.
  destruct (load_all junk t (fun x y m => native16 image (w * c * y + c * x + m)) (fun p => datum_from_ushort (swap16 p))
    (fun x y m => (nth (2 * (w * c * y + c * x + m)) image 0 + 256 * nth (2 * (w * c * y + c * x + m) + 1) image 0)%Z) w h c Hwf Hpos)
    as (t' & Hr & Hw & H1 & H2 & H3 & H4 & Hat).
  - intros x y m Hx Hy Hm. pose proof (index_lt w h c x y m Hx Hy Hm) as Hi. unfold native16.
    set (i := w * c * y + c * x + m) in *. assert (i < h * w * c) by nia. clearbody i.
    rewrite !(load_nth image _ 0%Z) by lia. reflexivity.
  - exists t'. split; [exact Hr|]. split; [exact Hw|]. split; [exact H1|]. split; [exact H2|]. split; [exact H3|]. split; [exact H4|]. intros x y m Hx Hy Hm. cbv zeta. rewrite Hat by auto.
    replace ((y * w + x) * c + m) with (w * c * y + c * x + m) by ring. now rewrite swap16_spec.
Qed.

(** Reading a PNG with three channels and writing it again reproduces the pixels. *)
Theorem C52_png_round_trip junk junkb (t : tensor f32) w h image :
  wf t -> 0 < w -> 0 < h -> length image = h * w * 3 -> (forall i, is_byte (nth i image 0%Z)) ->
  exists t', png_load8 junk t w h 3 image = Ok t' /\ png_write junkb t' = Ok (Some image).
Proof.
  intros Hwf Hw Hh Hl Hb. destruct (C52_png_loaded junk t w h 3 image Hwf) as (t' & Hr & W' & S1 & S2 & S3 & S4 & Hat); [nia|auto|].
  exists t'. split; [exact Hr|]. unfold png_write. rewrite S1, S4. cbn [Nat.eqb negb].
  destruct (write_spec t' (fun x y m => nth ((y * w + x) * 3 + m) image 0%Z) (map junkb (seq 0 (3 * width t' * height t')))) as (px & He & Hlen & Hpx); auto.
  - now rewrite map_length, seq_length.
  - rewrite S2, S3. intros x y m Hx Hy Hm. eexists. split; [now apply Hat|]. apply byte_trip. apply Hb.
  - fold (pixel_ops t'). rewrite He. cbn [bind]. do 2 f_equal. rewrite S2, S3 in *. apply list_ext. intros i.
    destruct (Nat.lt_ge_cases i (w * h * 3)) as [L|L].
    + destruct (index_dec w h 3 i L) as (x & y & m & Hx & Hy & Hm & ->). rewrite (Hpx x y m Hx Hy Hm).
      replace ((y * w + x) * 3 + m) with (w * 3 * y + 3 * x + m) by ring. symmetry. apply nth_error_nth'. lia.
    + rewrite (proj2 (nth_error_None px i)) by lia. rewrite (proj2 (nth_error_None image i)) by lia. reflexivity.
Qed.

(** Images with another number of channels or samples are refused. *)
Theorem C52_png_refused junkb (t : tensor f32) : samples t <> 1 \/ maps t <> 3 -> png_write junkb t = Ok None.
Proof.
  intros H. unfold png_write. destruct (Nat.eqb_spec (samples t) 1); cbn [negb]; [|reflexivity]. destruct (Nat.eqb_spec (maps t) 3); cbn [negb]; [lia|reflexivity].
Qed.

Lemma Some_inj {A} (a b : A) : Some a = Some b -> a = b.
Proof. congruence. Qed.

(** The same for JPG, line by line. *)
Section JPG.
Variable junk : nat -> f32.
Variable junkb : nat -> Z.

Lemma jpg_line_spec w h c t y line :
  wf t -> samples t = 1 -> width t = w -> height t = h -> maps t = c -> y < h -> length line = w * c ->
  exists t', jpg_line w c (t, y) line = Ok (t', S y) /\ wf t' /\ same_shape t' t /\
    forall x y' m, x < w -> y' < h -> m < c ->
      at_pos t' x y' m 0 = if y' =? y then Some (datum_from_uchar (nth (x * c + m) line 0%Z)) else at_pos t x y' m 0.
Proof.
  intros Hwf Hs <- <- <- Hy Hl. unfold jpg_line.
  set (F := fun x y' m (s : nat) => if y' =? y then Some (datum_from_uchar (nth (x * maps t + m) line 0%Z)) else None).
  assert (Hld : forall x m, x < width t -> m < maps t -> load line (x * maps t + m) = Ok (nth (x * maps t + m) line 0%Z)).
  { intros x m Hx Hm. apply load_nth. pose proof (mix_lt x m (width t) (maps t) Hx Hm). lia. }
  match goal with |- context [run_stores t ?o] => destruct (run_stores_frame t o F) as (t' & Hr & Hwf' & Hsh & Hat) end; auto.
  - intros a rv Hin. apply in_for in Hin as (m & Hm & Hin). apply in_for in Hin as (x & Hx & [E|[]]). inversion E; subst a rv; clear E.
    exists x, y, m, 0, (datum_from_uchar (nth (x * maps t + m) line 0%Z)). split; [repeat split; lia|]. split; [reflexivity|].
    rewrite Hld by auto. split; [reflexivity|]. unfold F. now rewrite Nat.eqb_refl.
  - intros x y' m s v (Hx & Hy' & Hm & Hs') E. unfold F in E. destruct (Nat.eqb_spec y' y) as [->|]; [|discriminate E]. apply Some_inj in E. subst v.
    assert (s = 0) as -> by lia. apply in_for. exists m. split; [auto|]. apply in_for. exists x. split; [auto|]. left. rewrite Hld by auto. reflexivity.
  - exists t'. rewrite Hr. split; [reflexivity|]. split; [exact Hwf'|]. split; [exact Hsh|].
    intros x y' m Hx Hy' Hm. rewrite Hat by (repeat split; lia). unfold F. destruct (y' =? y); reflexivity.
Qed.

Theorem C52_jpg_loaded (t : tensor f32) w h c lines :
  wf t -> 0 < w * h * c -> length lines = h -> Forall (fun line => length line = w * c) lines ->
  exists t', jpg_load junk t w h c lines = Ok t' /\ wf t' /\ samples t' = 1 /\ width t' = w /\ height t' = h /\ maps t' = c /\
    forall x y m, x < w -> y < h -> m < c -> at_pos t' x y m 0 = Some (datum_from_uchar (nth (x * c + m) (nth y lines []) 0%Z)).
Proof.
  intros Hwf Hpos Hl Hf. unfold jpg_load. set (t1 := resize junk t 1 w h c).
  assert (W1 : wf t1) by (apply wf_resize; auto).
  destruct (resize_data junk t 1 w h c) as (E1 & E2 & E3 & E4 & _); [nia|]. fold t1 in E1, E2, E3, E4.
  assert (Hgen : forall ls done t0, wf t0 -> same_shape t0 t1 -> done ++ ls = lines ->
            (forall x y m, x < w -> y < length done -> m < c -> at_pos t0 x y m 0 = Some (datum_from_uchar (nth (x * c + m) (nth y lines []) 0%Z))) ->
            exists t', foldm (jpg_line w c) ls (t0, length done) = Ok (t', h) /\ wf t' /\ same_shape t' t1 /\
              forall x y m, x < w -> y < h -> m < c -> at_pos t' x y m 0 = Some (datum_from_uchar (nth (x * c + m) (nth y lines []) 0%Z))).
  { induction ls as [|l ls IH]; intros done t0 W0 Hsh Hd H0.
    - rewrite app_nil_r in Hd. subst done. exists t0. cbn [foldm]. rewrite <- Hl at 1. split; [reflexivity|]. split; [auto|]. split; [auto|].
      intros. apply H0; auto. lia.
    - destruct Hsh as (A1 & A2 & A3 & A4).
      assert (Hdl : length done < h) by (rewrite <- Hl, <- Hd, app_length; cbn [length]; lia).
      assert (Hll : length l = w * c). { rewrite Forall_forall in Hf. apply Hf. rewrite <- Hd. apply in_or_app. right. now left. }
      destruct (jpg_line_spec w h c t0 (length done) l) as (t2 & Hr & W2 & Hsh2 & Hat2); auto; try congruence; try lia.
      cbn [foldm]. rewrite Hr. cbn [bind].
      replace (S (length done)) with (length (done ++ [l])) by (rewrite app_length; cbn [length]; lia).
      apply IH; auto.
      + eapply same_shape_trans; [exact Hsh2|]. split; [auto|]. auto.
      + rewrite <- app_assoc. exact Hd.
      + intros x y m Hx Hy Hm. rewrite app_length in Hy. cbn [length] in Hy. rewrite Hat2 by (auto; lia).
        destruct (Nat.eqb_spec y (length done)) as [->|Hne]; [|apply H0; auto; lia].
        do 4 f_equal. rewrite <- Hd. rewrite app_nth2 by lia. now rewrite Nat.sub_diag. }
  destruct (Hgen lines [] t1 W1 (same_shape_refl _) eq_refl) as (t' & Hr & W' & (S1 & S2 & S3 & S4) & Hat); [cbn [length]; intros; lia|].
  exists t'. cbn [length] in Hr. rewrite Hr. cbn [bind fst]. split; [reflexivity|]. split; [exact W'|].
  split; [congruence|]. split; [congruence|]. split; [congruence|]. split; [congruence|]. exact Hat.
Qed.

Theorem C52_jpg_round_trip (t : tensor f32) w h lines :
  wf t -> 0 < w -> 0 < h -> length lines = h -> Forall (fun line => length line = w * 3) lines ->
  (forall y i, is_byte (nth i (nth y lines []) 0%Z)) ->
  exists t', jpg_load junk t w h 3 lines = Ok t' /\ jpg_write junkb t' = Ok lines.
Proof.
  intros Hwf Hw Hh Hl Hf Hb. destruct (C52_jpg_loaded t w h 3 lines Hwf) as (t' & Hr & W' & S1 & S2 & S3 & S4 & Hat); [nia|auto|auto|].
  exists t'. split; [exact Hr|]. unfold jpg_write. rewrite S2, S3.
  assert (Hgen : forall k row, k <= h -> length row = 3 * w ->
            exists row', foldm (jpg_step t') (seq 0 k) (row, []) = Ok (row', firstn k lines) /\ length row' = 3 * w).
  { induction k as [|k IH]; intros row Hk Hrow; [exists row; split; [reflexivity|auto]|].
    destruct (IH row ltac:(lia) Hrow) as (r1 & E1 & L1). rewrite seq_S, foldm_app, E1. cbn [bind foldm Nat.add].
    destruct (row_spec t' k r1 (fun x m => nth (x * 3 + m) (nth k lines []) 0%Z)) as (r2 & E2 & L2 & H2); auto; try lia.
    { intros x m Hx Hm. eexists. split; [apply Hat; lia|]. apply byte_trip. apply Hb. }
    unfold jpg_step at 1. cbn [fst snd]. rewrite E2. cbn [bind]. exists r2. split; [|lia]. do 2 f_equal.
    assert (Hn : nth_error lines k = Some (nth k lines [])) by (apply nth_error_nth'; lia).
    assert (Hr2 : r2 = nth k lines []).
    { assert (Hlk : length (nth k lines []) = w * 3). { rewrite Forall_forall in Hf. apply Hf. eapply nth_error_In, Hn. }
      apply list_ext. intros i. destruct (Nat.lt_ge_cases i (3 * w)) as [L|L].
      - destruct (mix_surj i w 3) as (x & m & Hx & Hm & ->); [lia|]. replace (x * 3 + m) with (3 * x + m) at 1 by lia.
        rewrite H2 by lia. symmetry. apply nth_error_nth'. lia.
      - rewrite (proj2 (nth_error_None r2 i)) by lia. rewrite (proj2 (nth_error_None _ i)) by lia. reflexivity. }
    rewrite Hr2. clear - Hn. revert k Hn. induction lines as [|a l IH]; intros [|k] H; cbn in *; try discriminate; [congruence|].
    f_equal. now apply IH. }
  destruct (Hgen h (map junkb (seq 0 (3 * w))) (le_n _)) as (row' & E & _); [now rewrite map_length, seq_length|].
  rewrite E. cbn [bind snd]. f_equal. apply firstn_all2. lia.
Qed.
End JPG.

(** Finding: writing a JPG does not check the number of channels and reads behind the data
    of a tensor with one channel. *)
Definition grey_pixel : tensor f32 := mkTensor 1 1 1 1 1 (Some [f32_zero]).
Theorem C52_jpg_grey_refuted junkb : wf grey_pixel /\ jpg_write junkb grey_pixel = UB.
Proof. split; [split; [reflexivity|]; cbn; lia|reflexivity]. Qed.

(** Finding: datums outside [0, 1], as networks produce them, have no defined byte. *)
Theorem C52_out_of_range_refuted : uchar_from_datum (f_of_Z 2) = UB /\ uchar_from_datum (f_of_Z (-1)) = UB.
Proof. split; vm_compute; reflexivity. Qed.

(** The array for the pixels: as long as the image has fewer than 2^32 samples, the rows lie in it one after the other and fill it. *)
Theorem C52_png_buffer w h c : (0 < w -> 0 < h -> 0 < c -> w * h * c < 2 ^ 32 ->
  png_buffer_size w h c = h * png_row_stride w c /\ png_row_stride w c = w * c /\
  forall row, 0 <= row < h -> png_row_start w c row = row * (w * c) /\ png_row_start w c row + png_row_stride w c <= png_buffer_size w h c)%Z.
Proof.
  intros Hw Hh Hc B. assert (E1 : png_row_stride w c = (w * c)%Z) by (unfold png_row_stride, wrap32; apply Z.mod_small; nia).
  assert (E2 : png_buffer_size w h c = (h * (w * c))%Z).
  { unfold png_buffer_size, wrap32. rewrite Z.mul_mod_idemp_l by lia. rewrite Z.mod_small; nia. }
  rewrite E1, E2. split; [reflexivity|]. split; [reflexivity|]. intros row Hr. assert (E3 : png_row_start w c row = (row * (w * c))%Z).
  { unfold png_row_start. rewrite E1. unfold wrap32. apply Z.mod_small. nia. }
  rewrite E3. split; [reflexivity|nia].
Qed.
(** Finding: the size is computed with 32 bits.  For a 40000 x 40000 RGB image (libpng accepts up to a million in each direction) row 10000 is
    written outside the array. *)
Theorem C52_png_big_refuted : exists w h c row, (0 < w <= 1000000 /\ 0 < h <= 1000000 /\ c = 3 /\ 0 <= row < h /\
  png_buffer_size w h c < png_row_start w c row)%Z.
Proof. exists 40000%Z, 40000%Z, 3%Z, 10000%Z. vm_compute. repeat split; congruence. Qed.

(** Non-vacuity: a 1 x 2 image. *)
Example C52_example :
  (t <- png_load8 (fun _ => 0%Z) empty_tensor 1 2 3 [0; 127; 255; 1; 2; 254]%Z ;; png_write (fun _ => 0%Z) t) = Ok (Some [0; 127; 255; 1; 2; 254]%Z).
Proof. vm_compute. reflexivity. Qed.

Print Assumptions C52_byte.
Print Assumptions C52_order.
Print Assumptions C52_png_loaded.
Print Assumptions C52_png16_loaded.
Print Assumptions C52_png_round_trip.
Print Assumptions C52_png_refused.
Print Assumptions C52_jpg_loaded.
Print Assumptions C52_jpg_round_trip.
Print Assumptions C52_jpg_grey_refuted.
Print Assumptions C52_out_of_range_refuted.
Print Assumptions C52_png_buffer.
Print Assumptions C52_png_big_refuted.

(** C70: classifyImage shows the network the padded image and colours every pixel of the image. *)
From Coq Require Import Reals Lra.
From Flocq Require Import Core.
From Verif Require Import Base BaseFacts Float32 FloatOps Float64_Flocq FloatNonneg Tensor_Model Tensor_Spec Tensor_Proofs Tensor_Props Dataset_Model Dataset_Spec Dataset_Proofs
  Pixel_Model Pixel_Props Colorize_Model Colorize_Props UBFacts Classify_Model.
Local Open Scope nat_scope.

(** The smallest multiple of 8 that is at least [n]. *)
Definition up8 (n : nat) : nat := 8 * ((n + 7) / 8).

Lemma up8_least n : up8 n mod 8 = 0 /\ n <= up8 n /\ forall r, r mod 8 = 0 -> n <= r -> up8 n <= r.
Proof.
  unfold up8. split; [rewrite Nat.mul_comm; apply Nat.mod_mul; lia|]. split.
  - pose proof (Nat.div_mod (n + 7) 8 ltac:(lia)). pose proof (Nat.mod_upper_bound (n + 7) 8 ltac:(lia)). lia.
  - intros r Hr Hn. apply Nat.mod_divide in Hr as [q ->]; [|lia]. enough ((n + 7) / 8 <= q) by lia.
    apply Nat.lt_succ_r. apply Nat.div_lt_upper_bound; lia.
Qed.

Lemma padded_up8 n : (Z.of_nat n <= 2 ^ 32 - 8)%Z -> padded n = up8 n.
Proof.
  intros Hn. unfold padded, u32, round8. rewrite Z.mod_small by lia. cbn [fold_left]. set (v := Z.of_nat n) in *.
  assert (P : forall i k, (0 <= i -> k = 2 ^ i -> exists i, 0 <= i /\ k = 2 ^ i)%Z) by eauto.
  destruct (round_step_spec v v 1) as [B1 M1]; [lia|lia|lia|exists 0%Z; lia|lia|apply Z.mod_1_r|].
  destruct (round_step_spec v _ 2 ltac:(lia) ltac:(lia) ltac:(lia) (P 1 2 ltac:(lia) eq_refl)%Z B1 M1) as [B2 M2].
  destruct (round_step_spec v _ 4 ltac:(lia) ltac:(lia) ltac:(lia) (P 2 4 ltac:(lia) eq_refl)%Z B2 M2) as [B3 M3].
  set (r := round_step _ 4) in *. change (2 * 4)%Z with 8%Z in *.
  destruct (up8_least n) as (U1 & U2 & U3). apply Z.mod_divide in M3 as [q Hq]; [|lia]. apply Nat.mod_divide in U1 as [p Hp]; [|lia].
  assert (up8 n <= Z.to_nat r). { apply U3; [|lia]. apply Nat.mod_divide; [lia|]. exists (Z.to_nat q). lia. }
  lia.
Qed.

(** The two tensors the network sees: the image at the origin of a zero tensor of the padded size,
    and the relative positions of the image's pixels, zero outside the image. *)
Definition shows_image (image data : tensor f32) : Prop :=
  shape_is data 1 (up8 (width image)) (up8 (height image)) (maps image) /\
  forall x y m, x < width data -> y < height data -> m < maps image ->
    at_pos data x y m 0 = if (x <? width image) && (y <? height image) then at_pos image x y m 0 else Some f32_zero.
Definition shows_prior (image helper : tensor f32) : Prop :=
  shape_is helper 1 (up8 (width image)) (up8 (height image)) 2 /\
  forall x y, x < width helper -> y < height helper ->
    let inside := (x <? width image) && (y <? height image) in
    at_pos helper x y 0 0 = Some (if inside then prior x (width image) else f32_zero) /\
    at_pos helper x y 1 0 = Some (if inside then prior y (height image) else f32_zero).

(** Sizes an unsigned int can still be rounded up, and a shape whose padding rows the tool can clear. *)
Definition proper_image (image : tensor f32) : Prop :=
  wf image /\ data image <> None /\ (Z.of_nat (width image) <= 2 ^ 32 - 8)%Z /\ (Z.of_nat (height image) <= 2 ^ 32 - 8)%Z.
Definition not_tall (image : tensor f32) : Prop :=
  height image mod 8 = 0 \/ up8 (height image) <= up8 (width image).

Lemma wf_nonzero (t : tensor f32) : wf t -> data t <> None -> 0 < samples t /\ 0 < width t /\ 0 < height t /\ 0 < maps t.
Proof.
  intros [E W] Hd. destruct (data t); [|congruence]. destruct W as [_ W]. rewrite E in W.
  destruct (samples t), (width t), (height t), (maps t); cbn in W |- *; lia.
Qed.

Lemma up8_of_multiple n : n mod 8 = 0 -> up8 n = n.
Proof. intros H. destruct (up8_least n) as (_ & U2 & U3). specialize (U3 n H (Nat.le_refl n)). lia. Qed.

Section Classify.
Variable junk : nat -> f32.

Lemma new_shape s w h m : 0 < s -> 0 < w -> 0 < h -> 0 < m -> shape_is (new_tensor junk s w h m) s w h m.
Proof.
  intros A B C E. unfold new_tensor. destruct (resize_data junk empty_tensor s w h m) as (R1 & R2 & R3 & R4 & _).
  { intros Hz. repeat (apply Nat.eq_mul_0 in Hz as [Hz|Hz]); lia. }
  split; [|auto]. apply wf_resize. split; [reflexivity|repeat split].
Qed.

Lemma cleared s w h m : 0 < s -> 0 < w -> 0 < h -> 0 < m -> exists t, clear (new_tensor junk s w h m) f32_zero None = Ok t /\
  shape_is t s w h m /\ forall x y c k, x < w -> y < h -> c < m -> k < s -> at_pos t x y c k = Some f32_zero.
Proof.
  intros A B C E. destruct (new_shape s w h m A B C E) as (W & S1 & S2 & S3 & S4).
  destruct (C08_clear_all (new_tensor junk s w h m) f32_zero W) as (t & Ht & Wt & (Q1 & Q2 & Q3 & Q4) & Hv).
  exists t. split; [exact Ht|]. split; [split; [exact Wt|]; repeat split; congruence|]. intros. apply Hv. unfold valid_pos. lia.
Qed.

Lemma prior_spec helper ow oh w h :
  shape_is helper 1 w h 2 -> ow <= w -> oh <= h -> (oh = h \/ h <= w) ->
  (forall x y m, x < w -> y < h -> m < 2 -> at_pos helper x y m 0 = Some f32_zero) ->
  exists t', run_stores helper (prior_stores helper ow oh w h) = Ok t' /\ shape_is t' 1 w h 2 /\
    forall x y m, x < w -> y < h -> m < 2 -> at_pos t' x y m 0 = Some (if (x <? ow) && (y <? oh) then if m =? 0 then prior x ow else prior y oh else f32_zero).
Proof.
  intros (Hwf & Hs & Hw & Hh & Hm) How Hoh Hsq Hz.
  set (F := fun x y m (s : nat) => if (y <? oh) || (x <? h) then Some (if (x <? ow) && (y <? oh) then if m =? 0 then prior x ow else prior y oh else f32_zero) else None).
  destruct (run_stores_frame helper (prior_stores helper ow oh w h) F) as (t' & Hr & Hwf' & (Q1 & Q2 & Q3 & Q4) & Hat); auto.
  - intros a rv Hin. unfold prior_stores in Hin. apply in_app_or in Hin as [Hin|Hin].
    + apply in_for in Hin as (y & Hy & Hin).
      assert (Ly : (y <? oh) = true) by lia.
      apply in_app_or in Hin as [Hin|Hin].
      * apply in_for in Hin as (x & Hx & [E|[E|[]]]); inversion E; subst; clear E.
        -- exists x, y, 0, 0, (prior x ow). split; [repeat split; lia|]. split; [auto|]. split; [auto|].
           unfold F. rewrite Ly. replace (x <? ow) with true by lia. reflexivity.
        -- exists x, y, 1, 0, (prior y oh). split; [repeat split; lia|]. split; [auto|]. split; [auto|].
           unfold F. rewrite Ly. replace (x <? ow) with true by lia. reflexivity.
      * apply in_for_from in Hin as (x & Hx & Hin).
        destruct Hin as [E|[E|[]]]; inversion E; subst; clear E;
          [exists x, y, 0, 0, f32_zero|exists x, y, 1, 0, f32_zero]; (split; [repeat split; lia|]; split; [auto|]; split; [auto|];
          unfold F; rewrite Ly; replace (x <? ow) with false by lia; reflexivity).
    + apply in_for_from in Hin as (y & Hy & Hin). apply in_for in Hin as (x & Hx & Hin). destruct Hsq as [->|Hsq]; [lia|].
      assert (Ly : (y <? oh) = false) by lia. assert (Lx : (x <? h) = true) by lia.
      destruct Hin as [E|[E|[]]]; inversion E; subst; clear E;
        [exists x, y, 0, 0, f32_zero|exists x, y, 1, 0, f32_zero]; (split; [repeat split; lia|]; split; [auto|]; split; [auto|];
          unfold F; rewrite Ly, Lx, andb_false_r; reflexivity).
  - intros x y m s v (Hx & Hy & Hm' & Hs') E. unfold F in E. rewrite Hm in Hm'. assert (s = 0) by lia. subst s. unfold prior_stores. apply in_or_app.
    destruct (Nat.lt_ge_cases y oh) as [Ly|Ly]; [left|right].
    + apply in_for. exists y. split; auto. apply in_or_app. replace (y <? oh) with true in E by lia. rewrite andb_true_r in E. cbn [orb] in E. inversion E; subst v; clear E.
      destruct (Nat.lt_ge_cases x ow) as [Lx|Lx]; [left|right].
      * apply in_for. exists x. split; auto. replace (x <? ow) with true by lia. destruct m as [|[|m]]; [left|right; left|lia]; reflexivity.
      * apply in_for_from. exists x. split; [lia|]. replace (x <? ow) with false by lia. destruct m as [|[|m]]; [left|right; left|lia]; reflexivity.
    + apply in_for_from. exists y. split; [lia|]. apply in_for. exists x. replace (y <? oh) with false in E by lia. rewrite andb_false_r in E. cbn [orb] in E.
      destruct (Nat.ltb_spec x h) as [Lx|Lx]; [|discriminate]. inversion E; subst v; clear E. split; [exact Lx|].
      destruct m as [|[|m]]; [left|right; left|lia]; reflexivity.
  - exists t'. split; [exact Hr|]. split; [split; [exact Hwf'|]; repeat split; congruence|]. intros x y m Hx Hy Hm'.
    rewrite Hat by (unfold valid_pos; lia). unfold F. destruct (Nat.ltb_spec y oh) as [Ly|Ly]; cbn [orb]; [reflexivity|]. rewrite andb_false_r.
    destruct (x <? h); [reflexivity|]. now apply Hz.
Qed.

Lemma inputs_spec image : proper_image image -> not_tall image ->
  exists d h, inputs junk image = Ok (d, h) /\ shows_image image d /\ shows_prior image h.
Proof.
  intros (W & Hd & Bw & Bh) Ht. destruct (wf_nonzero image W Hd) as (P1 & P2 & P3 & P4). unfold inputs. rewrite !padded_up8 by assumption.
  destruct (up8_least (width image)) as (_ & Uw & _). destruct (up8_least (height image)) as (_ & Uh & _).
  destruct (cleared 1 (up8 (width image)) (up8 (height image)) (maps image)) as (d & Ed & (Wd & D1 & D2 & D3 & D4) & Zd); try lia.
  destruct (cleared 1 (up8 (width image)) (up8 (height image)) 2) as (h & Eh & Sh & Zh); try lia.
  rewrite Ed. cbn [bind]. rewrite Eh. cbn [bind].
  destruct (C05_copy_sample f32_zero image 0 d 0 W Wd P4) as (d' & ok & Ec & Hok & Wd' & (Q1 & Q2 & Q3 & Q4) & _ & Hc).
  rewrite Ec. cbn [bind fst].
  destruct (prior_spec h (width image) (height image) (up8 (width image)) (up8 (height image)) Sh Uw Uh) as (h' & Eh' & Sh' & Vh).
  { destruct Ht as [Ht|Ht]; [left; symmetry; now apply up8_of_multiple|now right]. }
  { intros x y m Hx Hy Hm. apply Zh; lia. }
  rewrite Eh'. cbn [bind]. exists d', h'. split; [reflexivity|]. split; split.
  - split; [exact Wd'|]. repeat split; congruence.
  - intros x y m Hx Hy Hm. rewrite (Hc (proj2 Hok ltac:(lia)) x y m 0) by (unfold valid_pos; lia). reflexivity.
  - exact Sh'.
  - destruct Sh' as (_ & _ & Sw & Shh & _). intros x y Hx Hy inside. rewrite Sw in Hx. rewrite Shh in Hy. split; rewrite Vh by lia; reflexivity.
Qed.

Lemma crop_spec (colored : tensor f32) w h : wf colored -> 1 <= samples colored -> 0 < w <= width colored -> 0 < h <= height colored -> 3 <= maps colored ->
  let small := new_tensor junk 1 w h 3 in
  exists t, run_stores small (crop_stores colored small) = Ok t /\ shape_is t 1 w h 3 /\
    forall x y c, x < w -> y < h -> c < 3 -> at_pos t x y c 0 = at_pos colored x y c 0.
Proof.
  intros W S Hw Hh Hm small. destruct (new_shape 1 w h 3) as (Ws & S1 & S2 & S3 & S4); try lia. fold small in Ws, S1, S2, S3, S4.
  assert (V : forall x y c, x < w -> y < h -> c < 3 -> exists v, at_pos colored x y c 0 = Some v /\ get colored x y c 0 = Ok v).
  { intros x y c Hx Hy Hc. destruct (at_pos_some colored x y c 0 W) as (v & Ev); [unfold valid_pos; lia|]. exists v. split; [exact Ev|now apply at_pos_get]. }
  destruct (run_stores_frame small (crop_stores colored small) (fun x y c s => at_pos colored x y c 0) Ws) as (t & E & Wt & (Q1 & Q2 & Q3 & Q4) & Hat).
  - intros a rv Hi. apply in_for in Hi as (c & Hc & Hi). apply in_for in Hi as (y & Hy & Hi). apply in_for in Hi as (x & Hx & [Hi|[]]). injection Hi as <- <-.
    destruct (V x y c) as (v & E1 & E2); try lia. exists x, y, c, 0, v. split; [unfold valid_pos; lia|]. auto.
  - intros x y c s v (Hx & Hy & Hc & Hs) Hv. destruct (V x y c) as (v' & E1 & E2); try lia. rewrite E1 in Hv. injection Hv as ->.
    apply in_for. exists c. split; [lia|]. apply in_for. exists y. split; [lia|]. apply in_for. exists x. split; [lia|]. left. rewrite E2. f_equal. f_equal. lia.
  - exists t. split; [exact E|]. split; [split; [exact Wt|]; repeat split; congruence|]. intros x y c Hx Hy Hc.
    destruct (V x y c) as (v & E1 & _); try lia. rewrite Hat by (unfold valid_pos; lia). now rewrite E1.
Qed.
End Classify.

(** What the network is asked to answer: one sample that covers the image with a map for every class. *)
Definition answers (image output : tensor f32) (classes : nat) : Prop :=
  wf output /\ samples output = 1 /\ width image <= width output /\ height image <= height output /\ classes <= maps output.

(** Several classes: whatever the network answers for the padded image and its prior, the tool makes a
    picture of exactly the image's size in which every pixel has the colour of the first class with the
    largest answer at that pixel (class 0 if no answer is above the smallest positive normal float). *)
Theorem C70_classify : forall junk net classes colors image,
  proper_image image -> not_tall image -> 2 <= classes <= length colors ->
  exists d h, shows_image image d /\ shows_prior image h /\
    (net d h = Fatal -> classify junk net classes colors image = Fatal) /\
    forall output, net d h = Ok output -> answers image output classes ->
    exists picture, classify junk net classes colors image = Ok picture /\
      shape_is picture 1 (width image) (height image) 3 /\
      forall x y, x < width image -> y < height image ->
        exists best val, best < classes /\ (forall k, k < classes -> at_pos output x y k 0 = Some (val k)) /\
          first_largest classes val f32_min_positive best /\
          forall c, c < 3 -> at_pos picture x y c 0 = Some (datum_from_uchar (rgb (nth best colors 0%Z) c)).
Proof.
  intros junk net classes colors image Hi Ht Hc. destruct (inputs_spec junk image Hi Ht) as (d & h & E & Sd & Sh).
  exists d, h. split; [exact Sd|]. split; [exact Sh|]. unfold classify. rewrite E. cbn [bind fst snd]. split; [intros ->; reflexivity|].
  intros output En (Wo & So & Ow & Oh & Om). rewrite En. cbn [bind].
  destruct Hi as (W & Hd & _ & _). destruct (wf_nonzero image W Hd) as (P1 & P2 & P3 & P4).
  destruct (new_shape junk 1 (width output) (height output) 3) as (Wt & T1 & T2 & T3 & T4); try lia.
  set (target := new_tensor junk 1 (width output) (height output) 3) in *.
  destruct (C51_strongest_class classes colors output target) as (target' & best & Ec & Hb & (Wp & (Q1 & Q2 & Q3 & Q4) & Hp) & _); auto; try lia.
  rewrite Ec. cbn [bind].
  destruct (crop_spec junk target' (width image) (height image)) as (t & Er & St & Hat); auto; try lia.
  exists t. split; [exact Er|]. split; [exact St|]. intros x y Hx Hy.
  destruct (Hb x y 0) as (Lb & val & Hv & Fl); try lia. exists (best x y 0), val. split; [exact Lb|]. split; [exact Hv|]. split; [exact Fl|].
  intros c Hc3. rewrite Hat by assumption. rewrite Hp by (unfold valid_pos; lia).
  destruct (Nat.ltb_spec x (width output)), (Nat.ltb_spec y (height output)), (Nat.ltb_spec 0 (samples output)), (Nat.ltb_spec c 3); cbn [andb]; try lia. reflexivity.
Qed.

(** One class: the colour is scaled by (answer + 1) / 2. *)
Theorem C70_classify_one : forall junk net color rest image,
  proper_image image -> not_tall image ->
  exists d h, shows_image image d /\ shows_prior image h /\
    forall output, net d h = Ok output -> answers image output 1 ->
    exists picture, classify junk net 1 (color :: rest) image = Ok picture /\
      shape_is picture 1 (width image) (height image) 3 /\
      forall x y c, x < width image -> y < height image -> c < 3 ->
        exists v, at_pos output x y 0 0 = Some v /\
          at_pos picture x y c 0 = Some (fmul (datum_from_uchar (rgb color c)) (fdiv (fadd v f32_one) (f_of_Z 2))).
Proof.
  intros junk net color rest image Hi Ht. destruct (inputs_spec junk image Hi Ht) as (d & h & E & Sd & Sh).
  exists d, h. split; [exact Sd|]. split; [exact Sh|]. intros output En (Wo & So & Ow & Oh & Om).
  destruct Hi as (W & Hd & _ & _). destruct (wf_nonzero image W Hd) as (P1 & P2 & P3 & P4).
  unfold classify. rewrite E. cbn [bind fst snd]. rewrite En. cbn [bind].
  destruct (new_shape junk 1 (width output) (height output) 3) as (Wt & T1 & T2 & T3 & T4); try lia.
  set (target := new_tensor junk 1 (width output) (height output) 3) in *.
  destruct (C51_single_class (color :: rest) color rest output target) as (target' & val & Ec & Hb & (Wp & (Q1 & Q2 & Q3 & Q4) & Hp)); auto; try lia.
  rewrite Ec. cbn [bind].
  destruct (crop_spec junk target' (width image) (height image)) as (t & Er & St & Hat); auto; try lia.
  exists t. split; [exact Er|]. split; [exact St|]. intros x y c Hx Hy Hc3. exists (val x y 0). split; [apply Hb; lia|].
  rewrite Hat by assumption. rewrite Hp by (unfold valid_pos; lia).
  destruct (Nat.ltb_spec x (width output)), (Nat.ltb_spec y (height output)), (Nat.ltb_spec 0 (samples output)), (Nat.ltb_spec c 3); cbn [andb]; try lia. reflexivity.
Qed.

(** The prior of a side of 2 to 2^24 - 1 pixels: the nearest float to x / (w - 1), from exactly 0 for the
    first pixel to exactly 1 for the last. *)
Theorem C70_prior : forall x w, 2 <= w -> (Z.of_nat w < 2 ^ 24)%Z -> x < w ->
  rep32 (prior x w) (rnd32 (IZR (Z.of_nat x) / IZR (Z.of_nat w - 1)))%R /\
  (0 <= rnd32 (IZR (Z.of_nat x) / IZR (Z.of_nat w - 1)) <= 1)%R /\
  (x = 0 -> rep32 (prior x w) 0) /\ (x = w - 1 -> rep32 (prior x w) 1).
Proof.
  intros x w Hw Hb Hx. unfold prior.
  assert (Rx : rep32 (f_of_Z (Z.of_nat x)) (IZR (Z.of_nat x))) by (apply rep32_int; lia).
  assert (Rw : rep32 (f_of_Z (Z.of_nat w)) (IZR (Z.of_nat w))) by (apply rep32_int; lia).
  assert (R1 : rep32 f32_one (IZR 1)) by (change f32_one with (f_of_Z 1); apply rep32_int; lia).
  assert (Q : (0 <= IZR (Z.of_nat x) / IZR (Z.of_nat w - 1) <= 1)%R).
  { assert (0 < IZR (Z.of_nat w - 1))%R by (apply IZR_lt; lia). assert (0 <= IZR (Z.of_nat x))%R by (apply IZR_le; lia).
    assert (IZR (Z.of_nat x) <= IZR (Z.of_nat w - 1))%R by (apply IZR_le; lia). split.
    - apply Rmult_le_pos; [assumption|]. left. now apply Rinv_0_lt_compat.
    - apply (Rmult_le_reg_r (IZR (Z.of_nat w - 1))); [assumption|]. unfold Rdiv. rewrite Rmult_assoc, Rinv_l by lra. lra. }
  assert (B1 : (1 <= bpow radix2 127)%R) by (apply (bpow_le radix2 0 127); lia).
  assert (D : rep32 (fdiv (f_of_Z (Z.of_nat x)) (fsub (f_of_Z (Z.of_nat w)) f32_one)) (rnd32 (IZR (Z.of_nat x) / IZR (Z.of_nat w - 1)))).
  { apply rep32_div; [exact Rx| | |].
    - rewrite <- (rnd32_int (Z.of_nat w - 1)) by lia. rewrite minus_IZR. apply rep32_sub; [exact Rw|exact R1|]. rewrite <- minus_IZR.
      rewrite Rabs_pos_eq by (apply IZR_le; lia). apply Rle_trans with (bpow radix2 24); [|apply bpow_le; lia]. apply (IZR_le _ (2 ^ 24)). lia.
    - apply IZR_neq. lia.
    - rewrite Rabs_pos_eq by apply Q. lra. }
  split; [exact D|]. split; [|split].
  - split; [rewrite <- (rnd32_int 0) by lia; now apply rnd32_le|rewrite <- (rnd32_int 1) by lia; now apply rnd32_le].
  - intros ->. replace (IZR (Z.of_nat 0) / IZR (Z.of_nat w - 1))%R with (IZR 0) in D by (unfold Rdiv; cbn; ring). rewrite rnd32_int in D by lia. exact D.
  - intros ->. replace (IZR (Z.of_nat (w - 1)) / IZR (Z.of_nat w - 1))%R with (IZR 1) in D.
    + rewrite rnd32_int in D by lia. exact D.
    + replace (Z.of_nat (w - 1)) with (Z.of_nat w - 1)%Z by lia. unfold Rdiv. rewrite Rinv_r; [reflexivity|]. apply IZR_neq. lia.
Qed.

(** A 3 x 2 image: padded to 8 x 8, and an answer of two maps with a larger second value somewhere. *)
Definition ex_image : tensor f32 := mkTensor 1 3 2 1 6 (Some (map f_of_Z [1; 2; 3; 4; 5; 6]%Z)).
Definition ex_net (d h : tensor f32) : res (tensor f32) :=
  Ok (mkTensor 1 8 8 2 128 (Some (repeat f32_one 64 ++ [f_of_Z 0; f_of_Z 2] ++ repeat f32_zero 62))).
Example C70_witness : proper_image ex_image /\ not_tall ex_image /\
  (forall d h, exists output, ex_net d h = Ok output /\ answers ex_image output 2) /\
  exists p, classify (fun _ => 7%Z) ex_net 2 [16711680; 65280]%Z ex_image = Ok p /\
    data p = Some (map datum_from_uchar [255; 0; 255; 255; 255; 255;  0; 255; 0; 0; 0; 0;  0; 0; 0; 0; 0; 0]%Z).
Proof.
  split; [|split; [|split]].
  - repeat split; cbn; try lia; discriminate.
  - right. reflexivity.
  - intros d h. eexists. split; [reflexivity|]. repeat split; cbn; lia.
  - eexists. split; vm_compute; reflexivity.
Qed.

(** The full claim, for images of every shape, is false: whenever the padded image is higher than wide
    and has padding rows, clearing those rows runs past the end of the helper tensor. *)
Theorem C70_tall_refuted : forall junk net classes colors image,
  proper_image image -> ~ not_tall image -> classify junk net classes colors image = UB.
Proof.
  intros junk net classes colors image (W & Hd & Bw & Bh) Ht. destruct (wf_nonzero image W Hd) as (P1 & P2 & P3 & P4).
  unfold classify. enough (inputs junk image = UB) as -> by reflexivity. unfold inputs. rewrite !padded_up8 by assumption.
  destruct (up8_least (width image)) as (_ & Uw & _). destruct (up8_least (height image)) as (Mh & Uh & _).
  destruct (cleared junk 1 (up8 (width image)) (up8 (height image)) (maps image)) as (d & Ed & (Wd & D1 & D2 & D3 & D4) & Zd); try lia.
  destruct (cleared junk 1 (up8 (width image)) (up8 (height image)) 2) as (h & Eh & (Wh & H1 & H2 & H3 & H4) & Zh); try lia.
  rewrite Ed. cbn [bind]. rewrite Eh. cbn [bind].
  destruct (C05_copy_sample f32_zero image 0 d 0 W Wd P4) as (d' & ok & Ec & _). rewrite Ec. cbn [bind fst].
  assert (T1 : height image < up8 (height image)).
  { destruct (Nat.eq_dec (height image) (up8 (height image))) as [E|]; [|lia]. exfalso. apply Ht. left. now rewrite E. }
  assert (T2 : up8 (width image) < up8 (height image)) by (destruct (Nat.lt_ge_cases (up8 (width image)) (up8 (height image))); [assumption|exfalso; apply Ht; now right]).
  set (ops := prior_stores _ _ _ _ _). assert (Hin : In (2 * up8 (width image) * up8 (height image), Ok f32_zero) ops).
  { apply in_or_app. right. apply in_for_from. exists (up8 (height image) - 1). split; [lia|]. apply in_for. exists (up8 (width image)). split; [lia|].
    right. left. f_equal. unfold offset. rewrite H2, H3. nia. }
  assert (Hall : forall a rv, In (a, rv) ops -> rv <> Fatal).
  { intros a rv Hi. unfold ops, prior_stores in Hi. apply in_app_or in Hi as [Hi|Hi].
    - apply in_for in Hi as (y & _ & Hi). apply in_app_or in Hi as [Hi|Hi]; [apply in_for in Hi as (x & _ & Hi)|apply in_for_from in Hi as (x & _ & Hi)];
        destruct Hi as [Hi|[Hi|[]]]; injection Hi as _ <-; discriminate.
    - apply in_for_from in Hi as (y & _ & Hi). apply in_for in Hi as (x & _ & Hi). destruct Hi as [Hi|[Hi|[]]]; injection Hi as _ <-; discriminate. }
  destruct Wh as [El Wh]. destruct (data h) as [l|] eqn:Edl; [|lia].
  rewrite (run_stores_ub h l ops _ _ Edl Hall Hin); [reflexivity|]. right. destruct Wh as [-> _]. rewrite El, H1, H2, H3, H4. nia.
Qed.
Definition ex_tall : tensor f32 := mkTensor 1 8 9 1 72 (Some (repeat f32_one 72)).
Example C70_tall_witness : proper_image ex_tall /\ ~ not_tall ex_tall.
Proof. split; [repeat split; cbn; try lia; discriminate|]. intros [H|H]; cbn in H; lia. Qed.

(** Nor is the prior a number for an image that is one pixel wide (or high). *)
Theorem C70_one_pixel_refuted : forall junk image, proper_image image -> not_tall image ->
  exists d h, inputs junk image = Ok (d, h) /\
    (width image = 1 -> forall y, y < height image -> exists v, at_pos h 0 y 0 0 = Some v /\ f32_nan v = true) /\
    (height image = 1 -> forall x, x < width image -> exists v, at_pos h x 0 1 0 = Some v /\ f32_nan v = true).
Proof.
  intros junk image Hi Ht. destruct (inputs_spec junk image Hi Ht) as (d & h & E & _ & ((_ & _ & S2 & S3 & _) & Hp)). exists d, h. split; [exact E|].
  destruct (up8_least (width image)) as (_ & Uw & _). destruct (up8_least (height image)) as (_ & Uh & _).
  split; intros E1 z Hz; exists (prior 0 1).
  - destruct (Hp 0 z) as [-> _]; try lia. rewrite E1. split; [|vm_compute; reflexivity]. replace (z <? height image) with true by lia. reflexivity.
  - destruct (Hp z 0) as [_ ->]; try lia. rewrite E1. split; [|vm_compute; reflexivity]. replace (z <? width image) with true by lia. reflexivity.
Qed.

Print Assumptions C70_classify.
Print Assumptions C70_classify_one.
Print Assumptions C70_prior.
Print Assumptions C70_tall_refuted.
Print Assumptions C70_one_pixel_refuted.

(** C33, C63: lists of images and colour coded labels. *)
From Coq Require Import ZifyBool ZifyNat.
From Verif Require Import Base BaseFacts Float32 FloatOps Tensor_Model Tensor_Spec Tensor_Proofs DatasetInput_Proofs Pixel_Model Pixel_Proofs List_Model.

(** ** C33 *)

(** The colour (three datums) of a pixel of an image with three channels or one. *)
Definition shows (rgb : tensor f32) (x y : nat) (p : f32 * f32 * f32) : Prop :=
  let '(r, g, b) := p in
  at_pos rgb x y 0 0 = Some r /\ at_pos rgb x y (if maps rgb =? 3 then 1 else 0) 0 = Some g /\ at_pos rgb x y (if maps rgb =? 3 then 2 else 0) 0 = Some b.

(** 1 where the pixel has the colour of class [c], else 0. *)
Definition one_hot (colors : list Z) (p : f32 * f32 * f32) (c : nat) : option f32 :=
  option_map (fun color => if matches color p then f32_one else f32_zero) (nth_error colors c).

Lemma pixel_rgb_spec rgb x y : wf rgb -> maps rgb = 3 \/ maps rgb = 1 -> 0 < samples rgb -> x < width rgb -> y < height rgb ->
  exists p, pixel_rgb rgb x y = Ok p /\ shows rgb x y p.
Proof.
  intros Hwf Hm Hs Hx Hy. unfold pixel_rgb, shows.
  destruct (at_pos_some rgb x y 0 0 Hwf) as [r Er]; [repeat split; lia|]. destruct Hm as [Hm|Hm]; rewrite Hm; cbn [Nat.eqb].
  - destruct (at_pos_some rgb x y 1 0 Hwf) as [g Eg]; [repeat split; lia|]. destruct (at_pos_some rgb x y 2 0 Hwf) as [b Eb]; [repeat split; lia|].
    rewrite (at_pos_get _ _ _ _ _ _ Er), (at_pos_get _ _ _ _ _ _ Eg), (at_pos_get _ _ _ _ _ _ Eb). exists (r, g, b). auto.
  - rewrite (at_pos_get _ _ _ _ _ _ Er). exists (r, r, r). auto.
Qed.

Lemma shows_unique rgb x y p q : shows rgb x y p -> shows rgb x y q -> p = q.
Proof. destruct p as [[a b] c], q as [[a' b'] c']. unfold shows. intros (A & B & C) (A' & B' & C'). congruence. Qed.

Lemma in_classes (colors : list Z) c color : In (c, color) (combine (seq 0 (length colors)) colors) <-> nth_error colors c = Some color.
Proof.
  enough (H : forall n, In (c, color) (combine (seq n (length colors)) colors) <-> n <= c /\ nth_error colors (c - n) = Some color).
  { rewrite H, Nat.sub_0_r. intuition lia. }
  induction colors as [|a l IH]; intros n; cbn [length seq combine In].
  - split; [intros []|]. intros [_ H]. destruct (c - n); discriminate.
  - rewrite IH. split.
    + intros [E|[Hn E]]; [inversion E; subst; rewrite Nat.sub_diag; auto|]. split; [lia|]. now replace (c - n) with (S (c - S n)) by lia.
    + intros [Hn E]. destruct (Nat.eq_dec c n) as [->|Hne]; [rewrite Nat.sub_diag in E; cbn in E; left; congruence|].
      right. split; [lia|]. now replace (c - n) with (S (c - S n)) in E by lia.
Qed.

Lemma label_pixel_spec colors rgb lab x y p :
  wf rgb -> maps rgb = 3 \/ maps rgb = 1 -> 0 < samples rgb -> x < width rgb -> y < height rgb -> shows rgb x y p ->
  wf lab -> samples lab = 1 -> width lab = width rgb -> height lab = height rgb -> maps lab = length colors ->
  exists lab', label_pixel colors rgb lab y x = Ok lab' /\ wf lab' /\ same_shape lab' lab /\
    forall x' y' c, valid_pos lab x' y' c 0 -> at_pos lab' x' y' c 0 =
      if (x' =? x) && (y' =? y) && match nth_error colors c with Some color => matches color p | None => false end then Some f32_one else at_pos lab x' y' c 0.
Proof.
  intros Wr Mr Sr Hx Hy Hp Wl S1 S2 S3 S4. unfold label_pixel.
  destruct (pixel_rgb_spec rgb x y Wr Mr Sr Hx Hy) as (p' & Ep & Hp'). rewrite (shows_unique _ _ _ _ _ Hp' Hp) in Ep. rewrite Ep. cbn [bind].
  set (hit := fun c => match nth_error colors c with Some color => matches color p | None => false end).
  set (F := fun x' y' c (s : nat) => if (x' =? x) && (y' =? y) && hit c then Some f32_one else None).
  match goal with |- context [run_stores lab ?o] => destruct (run_stores_frame lab o F) as (t' & Hr & Hwf' & Hsh & Hat) end; auto.
  - intros a rv Hin. apply in_flat_map in Hin as ([c color] & Hc & Hin). apply in_classes in Hc.
    destruct (matches color p) eqn:Em; [|destruct Hin]. destruct Hin as [E|[]]. inversion E; subst a rv; clear E.
    exists x, y, c, 0, f32_one. assert (c < length colors) by (apply nth_error_Some; congruence). split; [repeat split; lia|].
    split; [reflexivity|]. split; [reflexivity|]. unfold F, hit. rewrite !Nat.eqb_refl, Hc, Em. reflexivity.
  - intros x' y' c s v (_ & _ & Hm & Hs) E. unfold F in E. destruct (Nat.eqb_spec x' x) as [->|]; [|discriminate].
    destruct (Nat.eqb_spec y' y) as [->|]; [|discriminate]. cbn [andb] in E. unfold hit in E.
    destruct (nth_error colors c) as [color|] eqn:Ec; [|discriminate]. destruct (matches color p) eqn:Em; [|discriminate]. injection E as <-.
    assert (s = 0) as -> by lia. apply in_flat_map. exists (c, color). split; [now apply in_classes|]. rewrite Em. now left.
  - exists t'. split; [exact Hr|]. split; [exact Hwf'|]. split; [exact Hsh|]. intros x' y' c Hv. rewrite Hat by auto. unfold F.
    fold (hit c). destruct ((x' =? x) && (y' =? y) && hit c); reflexivity.
Qed.

Section Labels.
Variable junk : nat -> f32.
Variable file : name -> tensor f32.
Variable one_class : f32 -> f32 -> f32 -> Z -> f32.

Lemma label_of_spec colors rgb :
  wf rgb -> maps rgb = 3 \/ maps rgb = 1 -> 0 < samples rgb -> 0 < width rgb -> 0 < height rgb -> 2 <= length colors ->
  exists lab, label_of junk one_class colors rgb = Ok lab /\ wf lab /\ samples lab = 1 /\ width lab = width rgb /\ height lab = height rgb /\
    maps lab = length colors /\
    forall x y c p, x < width rgb -> y < height rgb -> c < length colors -> shows rgb x y p -> at_pos lab x y c 0 = one_hot colors p c.
Proof.
  intros Wr Mr Sr Hw Hh Hc. unfold label_of.
  set (lab0 := new_tensor junk 1 (width rgb) (height rgb) (length colors)).
  assert (W0 : wf lab0) by (apply wf_resize, wf_empty).
  destruct (resize_data junk empty_tensor 1 (width rgb) (height rgb) (length colors)) as (E1 & E2 & E3 & E4 & _); [nia|].
  fold (new_tensor junk 1 (width rgb) (height rgb) (length colors)) in E1, E2, E3, E4. fold lab0 in E1, E2, E3, E4.
  assert (Ebody : (match colors with
    | [color] => pixel_loop (class_pixel one_class color rgb) (width rgb) (height rgb) lab0
    | _ => cleared <- clear lab0 f32_zero None ;; pixel_loop (label_pixel colors rgb) (width rgb) (height rgb) cleared
    end) = (cleared <- clear lab0 f32_zero None ;; pixel_loop (label_pixel colors rgb) (width rgb) (height rgb) cleared)).
  { destruct colors as [|a [|b l]]; cbn [length] in Hc; [lia|lia|reflexivity]. }
  rewrite Ebody. clear Ebody.
  destruct (clear_all_spec lab0 f32_zero W0) as (lab1 & R1 & W1 & (S1 & S2 & S3 & S4) & A1). rewrite R1. cbn [bind]. unfold pixel_loop.
  set (val := fun x y c => match pixel_rgb rgb x y with Ok p => one_hot colors p c | _ => None end).
  set (good := fun t => wf t /\ same_shape t lab1).
  set (inv := fun n t => good t /\ forall x y c, x < width rgb -> y < height rgb -> c < length colors ->
                at_pos t x y c 0 = if y <? n then val x y c else Some f32_zero).
  assert (Hinner : forall y t, y < height rgb -> inv y t -> exists t', foldm (fun t' x => label_pixel colors rgb t' y x) (seq 0 (width rgb)) t = Ok t' /\ inv (S y) t').
  { intros y t Hy (Ht & Hat).
    set (inv2 := fun n t' => good t' /\ forall x y' c, x < width rgb -> y' < height rgb -> c < length colors ->
                at_pos t' x y' c 0 = if (y' <? y) || ((y' =? y) && (x <? n)) then val x y' c else Some f32_zero).
    destruct (foldm_seq_inv (fun t' x => label_pixel colors rgb t' y x) inv2 (width rgb) 0 t) as (t' & Hr & Ht' & Hat').
    - split; [exact Ht|]. intros x y' c Hx' Hy' Hc'. rewrite Hat by auto. rewrite andb_false_r, orb_false_r. reflexivity.
    - intros n t' [_ Hn] ((Wt & Sh) & Hat'). cbn [Nat.add] in Hn. destruct Sh as (T1 & T2 & T3 & T4).
      destruct (pixel_rgb_spec rgb n y Wr Mr Sr Hn Hy) as (p & Ep & Hp).
      destruct (label_pixel_spec colors rgb t' n y p) as (t2 & R2 & W2 & Sh2 & A2); auto; try congruence.
      exists t2. split; [exact R2|]. split; [split; [exact W2|eapply same_shape_trans; [exact Sh2|]; split; auto]|].
      intros x y' c Hx' Hy' Hc'. rewrite A2 by (repeat split; lia). rewrite Hat' by auto.
      destruct (Nat.eqb_spec x n) as [->|Hxn]; destruct (Nat.eqb_spec y' y) as [->|Hyn]; cbn [andb].
      + rewrite (proj2 (Nat.ltb_ge y y)) by lia. rewrite (proj2 (Nat.ltb_ge n n)) by lia. rewrite (proj2 (Nat.ltb_lt n (S n))) by lia. cbn [orb].
        unfold val. rewrite Ep. unfold one_hot. destruct (nth_error colors c) as [color|] eqn:Ec; [|apply nth_error_None in Ec; lia].
        cbn [option_map]. destruct (matches color p); reflexivity.
      + rewrite !orb_false_r. reflexivity.
      + replace (x <? S n) with (x <? n); [reflexivity|]. destruct (Nat.ltb_spec x n), (Nat.ltb_spec x (S n)); auto; lia.
      + rewrite !orb_false_r. reflexivity.
    - exists t'. split; [exact Hr|]. split; [exact Ht'|]. intros x y' c Hx' Hy' Hc'. rewrite Hat' by auto. change (0 + width rgb) with (width rgb).
      rewrite (proj2 (Nat.ltb_lt x (width rgb))) by auto. rewrite andb_true_r.
      replace ((y' <? y) || (y' =? y)) with (y' <? S y); [reflexivity|].
      destruct (Nat.ltb_spec y' (S y)), (Nat.ltb_spec y' y), (Nat.eqb_spec y' y); auto; lia. }
  destruct (foldm_seq_inv (fun t y => foldm (fun t' x => label_pixel colors rgb t' y x) (seq 0 (width rgb)) t) inv (height rgb) 0 lab1) as (lab & Hr & (Wl & Sl) & Hat).
  - split; [split; [exact W1|apply same_shape_refl]|]. intros x y c Hx' Hy' Hc'. cbn [Nat.ltb Nat.leb]. apply A1. repeat split; lia.
  - intros y t [_ Hy] Hi. apply Hinner; auto.
  - exists lab. destruct Sl as (T1 & T2 & T3 & T4). split; [exact Hr|]. split; [exact Wl|].
    split; [congruence|]. split; [congruence|]. split; [congruence|]. split; [congruence|].
    intros x y c p Hx' Hy' Hc' Hp. rewrite Hat by auto. change (0 + height rgb) with (height rgb). rewrite (proj2 (Nat.ltb_lt y (height rgb))) by auto.
    unfold val. destruct (pixel_rgb_spec rgb x y Wr Mr Sr Hx' Hy') as (p' & Ep & Hp'). rewrite Ep. now rewrite (shows_unique _ _ _ _ _ Hp' Hp).
Qed.

(** A label of a list with two or more classes is copied as a one-hot map: inside the
    image every map is 1 or 0 as [one_hot] says, outside 0, and no other slot changes. *)
Theorem C33_one_hot tensors md colors source target slot :
  nth_error tensors source = Some md -> Nat.odd source = true -> 2 <= length colors ->
  let rgb := file (md_filename md) in
  wf rgb -> maps rgb = 3 \/ maps rgb = 1 -> 0 < samples rgb -> 0 < width rgb -> 0 < height rgb ->
  wf target -> maps target = length colors -> width rgb <= width target -> height rgb <= height target -> slot < samples target ->
  exists t' ret, list_copy_sample junk file one_class tensors colors source 0 target slot = Ok (t', ret) /\ wf t' /\ same_shape t' target /\
    forall x y c s, valid_pos target x y c s ->
      if s =? slot then
        if (x <? width rgb) && (y <? height rgb) then forall p, shows rgb x y p -> at_pos t' x y c s = one_hot colors p c
        else at_pos t' x y c s = Some f32_zero
      else at_pos t' x y c s = at_pos target x y c s.
Proof.
  intros En Ho Hc rgb Wr Mr Sr Hw Hh Wt Mt Fw Fh Hslot. unfold list_copy_sample. rewrite En, Ho. fold rgb.
  destruct (label_of_spec colors rgb Wr Mr Sr Hw Hh Hc) as (lab & El & Wl & L1 & L2 & L3 & L4 & Hat). rewrite El. cbn [bind].
  destruct (copy_sample_spec f32_zero lab 0 target slot Wl Wt) as (t' & Ec & Wt' & Sh & _ & Hcp); [lia|].
  assert (Hposs : copy_sample_possible lab 0 target slot = true).
  { unfold copy_sample_possible. rewrite L1, L2, L3, L4, Mt. rewrite Nat.eqb_refl. repeat (apply andb_true_iff; split); try apply Nat.leb_le; try apply Nat.ltb_lt; auto; lia. }
  rewrite Ec. cbn [bind fst]. exists t', None. split; [reflexivity|]. split; [exact Wt'|]. split; [exact Sh|].
  intros x y c s Hv. specialize (Hcp Hposs x y c s Hv). rewrite L2, L3 in Hcp.
  destruct (s =? slot); [|exact Hcp]. destruct (Nat.ltb_spec x (width rgb)) as [Hx|Hx]; cbn [andb] in *; [|exact Hcp].
  destruct (Nat.ltb_spec y (height rgb)) as [Hy|Hy]; [|exact Hcp].
  intros p Hp. rewrite Hcp. apply Hat; auto. destruct Hv as (_ & _ & Hm & _). lia.
Qed.

(** A list with one class stores in every pixel one number, computed from the pixel's colour. *)
Definition class_value (color : Z) (p : f32 * f32 * f32) : f32 := let '(r, g, b) := p in one_class r g b color.

Lemma class_pixel_spec color rgb lab x y p :
  wf rgb -> maps rgb = 3 \/ maps rgb = 1 -> 0 < samples rgb -> x < width rgb -> y < height rgb -> shows rgb x y p ->
  wf lab -> samples lab = 1 -> width lab = width rgb -> height lab = height rgb -> maps lab = 1 ->
  exists lab', class_pixel one_class color rgb lab y x = Ok lab' /\ wf lab' /\ same_shape lab' lab /\
    forall x' y', x' < width rgb -> y' < height rgb -> at_pos lab' x' y' 0 0 = if (x' =? x) && (y' =? y) then Some (class_value color p) else at_pos lab x' y' 0 0.
Proof.
  intros Wr Mr Sr Hx Hy Hp Wl S1 S2 S3 S4. unfold class_pixel.
  destruct (pixel_rgb_spec rgb x y Wr Mr Sr Hx Hy) as (p' & Ep & Hp'). rewrite (shows_unique _ _ _ _ _ Hp' Hp) in Ep. rewrite Ep. cbn [bind].
  destruct p as [[r g] b]. cbn [class_value].
  set (F := fun x' y' (c s : nat) => if (x' =? x) && (y' =? y) then Some (one_class r g b color) else None).
  match goal with |- context [run_stores lab ?o] => destruct (run_stores_frame lab o F) as (t' & Hr & Hwf' & Hsh & Hat) end; auto.
  - intros a rv [E|[]]. inversion E; subst a rv; clear E. exists x, y, 0, 0, (one_class r g b color). split; [repeat split; lia|].
    split; [reflexivity|]. split; [reflexivity|]. unfold F. now rewrite !Nat.eqb_refl.
  - intros x' y' c s v (_ & _ & Hm & Hs) E. unfold F in E. destruct (Nat.eqb_spec x' x) as [->|]; [|discriminate].
    destruct (Nat.eqb_spec y' y) as [->|]; [|discriminate]. injection E as <-. assert (s = 0) as -> by lia. assert (c = 0) as -> by lia. now left.
  - exists t'. split; [exact Hr|]. split; [exact Hwf'|]. split; [exact Hsh|]. intros x' y' Hx' Hy'. rewrite Hat by (repeat split; lia). unfold F.
    destruct ((x' =? x) && (y' =? y)); reflexivity.
Qed.

Lemma label_one_spec color rgb :
  wf rgb -> maps rgb = 3 \/ maps rgb = 1 -> 0 < samples rgb -> 0 < width rgb -> 0 < height rgb ->
  exists lab, label_of junk one_class [color] rgb = Ok lab /\ wf lab /\ samples lab = 1 /\ width lab = width rgb /\ height lab = height rgb /\ maps lab = 1 /\
    forall x y p, x < width rgb -> y < height rgb -> shows rgb x y p -> at_pos lab x y 0 0 = Some (class_value color p).
Proof.
  intros Wr Mr Sr Hw Hh. unfold label_of. cbn [length].
  set (lab0 := new_tensor junk 1 (width rgb) (height rgb) 1).
  assert (W0 : wf lab0) by (apply wf_resize, wf_empty).
  destruct (resize_data junk empty_tensor 1 (width rgb) (height rgb) 1) as (E1 & E2 & E3 & E4 & _); [nia|].
  fold (new_tensor junk 1 (width rgb) (height rgb) 1) in E1, E2, E3, E4. fold lab0 in E1, E2, E3, E4. unfold pixel_loop.
  set (set_ := fun t x y => forall p, shows rgb x y p -> at_pos t x y 0 0 = Some (class_value color p)).
  set (good := fun t => wf t /\ same_shape t lab0).
  set (inv := fun n t => good t /\ forall x y, x < width rgb -> y < height rgb -> y < n -> set_ t x y).
  assert (Hinner : forall y t, y < height rgb -> inv y t -> exists t', foldm (fun t' x => class_pixel one_class color rgb t' y x) (seq 0 (width rgb)) t = Ok t' /\ inv (S y) t').
  { intros y t Hy (Ht & Hat).
    set (inv2 := fun n t' => good t' /\ forall x y', x < width rgb -> y' < height rgb -> y' < y \/ y' = y /\ x < n -> set_ t' x y').
    destruct (foldm_seq_inv (fun t' x => class_pixel one_class color rgb t' y x) inv2 (width rgb) 0 t) as (t' & Hr & Ht' & Hat').
    - split; [exact Ht|]. intros x y' Hx' Hy' [H|[_ H]]; [now apply Hat|lia].
    - intros n t' [_ Hn] ((Wt & Sh) & Hat'). cbn [Nat.add] in Hn. destruct Sh as (T1 & T2 & T3 & T4).
      destruct (pixel_rgb_spec rgb n y Wr Mr Sr Hn Hy) as (p & Ep & Hp).
      destruct (class_pixel_spec color rgb t' n y p) as (t2 & R2 & W2 & Sh2 & A2); auto; try congruence.
      exists t2. split; [exact R2|]. split; [split; [exact W2|eapply same_shape_trans; [exact Sh2|]; split; auto]|].
      intros x y' Hx' Hy' Hc' q Hq. rewrite A2 by auto.
      destruct (Nat.eqb_spec x n) as [->|Hxn]; destruct (Nat.eqb_spec y' y) as [->|Hyn]; cbn [andb]; [now rewrite (shows_unique _ _ _ _ _ Hq Hp)| | |]; apply Hat'; auto; lia.
    - exists t'. split; [exact Hr|]. split; [exact Ht'|]. intros x y' Hx' Hy' Hc'. apply Hat'; auto; lia. }
  destruct (foldm_seq_inv (fun t y => foldm (fun t' x => class_pixel one_class color rgb t' y x) (seq 0 (width rgb)) t) inv (height rgb) 0 lab0) as (lab & Hr & (Wl & Sl) & Hat).
  - split; [split; [exact W0|apply same_shape_refl]|]. intros; lia.
  - intros y t [_ Hy] Hi. apply Hinner; auto.
  - exists lab. destruct Sl as (T1 & T2 & T3 & T4). split; [exact Hr|]. split; [exact Wl|].
    split; [congruence|]. split; [congruence|]. split; [congruence|]. split; [congruence|].
    intros x y p Hx' Hy' Hp. apply (Hat x y Hx' Hy'); auto.
Qed.

Theorem C33_one_class tensors md color source target slot :
  nth_error tensors source = Some md -> Nat.odd source = true ->
  let rgb := file (md_filename md) in
  wf rgb -> maps rgb = 3 \/ maps rgb = 1 -> 0 < samples rgb -> 0 < width rgb -> 0 < height rgb ->
  wf target -> maps target = 1 -> width rgb <= width target -> height rgb <= height target -> slot < samples target ->
  exists t' ret, list_copy_sample junk file one_class tensors [color] source 0 target slot = Ok (t', ret) /\ wf t' /\ same_shape t' target /\
    forall x y s, valid_pos target x y 0 s ->
      if s =? slot then
        if (x <? width rgb) && (y <? height rgb) then forall r g b, shows rgb x y (r, g, b) -> at_pos t' x y 0 s = Some (one_class r g b color)
        else at_pos t' x y 0 s = Some f32_zero
      else at_pos t' x y 0 s = at_pos target x y 0 s.
Proof.
  intros En Ho rgb Wr Mr Sr Hw Hh Wt Mt Fw Fh Hslot. unfold list_copy_sample. rewrite En, Ho. fold rgb.
  destruct (label_one_spec color rgb Wr Mr Sr Hw Hh) as (lab & El & Wl & L1 & L2 & L3 & L4 & Hat). rewrite El. cbn [bind].
  destruct (copy_sample_spec f32_zero lab 0 target slot Wl Wt) as (t' & Ec & Wt' & Sh & _ & Hcp); [lia|].
  assert (Hposs : copy_sample_possible lab 0 target slot = true).
  { unfold copy_sample_possible. rewrite L1, L2, L3, L4, Mt. rewrite Nat.eqb_refl. repeat (apply andb_true_iff; split); try apply Nat.leb_le; try apply Nat.ltb_lt; auto; lia. }
  rewrite Ec. cbn [bind fst]. exists t', None. split; [reflexivity|]. split; [exact Wt'|]. split; [exact Sh|].
  intros x y s Hv. specialize (Hcp Hposs x y 0 s Hv). rewrite L2, L3 in Hcp.
  destruct (s =? slot); [|exact Hcp]. destruct (Nat.ltb_spec x (width rgb)) as [Hx|Hx]; cbn [andb] in *; [|exact Hcp].
  destruct (Nat.ltb_spec y (height rgb)) as [Hy|Hy]; [|exact Hcp].
  intros r g b Hp. rewrite Hcp. now apply (Hat x y (r, g, b)).
Qed.

(** Images are copied as they are. *)
Theorem C33_image tensors md colors source source_sample target slot :
  nth_error tensors source = Some md -> Nat.odd source = false -> wf (file (md_filename md)) -> wf target -> 0 < maps (file (md_filename md)) ->
  exists t' ok, copy_sample f32_zero (file (md_filename md)) source_sample target slot = Ok (t', ok) /\
    list_copy_sample junk file one_class tensors colors source source_sample target slot = Ok (t', None).
Proof.
  intros En Ho Wf Wt Hm. unfold list_copy_sample. rewrite En, Ho. cbn [bind].
  destruct (copy_sample_spec f32_zero (file (md_filename md)) source_sample target slot Wf Wt Hm) as (t' & Ec & _).
  exists t'. eexists. split; [exact Ec|]. rewrite Ec. reflexivity.
Qed.

(** Indices out of range leave the target alone. *)
Theorem C33_out_of_range tensors colors source source_sample target slot :
  length tensors <= source -> list_copy_sample junk file one_class tensors colors source source_sample target slot = Ok (target, Some false).
Proof. intros H. unfold list_copy_sample. now rewrite (proj2 (nth_error_None _ _) H). Qed.

(** Finding: a successful copy has no return value. *)
Theorem C33_no_result_refuted tensors colors source source_sample target slot t' :
  ~ list_copy_sample junk file one_class tensors colors source source_sample target slot = Ok (t', Some true).
Proof.
  unfold list_copy_sample. destruct (nth_error tensors source) as [md|]; [|congruence].
  destruct (if Nat.odd source then _ else _) as [src| |]; cbn [bind]; try discriminate.
  destruct (copy_sample _ _ _ _ _) as [r| |]; cbn [bind]; discriminate.
Qed.
End Labels.

(** Pixels of 8-bit images match a class exactly when the three bytes are those of the
    colour 0xRRGGBB of the class. *)
Theorem C33_matches color r g b :
  is_byte r -> is_byte g -> is_byte b -> (0 <= color < 2 ^ 32)%Z ->
  matches color (datum_from_uchar r, datum_from_uchar g, datum_from_uchar b) = (color mod 2 ^ 24 =? r * 65536 + g * 256 + b)%Z.
Proof.
  intros Hr Hg Hb Hc. unfold matches, channel. change (2 - Z.of_nat 0)%Z with 2%Z. change (2 - Z.of_nat 1)%Z with 1%Z. change (2 - Z.of_nat 2)%Z with 0%Z.
  rewrite !uchar_feq; auto; try (apply Z.mod_pos_bound; lia). rewrite !Z.shiftr_div_pow2 by lia.
  change (2 ^ (8 * 2))%Z with 65536%Z. change (2 ^ (8 * 1))%Z with 256%Z. change (2 ^ (8 * 0))%Z with 1%Z. rewrite Z.div_1_r. unfold is_byte in *.
  change (2 ^ 24)%Z with 16777216%Z.
  assert (E : (color mod 16777216 = (color / 65536) mod 256 * 65536 + (color / 256) mod 256 * 256 + color mod 256)%Z).
  { clear. pose proof (Z.div_mod color 16777216 ltac:(lia)). pose proof (Z.mod_pos_bound color 16777216 ltac:(lia)).
    Z.div_mod_to_equations. lia. }
  rewrite E. pose proof (Z.mod_pos_bound (color / 65536) 256 ltac:(lia)). pose proof (Z.mod_pos_bound (color / 256) 256 ltac:(lia)).
  pose proof (Z.mod_pos_bound color 256 ltac:(lia)).
  set (A := ((color / 65536) mod 256)%Z) in *. set (B := ((color / 256) mod 256)%Z) in *. set (C := (color mod 256)%Z) in *. clearbody A B C.
  destruct (Z.eqb_spec r A), (Z.eqb_spec g B), (Z.eqb_spec b C), (Z.eqb_spec (A * 65536 + B * 256 + C) (r * 65536 + g * 256 + b)); cbn; auto; lia.
Qed.

(** With distinct colours at most one map is set at a pixel of an 8-bit image. *)
Theorem C33_at_most_one colors r g b c c' :
  is_byte r -> is_byte g -> is_byte b -> (forall k, In k colors -> (0 <= k < 2 ^ 32)%Z) -> NoDup (map (fun k => (k mod 2 ^ 24)%Z) colors) ->
  let p := (datum_from_uchar r, datum_from_uchar g, datum_from_uchar b) in
  one_hot colors p c = Some f32_one -> one_hot colors p c' = Some f32_one -> c = c'.
Proof.
  intros Hr Hg Hb Hk Hnd p. subst p. unfold one_hot. destruct (nth_error colors c) as [k|] eqn:Ek; [|discriminate]. destruct (nth_error colors c') as [k'|] eqn:Ek'; [|discriminate].
  cbn [option_map]. rewrite !C33_matches; auto; try (apply Hk; eapply nth_error_In; eauto).
  destruct (Z.eqb_spec (k mod 2 ^ 24) (r * 65536 + g * 256 + b)) as [E|]; [|discriminate].
  destruct (Z.eqb_spec (k' mod 2 ^ 24) (r * 65536 + g * 256 + b)) as [E'|]; [|discriminate]. intros _ _.
  pose proof (map_nth_error (fun k => (k mod 2 ^ 24)%Z) _ _ Ek) as M. pose proof (map_nth_error (fun k => (k mod 2 ^ 24)%Z) _ _ Ek') as M'.
  cbn beta in M, M'. rewrite E in M. rewrite E' in M'. rewrite NoDup_nth_error in Hnd. apply Hnd; [apply nth_error_Some; congruence|congruence].
Qed.

(** ** C63: images and labels stay paired *)
Definition line_ok (i l : name) : Prop := 5 <= length i /\ 5 <= length l.

(** The pairs of lines that count: up to the first pair with a short line. *)
Fixpoint used (images labels : list name) : list (name * name) :=
  match images with
  | [] => []
  | i :: images' => if (length i <? 5) || (length (hd [] labels) <? 5) then [] else (i, hd [] labels) :: used images' (tl labels)
  end.
Definition same_size (file : name -> tensor f32) (idir ldir : name) (p : name * name) : bool :=
  (width (file (idir ++ fst p)) =? width (file (ldir ++ snd p))) && (height (file (idir ++ fst p)) =? height (file (ldir ++ snd p))).

(** Loading appends, for each used pair of lines whose files have the same size and in this
    order, one image entry and one label entry, and reports how many entries were added. *)
Theorem C63_pairs file n idir ldir images labels tensors :
  load_lines file n idir ldir images labels tensors 0 =
  (tensors ++ flat_map (fun p => [mkMeta (idir ++ fst p) (width (file (idir ++ fst p))) (height (file (idir ++ fst p))) (maps (file (idir ++ fst p))) (samples (file (idir ++ fst p)));
                                  mkMeta (ldir ++ snd p) (width (file (idir ++ fst p))) (height (file (idir ++ fst p))) n (samples (file (ldir ++ snd p)))])
                       (filter (same_size file idir ldir) (used images labels)),
   2 * length (filter (same_size file idir ldir) (used images labels))).
Proof.
  assert (Hgen : forall images labels tensors k, load_lines file n idir ldir images labels tensors k =
    (tensors ++ flat_map (fun p => [mkMeta (idir ++ fst p) (width (file (idir ++ fst p))) (height (file (idir ++ fst p))) (maps (file (idir ++ fst p))) (samples (file (idir ++ fst p)));
                                  mkMeta (ldir ++ snd p) (width (file (idir ++ fst p))) (height (file (idir ++ fst p))) n (samples (file (ldir ++ snd p)))])
                       (filter (same_size file idir ldir) (used images labels)),
     k + 2 * length (filter (same_size file idir ldir) (used images labels)))); [|apply Hgen].
  clear images labels tensors. induction images as [|i images IH]; intros labels tensors k; cbn [load_lines used].
  - cbn [filter flat_map length]. now rewrite app_nil_r, Nat.mul_0_r, Nat.add_0_r.
  - destruct ((length i <? 5) || (length (hd [] labels) <? 5)).
    + cbn [filter flat_map length]. now rewrite app_nil_r, Nat.mul_0_r, Nat.add_0_r.
    + cbn [filter].
      assert (Es : same_size file idir ldir (i, hd [] labels) = (width (file (idir ++ i)) =? width (file (ldir ++ hd [] labels))) && (height (file (idir ++ i)) =? height (file (ldir ++ hd [] labels)))) by reflexivity.
      rewrite Es. clear Es.
      destruct (Nat.eqb_spec (width (file (idir ++ i))) (width (file (ldir ++ hd [] labels)))) as [Ew|Ew]; cbn [negb orb andb]; [|apply IH].
      destruct (Nat.eqb_spec (height (file (idir ++ i))) (height (file (ldir ++ hd [] labels)))) as [Eh|Eh]; cbn [negb]; [|apply IH].
      rewrite IH. cbn [flat_map length fst snd]. rewrite <- app_assoc. rewrite Ew, Eh. cbn [app]. f_equal. lia.
Qed.

(** So image and label are found under 2i and 2i+1 and have the same size. *)
Theorem C63_alternating file n idir ldir images labels i img lab :
  let ts := fst (load_lines file n idir ldir images labels [] 0) in
  nth_error ts (2 * i) = Some img -> nth_error ts (2 * i + 1) = Some lab ->
  md_width img = md_width lab /\ md_height img = md_height lab /\ md_maps lab = n /\
  exists pair, nth_error (filter (same_size file idir ldir) (used images labels)) i = Some pair /\
    md_filename img = idir ++ fst pair /\ md_filename lab = ldir ++ snd pair.
Proof.
  intros ts. subst ts. rewrite C63_pairs. cbn [fst app]. generalize (filter (same_size file idir ldir) (used images labels)). intros l. revert i.
  induction l as [|p l IH]; intros i; cbn [flat_map app].
  - intros H. destruct (2 * i); discriminate.
  - destruct i as [|i].
    + cbn [Nat.mul Nat.add nth_error]. intros E1 E2. injection E1 as <-. injection E2 as <-. cbn [md_width md_height md_maps md_filename nth_error].
      repeat (split; [reflexivity|]). exists p. auto.
    + replace (2 * S i) with (S (S (2 * i))) by lia. replace (S (S (2 * i)) + 1) with (S (S (2 * i + 1))) by lia. cbn [nth_error]. apply IH.
Qed.

(** The list files must exist, and directory names must not be empty; a slash (47) is added if it is missing. *)
Theorem C63_load_files file n images labels idir ldir tensors :
  idir <> [] -> ldir <> [] ->
  exists idir' ldir', (idir' = idir \/ idir' = idir ++ [47]) /\ (ldir' = ldir \/ ldir' = ldir ++ [47]) /\ last idir' 0 = 47 /\ last ldir' 0 = 47 /\
    load_files file n images idir labels ldir tensors =
    match images, labels with Some il, Some ll => Ok (load_lines file n idir' ldir' il ll tensors 0) | _, _ => Fatal end.
Proof.
  change 47 with slash.
  assert (H : forall d, d <> [] -> exists d', directory d = Ok d' /\ (d' = d \/ d' = d ++ [slash]) /\ last d' 0 = slash).
  { intros d Hd. unfold directory. destruct (rev d) as [|c r] eqn:Er; [apply (f_equal (@rev nat)) in Er; rewrite rev_involutive in Er; cbn in Er; congruence|].
    destruct (Nat.eqb_spec c slash) as [->|Hc].
    - exists d. split; [reflexivity|]. split; [now left|]. apply (f_equal (@rev nat)) in Er. rewrite rev_involutive in Er. subst d. cbn [rev]. apply last_last.
    - exists (d ++ [slash]). split; [reflexivity|]. split; [now right|]. apply last_last. }
  intros Hi Hl. destruct (H idir Hi) as (i' & Ei & Hi' & Li). destruct (H ldir Hl) as (l' & El & Hl' & Ll).
  exists i', l'. repeat (split; [assumption|]). unfold load_files. rewrite Ei, El. reflexivity.
Qed.

(** Finding: an empty directory name is undefined behaviour. *)
Theorem C63_empty_directory_refuted file n images labels ldir tensors : load_files file n images [] labels ldir tensors = UB.
Proof. reflexivity. Qed.

(** Non-vacuity: a 2 x 1 label image, red and blue, with classes red and blue; loaded
    into a 2 x 1 target. *)
Definition red_blue : tensor f32 :=
  mkTensor 1 2 1 3 6 (Some (map datum_from_uchar [255; 0; 0; 0; 0; 255]%Z)).
Definition rb_meta : list metadata := [mkMeta [1] 2 1 3 1; mkMeta [2] 2 1 2 1].
Definition rb_target : tensor f32 := mkTensor 1 2 1 2 4 (Some [7; 7; 7; 7]%Z).
Example C33_example one_class :
  wf red_blue /\ wf rb_target /\
  list_copy_sample (fun _ => 5%Z) (fun _ => red_blue) one_class rb_meta [16711680; 255]%Z 1 0 rb_target 0 =
  Ok (mkTensor 1 2 1 2 4 (Some [f32_one; 0; 0; f32_one]%Z), None).
Proof. split; [split; [reflexivity|cbn; lia]|]. split; [split; [reflexivity|cbn; lia]|]. vm_compute. reflexivity. Qed.

Example C63_example :
  load_lines (fun f => mkTensor 1 (length f) 1 1 (length f) None) 2 [47] [47] [[1;2;3;4;5]; [1;2;3;4;5;6]; [1;2;3;4;5]; []] [[1;2;3;4;6]; [1;2;3;4;5]; [2;2;3;4;5]] [] 0 =
  ([mkMeta [47;1;2;3;4;5] 6 1 1 1; mkMeta [47;1;2;3;4;6] 6 1 2 1; mkMeta [47;1;2;3;4;5] 6 1 1 1; mkMeta [47;2;2;3;4;5] 6 1 2 1], 4).
Proof. vm_compute. reflexivity. Qed.

Print Assumptions C33_one_hot.
Print Assumptions C33_one_class.
Print Assumptions C33_image.
Print Assumptions C33_out_of_range.
Print Assumptions C33_no_result_refuted.
Print Assumptions C33_matches.
Print Assumptions C33_at_most_one.
Print Assumptions C63_pairs.
Print Assumptions C63_alternating.
Print Assumptions C63_load_files.
Print Assumptions C63_empty_directory_refuted.

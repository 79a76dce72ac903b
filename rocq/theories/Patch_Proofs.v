(** Proofs about patch datasets. *)
From Coq Require Import ZifyBool ZifyNat.
From Verif Require Import Base BaseFacts Float32 Tensor_Model Tensor_Spec Tensor_Proofs Tensor_Props Stream_Model DatasetInput_Model
  DatasetInput_Spec Dataset_Model Dataset_Spec Dataset_Proofs Patch_Model Patch_Spec.

(** ** Positions *)
Lemma nth_error_rows {A} (f : nat -> list A) w h : forall a k, 0 < w -> (forall i, a <= i < a + h -> length (f i) = w) -> k < w * h ->
  nth_error (flat_map f (seq a h)) k = nth_error (f (a + k / w)) (k mod w).
Proof.
  induction h as [|h IH]; intros a k Hw Hl Hk; [lia|]. cbn [seq flat_map].
  destruct (Nat.lt_ge_cases k w) as [L|L].
  - rewrite nth_error_app1 by (rewrite Hl by lia; lia). rewrite Nat.div_small, Nat.mod_small by lia. now rewrite Nat.add_0_r.
  - rewrite nth_error_app2 by (rewrite Hl by lia; lia). rewrite Hl by lia. rewrite IH; [|lia|intros i Hi; apply Hl; lia|lia].
    replace k with ((k - w) + 1 * w) at 3 4 by lia. rewrite Nat.div_add, Nat.mod_add by lia. f_equal. f_equal. lia.
Qed.

Lemma flat_map_length {A B} (f : A -> list B) w l : (forall a, In a l -> length (f a) = w) -> length (flat_map f l) = length l * w.
Proof. induction l as [|a l IH]; intros H; cbn [flat_map length]; auto. rewrite app_length, IH by (intros; apply H; now right). rewrite (H a) by now left. lia. Qed.

Section Positions.
Variable px py : nat.
Local Notation iw img := (width img + 1 - px).
Local Notation ih img := (height img + 1 - py).

Lemma positions_length img : length (positions px py img) = iw img * ih img.
Proof. unfold positions. rewrite (flat_map_length _ (iw img)); [rewrite seq_length; lia|]. intros a _. now rewrite map_length, seq_length. Qed.

Lemma positions_nth img k : k < iw img * ih img -> nth_error (positions px py img) k = Some (k mod iw img, k / iw img).
Proof.
  intros Hk. unfold positions. assert (0 < iw img) by nia.
  rewrite (nth_error_rows _ (iw img)); auto; [|intros i _; now rewrite map_length, seq_length].
  rewrite nth_error_map. rewrite (nth_error_nth' _ 0) by (rewrite seq_length; apply Nat.mod_upper_bound; lia).
  rewrite seq_nth by (apply Nat.mod_upper_bound; lia). reflexivity.
Qed.

Lemma in_positions img c r : In (c, r) (positions px py img) <-> c < iw img /\ r < ih img.
Proof.
  unfold positions. rewrite in_flat_map. split.
  - intros (r' & Hr & Hc). apply in_map_iff in Hc as (c' & E & Hc). inversion E; subst. apply in_seq in Hr, Hc. lia.
  - intros [Hc Hr]. exists r. split; [apply in_seq; lia|]. apply in_map_iff. exists c. split; [auto|apply in_seq; lia].
Qed.

Lemma nodup_app {A} (a b : list A) : NoDup a -> NoDup b -> (forall x, In x a -> In x b -> False) -> NoDup (a ++ b).
Proof.
  induction a as [|x a IH]; intros Ha Hb Hd; auto. inversion Ha; subst. cbn [app]. constructor.
  - intros [H|H]%in_app_or; [auto|]. apply (Hd x); [now left|auto].
  - apply IH; auto. intros y Hy. apply Hd. now right.
Qed.

Lemma positions_nodup img : NoDup (positions px py img).
Proof.
  unfold positions. generalize (seq_NoDup (ih img) 0). generalize (seq 0 (ih img)). induction l as [|r l IH]; intros H; cbn [flat_map]; [constructor|].
  inversion H; subst. apply nodup_app; auto.
  - apply FinFun.Injective_map_NoDup; [intros a b E; congruence|apply seq_NoDup].
  - intros [c r'] H1 H4. apply in_map_iff in H1 as (c1 & E1 & _). inversion E1; subst. apply in_flat_map in H4 as (r2 & Hr2 & H5).
    apply in_map_iff in H5 as (c2 & E2 & _). inversion E2; subst. auto.
Qed.

Lemma in_patches pairs : forall n t c r,
  In (t, c, r) (patches_from px py n pairs) <-> exists p, n <= t /\ nth_error pairs (t - n) = Some p /\ c < iw (fst p) /\ r < ih (fst p).
Proof.
  induction pairs as [|p ps IH]; intros n t c r; cbn [patches_from].
  - split; [intros []|]. intros (p & _ & H & _). destruct (t - n); discriminate.
  - rewrite in_app_iff, IH, in_map_iff. split.
    + intros [([c' r'] & E & H)|(q & Hn & Hq & H)].
      * inversion E; subst. apply in_positions in H. exists p. rewrite Nat.sub_diag. repeat split; auto; lia.
      * exists q. replace (t - n) with (S (t - S n)) by lia. split; [lia|]. auto.
    + intros (q & Hn & Hq & H). destruct (Nat.eq_dec t n) as [->|Hne].
      * left. rewrite Nat.sub_diag in Hq. cbn in Hq. inversion Hq; subst. exists (c, r). split; [reflexivity|]. now apply in_positions.
      * right. exists q. replace (t - n) with (S (t - S n)) in Hq by lia. split; [lia|]. auto.
Qed.

Lemma patches_nodup pairs : forall n, NoDup (patches_from px py n pairs).
Proof.
  induction pairs as [|p ps IH]; intros n; cbn [patches_from]; [constructor|]. apply nodup_app; auto.
  - apply FinFun.Injective_map_NoDup; [intros [a b] [a' b'] E; cbn in E; congruence|apply positions_nodup].
  - intros [[t c] r] H1 H2. apply in_map_iff in H1 as (q & E & _). inversion E; subst. apply in_patches in H2 as (p' & Hn & _). lia.
Qed.

Fixpoint total (pairs : list (tensor f32 * tensor f32)) : nat :=
  match pairs with [] => 0 | p :: ps => iw (fst p) * ih (fst p) + total ps end.

Lemma patches_length pairs : forall n, length (patches_from px py n pairs) = total pairs.
Proof. induction pairs as [|p ps IH]; intros n; cbn [patches_from total]; auto. rewrite app_length, map_length, positions_length, IH. auto. Qed.

Lemma total_app a b : total (a ++ b) = total a + total b.
Proof. induction a as [|p ps IH]; cbn [app total]; auto. rewrite IH. lia. Qed.

Lemma patches_app a : forall n b, patches_from px py n (a ++ b) = patches_from px py n a ++ patches_from px py (n + length a) b.
Proof.
  induction a as [|p ps IH]; intros n b; cbn [app patches_from length]; [now rewrite Nat.add_0_r|].
  rewrite IH, <- app_assoc. do 3 f_equal. lia.
Qed.

(** *** Arithmetic without wrap-around *)
Definition fits (p : tensor f32 * tensor f32) : Prop :=
  0 < px <= width (fst p) /\ 0 < py <= height (fst p) /\ (Z.of_nat (width (fst p)) < 2 ^ 32)%Z /\ (Z.of_nat (height (fst p)) < 2 ^ 32)%Z.

Lemma inner_nat size patch : 0 < patch <= size -> (Z.of_nat size < 2 ^ 32)%Z -> inner size patch = Z.of_nat (size + 1 - patch).
Proof. intros H1 H2. unfold inner, u32. rewrite (Z.mod_small (Z.of_nat patch - 1)) by lia. rewrite Z.mod_small by lia. lia. Qed.

Lemma inner_count_nat p : fits p -> (Z.of_nat (iw (fst p) * ih (fst p)) < 2 ^ 32)%Z -> inner_count px py (fst p) = Z.of_nat (iw (fst p) * ih (fst p)).
Proof.
  intros (H1 & H2 & H3 & H4) H. unfold inner_count. rewrite !inner_nat by auto. unfold u32. rewrite <- Nat2Z.inj_mul. apply Z.mod_small. split; [apply Nat2Z.is_nonneg|exact H].
Qed.

Lemma sum_nat pairs : forall b, (forall p, In p pairs -> fits p) -> (Z.of_nat (b + total pairs) < 2 ^ 32)%Z ->
  fold_left (fun s c => u32 (s + c)) (map (fun p => inner_count px py (fst p)) pairs) (Z.of_nat b) = Z.of_nat (b + total pairs).
Proof.
  induction pairs as [|p ps IH]; intros b Hf Hb; cbn [map fold_left total] in *; [now rewrite Nat.add_0_r|].
  pose proof (inner_count_nat p (Hf p (or_introl eq_refl))) as Hc. set (c := iw (fst p) * ih (fst p)) in *. clearbody c.
  rewrite Hc by lia. unfold u32 at 2. rewrite Z.mod_small by lia.
  rewrite <- Nat2Z.inj_add. rewrite IH; [f_equal; lia|intros q Hq; apply Hf; now right|lia].
Qed.

(** Where an index is found. *)
Lemma find_spec pairs : forall b n idx, (forall p, In p pairs -> fits p) -> (Z.of_nat (b + total pairs) < 2 ^ 32)%Z ->
  b <= idx < b + total pairs ->
  let last := running_sums (Z.of_nat b) (map (inner_count px py) (map fst pairs)) in
  exists t p first, find_image last (Z.of_nat idx) = t /\ nth_error pairs t = Some p /\
    nth_error last t = Some (Z.of_nat (first + iw (fst p) * ih (fst p))) /\ first <= idx < first + iw (fst p) * ih (fst p) /\ fits p /\
    (Z.of_nat (first + iw (fst p) * ih (fst p)) < 2 ^ 32)%Z /\
    nth_error (patches_from px py n pairs) (idx - b) = Some (n + t, (idx - first) mod iw (fst p), (idx - first) / iw (fst p)).
Proof.
  induction pairs as [|p ps IH]; intros b n idx Hf Hb Hi last; cbn [total] in *; [lia|].
  assert (Fp : fits p) by (apply Hf; now left).
  subst last. cbn [map running_sums find_image patches_from].
  pose proof (inner_count_nat p Fp) as Hc. pose proof (positions_length (fst p)) as Hl. pose proof (positions_nth (fst p) (idx - b)) as Hn.
  remember (iw (fst p) * ih (fst p)) as c eqn:Ecount. rewrite Hc by lia.
  assert (E : u32 (Z.of_nat b + Z.of_nat c) = Z.of_nat (b + c)).
  { unfold u32. rewrite Z.mod_small by lia. lia. }
  rewrite E. destruct (Z.leb_spec (Z.of_nat (b + c)) (Z.of_nat idx)) as [L|L].
  - destruct (IH (b + c) (S n) idx) as (t & q & first & H1 & H2 & H3 & H4 & H5 & H6 & H7); [intros q Hq; apply Hf; now right|lia|lia|].
    exists (S t), q, first. rewrite H1. split; [auto|]. split; [exact H2|]. split; [exact H3|]. split; [auto|]. split; [auto|]. split; [auto|].
    rewrite nth_error_app2; rewrite map_length, Hl; [|lia].
    replace (idx - b - c) with (idx - (b + c)) by lia. rewrite H7. f_equal. f_equal. f_equal. lia.
  - exists 0, p, b. rewrite <- Ecount. split; [auto|]. split; [auto|]. split; [auto|]. split; [lia|]. split; [auto|]. split; [lia|].
    rewrite nth_error_app1 by (rewrite map_length, Hl; lia).
    rewrite nth_error_map, Hn by lia. cbn [option_map fst snd]. now rewrite Nat.add_0_r.
Qed.
End Positions.

Lemma locate_spec d pairs idx :
  pd_images d = map fst pairs -> pd_last d = running_sums 0 (map (inner_count (pd_px d) (pd_py d)) (map fst pairs)) ->
  (forall p, In p pairs -> fits (pd_px d) (pd_py d) p) -> (Z.of_nat (total (pd_px d) (pd_py d) pairs) < 2 ^ 32)%Z ->
  idx < total (pd_px d) (pd_py d) pairs ->
  exists t col row p, locate d (Z.of_nat idx) = Ok (Some (t, Z.of_nat col, Z.of_nat row)) /\
    nth_error (patches_from (pd_px d) (pd_py d) 0 pairs) idx = Some (t, col, row) /\ nth_error pairs t = Some p /\
    col + pd_px d <= width (fst p) /\ row + pd_py d <= height (fst p).
Proof.
  intros Ei El Hf Hb Hi. set (px := pd_px d) in *. set (py := pd_py d) in *.
  destruct (find_spec px py pairs 0 0 idx Hf) as (t & p & first & H1 & H2 & H3 & H4 & H5 & H6 & H7); [lia|lia|].
  unfold locate. rewrite El. change (Z.of_nat 0) with 0%Z in *. fold px py. rewrite H1. unfold load at 1. rewrite H3. cbn [bind].
  destruct (Z.leb_spec (Z.of_nat (first + (width (fst p) + 1 - px) * (height (fst p) + 1 - py))) (Z.of_nat idx)); [lia|].
  rewrite Ei. unfold load. rewrite nth_error_map, H2. cbn [option_map bind].
  destruct H5 as ((P1 & P2) & (P3 & P4) & P5 & P6). rewrite !inner_nat by auto.
  set (iw := width (fst p) + 1 - px) in *. set (ih := height (fst p) + 1 - py) in *.
  assert (E1 : u32 (Z.of_nat (first + iw * ih) - Z.of_nat iw * Z.of_nat ih) = Z.of_nat first).
  { unfold u32. rewrite Z.mod_small; rewrite <- Nat2Z.inj_mul; lia. }
  rewrite E1.
  assert (E2 : u32 (Z.of_nat idx - Z.of_nat first) = Z.of_nat (idx - first)) by (unfold u32; rewrite Z.mod_small; lia).
  rewrite E2.
  assert (E3 : u64 (Z.of_nat (width (fst p)) - u32 (Z.of_nat px - 1)) = Z.of_nat iw).
  { unfold u64, u32. rewrite (Z.mod_small (Z.of_nat px - 1)) by lia. rewrite Z.mod_small by lia. unfold iw. lia. }
  rewrite E3. destruct (Z.eqb_spec (Z.of_nat iw) 0) as [E|_]; [unfold iw in E; lia|].
  assert (Hiw : 0 < iw) by (unfold iw; lia).
  assert (Hq : (idx - first) / iw < ih) by (apply Nat.div_lt_upper_bound; lia).
  assert (Hih : (Z.of_nat ih <= Z.of_nat (height (fst p)))%Z) by (unfold ih; lia).
  assert (Hwb : (Z.of_nat iw <= Z.of_nat (width (fst p)))%Z) by (unfold iw; lia).
  assert (Hin1 : iw + px = width (fst p) + 1) by (unfold iw; lia). assert (Hin2 : ih + py = height (fst p) + 1) by (unfold ih; lia).
  pose proof (Nat.div_mod (idx - first) iw ltac:(lia)) as Hdm. pose proof (Nat.mod_upper_bound (idx - first) iw ltac:(lia)) as Hr.
  assert (E4 : u32 (Z.of_nat (idx - first) / Z.of_nat iw) = Z.of_nat ((idx - first) / iw)).
  { rewrite <- Nat2Z.inj_div. unfold u32. set (q := (idx - first) / iw) in *. clearbody q iw ih. rewrite Z.mod_small; [reflexivity|]. lia. }
  rewrite E4. rewrite Nat.sub_0_r in H7. clear E1 E2 E3 E4.
  set (q := (idx - first) / iw) in *. set (r := (idx - first) mod iw) in *.
  assert (E5 : u32 (Z.of_nat (idx - first) - Z.of_nat q * Z.of_nat iw) = Z.of_nat r).
  { clearbody q r iw ih. replace (Z.of_nat (idx - first) - Z.of_nat q * Z.of_nat iw)%Z with (Z.of_nat r) by (rewrite Hdm; lia).
    unfold u32. apply Z.mod_small. lia. }
  rewrite E5. exists t, r, q, p.
  split; [reflexivity|]. split; [exact H7|]. split; [exact H2|].
  clearbody q r iw ih. split; lia.
Qed.

Lemma split_pairs_length {A} (l : list A) : length (split_pairs l) = length l / 2.
Proof.
  enough (length (split_pairs l) = length l / 2 /\ forall a, length (split_pairs (a :: l)) = S (length l) / 2) by tauto.
  induction l as [|b l [IH1 IH2]]; [split; [reflexivity|intros a; reflexivity]|]. split; [apply IH2|].
  intros a. cbn [split_pairs length]. rewrite IH1. replace (S (S (length l))) with (length l + 1 * 2) by lia. rewrite Nat.div_add by lia. lia.
Qed.

(** ** Samples *)
Lemma patch_copy d b img target slot col row :
  wf img -> 0 < samples img -> maps img = pd_input_maps d -> col + pd_px d <= width img -> row + pd_py d <= height img ->
  shape_is target b (pd_px d) (pd_py d) (pd_input_maps d) -> slot < b ->
  exists t', run_stores target (patch_stores d img target slot col row) = Ok t' /\
    slot_is target t' slot (fun x y m => at_pos img (col + x) (row + y) m 0).
Proof.
  intros Wi Si Mi Hc Hr (Wt & S1 & S2 & S3 & S4) Hs.
  assert (Hval : forall x y m, x < pd_px d -> y < pd_py d -> m < pd_input_maps d ->
            exists v, at_pos img (col + x) (row + y) m 0 = Some v /\ (l <- buffer img ;; load l (offset img col (row + y) m 0 + x)) = Ok v).
  { intros x y m Hx Hy Hm. assert (Hv : valid_pos img (col + x) (row + y) m 0) by (repeat split; lia).
    destruct (at_pos_some img _ _ _ _ Wi Hv) as [v Ev]. exists v. split; [exact Ev|].
    pose proof (at_pos_get _ _ _ _ _ _ Ev) as Hg. unfold get in Hg.
    replace (offset img col (row + y) m 0 + x) with (offset img (col + x) (row + y) m 0) by (unfold offset; lia). exact Hg. }
  set (F := fun x y m s => if s =? slot then at_pos img (col + x) (row + y) m 0 else None).
  destruct (run_stores_frame target (patch_stores d img target slot col row) F) as (t' & Hrun & Hwf & Hsh & Hat); auto.
  - intros a rv Hin. unfold patch_stores in Hin. apply in_for in Hin as (m & Hm & Hin). apply in_for in Hin as (y & Hy & Hin). apply in_for in Hin as (x & Hx & [E|[]]).
    inversion E; subst a rv; clear E. destruct (Hval x y m Hx Hy Hm) as (v & Ev & El).
    exists x, y, m, slot, v. split; [repeat split; lia|]. split; [unfold offset; lia|]. split; [exact El|]. unfold F. now rewrite Nat.eqb_refl.
  - intros x y m s v (Hx & Hy & Hm & Hs') E. unfold F in E. destruct (Nat.eqb_spec s slot) as [->|]; [|discriminate].
    rewrite S2 in Hx. rewrite S3 in Hy. rewrite S4 in Hm. destruct (Hval x y m Hx Hy Hm) as (v' & Ev & El). rewrite Ev in E. inversion E; subst v'.
    unfold patch_stores. apply in_for. exists m. split; [auto|]. apply in_for. exists y. split; [auto|]. apply in_for. exists x. split; [auto|]. left.
    f_equal; [unfold offset; lia|exact El].
  - exists t'. split; auto. split; auto. split; auto. intros x y m s Hv. rewrite (Hat _ _ _ _ Hv). unfold F.
    destruct (s =? slot); auto. destruct Hv as (Hx & Hy & Hm & Hs'). rewrite S2 in Hx. rewrite S3 in Hy. rewrite S4 in Hm.
    destruct (Hval x y m Hx Hy Hm) as (v & -> & _). reflexivity.
Qed.

Lemma label_copy d b lab target slot col row :
  wf lab -> 0 < samples lab -> maps lab = pd_label_maps d -> col + pd_px d <= width lab -> row + pd_py d <= height lab -> 0 < pd_px d -> 0 < pd_py d ->
  shape_is target b 1 1 (pd_label_maps d) -> slot < b ->
  exists t', run_stores target (label_stores d lab target slot col row) = Ok t' /\
    slot_is target t' slot (fun x y m => at_pos lab (col + pd_px d / 2) (row + pd_py d / 2) m 0).
Proof.
  intros Wl Sl Ml Hc Hr Px Py (Wt & S1 & S2 & S3 & S4) Hs.
  assert (Hpx : pd_px d / 2 < pd_px d) by (apply Nat.div_lt; lia). assert (Hpy : pd_py d / 2 < pd_py d) by (apply Nat.div_lt; lia).
  set (cx := col + pd_px d / 2) in *. set (cy := row + pd_py d / 2) in *.
  assert (Hval : forall m, m < pd_label_maps d -> exists v, at_pos lab cx cy m 0 = Some v /\ get lab cx cy m 0 = Ok v).
  { intros m Hm. destruct (at_pos_some lab cx cy m 0 Wl) as [v Ev]; [subst cx cy; clear - Hm Hc Hr Hpx Hpy Ml Sl; repeat split; lia|].
    exists v. split; [exact Ev|]. now apply at_pos_get. }
  set (F := fun x y m s : nat => if s =? slot then at_pos lab cx cy m 0 else None).
  destruct (run_stores_frame target (label_stores d lab target slot col row) F) as (t' & Hrun & Hwf & Hsh & Hat); auto.
  - intros a rv Hin. unfold label_stores in Hin. apply in_for in Hin as (m & Hm & [E|[]]). fold cx cy in E. inversion E; subst a rv; clear E.
    destruct (Hval m Hm) as (v & Ev & El). exists 0, 0, m, slot, v. split; [repeat split; lia|]. split; [auto|]. split; [exact El|].
    unfold F. now rewrite Nat.eqb_refl.
  - intros x y m s v (Hx & Hy & Hm & Hs') E. unfold F in E. destruct (Nat.eqb_spec s slot) as [->|]; [|discriminate].
    rewrite S4 in Hm. destruct (Hval m Hm) as (v' & Ev & El). rewrite Ev in E. inversion E; subst v'.
    unfold label_stores. apply in_for. exists m. split; [auto|]. left. fold cx cy. rewrite El. f_equal. f_equal; lia.
  - exists t'. split; auto. split; auto. split; auto. intros x y m s Hv. rewrite (Hat _ _ _ _ Hv). unfold F.
    destruct (s =? slot); auto. destruct Hv as (Hx & Hy & Hm & Hs'). rewrite S4 in Hm. destruct (Hval m Hm) as (v & -> & _). reflexivity.
Qed.

Lemma helper_copy b target slot u v :
  shape_is target b 1 1 2 -> slot < b ->
  exists t', run_stores target [(offset target 0 0 0 slot, Ok u); (offset target 0 0 1 slot, Ok v)] = Ok t' /\
    slot_is target t' slot (fun x y m => Some (if m =? 0 then u else v)).
Proof.
  intros (Wt & S1 & S2 & S3 & S4) Hs.
  set (F := fun x y m s : nat => if s =? slot then Some (if m =? 0 then u else v) else None).
  destruct (run_stores_frame target [(offset target 0 0 0 slot, Ok u); (offset target 0 0 1 slot, Ok v)] F) as (t' & Hrun & Hwf & Hsh & Hat); auto.
  - intros a rv [E|[E|[]]]; inversion E; subst a rv; clear E.
    + exists 0, 0, 0, slot, u. split; [repeat split; lia|]. unfold F. rewrite Nat.eqb_refl. auto.
    + exists 0, 0, 1, slot, v. split; [repeat split; lia|]. unfold F. rewrite Nat.eqb_refl. auto.
  - intros x y m s w (Hx & Hy & Hm & Hs') E. unfold F in E. destruct (Nat.eqb_spec s slot) as [->|]; [|discriminate]. inversion E; subst w.
    assert (x = 0) as -> by lia. assert (y = 0) as -> by lia. assert (m = 0 \/ m = 1) as [->| ->] by lia; [left|right; left]; reflexivity.
  - exists t'. split; auto. split; auto. split; auto. intros x y m s Hv. rewrite (Hat _ _ _ _ Hv). unfold F. destruct (s =? slot); auto.
Qed.

Lemma weight_copy b target slot u :
  shape_is target b 1 1 1 -> slot < b ->
  exists t', run_stores target [(offset target 0 0 0 slot, Ok u)] = Ok t' /\ slot_is target t' slot (fun x y m => Some u).
Proof.
  intros (Wt & S1 & S2 & S3 & S4) Hs.
  set (F := fun x y m s : nat => if s =? slot then Some u else None).
  destruct (run_stores_frame target [(offset target 0 0 0 slot, Ok u)] F) as (t' & Hrun & Hwf & Hsh & Hat); auto.
  - intros a rv [E|[]]; inversion E; subst a rv; clear E.
    exists 0, 0, 0, slot, u. split; [repeat split; lia|]. unfold F. rewrite Nat.eqb_refl. auto.
  - intros x y m s w (Hx & Hy & Hm & Hs') E. unfold F in E. destruct (Nat.eqb_spec s slot) as [->|]; [|discriminate]. inversion E; subst w.
    assert (x = 0) as -> by lia. assert (y = 0) as -> by lia. assert (m = 0) as -> by lia. left; reflexivity.
  - exists t'. split; auto. split; auto. split; auto. intros x y m s Hv. rewrite (Hat _ _ _ _ Hv). unfold F. destruct (s =? slot); auto.
Qed.

Lemma slot_is_shape t t' slot pic b w h m : shape_is t b w h m -> slot_is t t' slot pic -> shape_is t' b w h m.
Proof. intros (_ & H1 & H2 & H3 & H4) (Hw & (E1 & E2 & E3 & E4) & _). split; [exact Hw|]. repeat split; congruence. Qed.

Section Sample.
Variable position : nat -> nat -> f32.
Variable error_function : nat -> nat -> nat -> nat -> f32.
Variable mul : f32 -> f32 -> f32.

(** What a patch sample consists of. *)
Definition patch_loaded (d : patch_dataset) (o o' : outputs f32) (slot : nat) (img lab : tensor f32) (col row : nat) : Prop :=
  let cx := col + pd_px d / 2 in
  let cy := row + pd_py d / 2 in
  slot_is (o_data o) (o_data o') slot (fun x y m => at_pos img (col + x) (row + y) m 0) /\
  slot_is (o_label o) (o_label o') slot (fun x y m => at_pos lab cx cy m 0) /\
  slot_is (o_helper o) (o_helper o') slot
    (fun x y m => Some (if m =? 0 then (if 1 <? width img then position col (width img) else f32_zero)
                        else (if 1 <? height img then position row (height img) else f32_zero))) /\
  exists c cw, class_of lab cx cy c /\ nth_error (pd_class_weights d) c = Some cw /\
    slot_is (o_weight o) (o_weight o') slot (fun x y m => Some (mul (error_function cx cy (width img) (height img)) cw)).

Lemma get_patch_spec d pairs b o slot idx :
  pd_images d = map fst pairs -> pd_labels d = map snd pairs -> pd_last d = running_sums 0 (map (inner_count (pd_px d) (pd_py d)) (map fst pairs)) ->
  0 < pd_px d -> 0 < pd_py d ->
  (forall p, In p pairs -> pair_ok (pd_px d) (pd_py d) (pd_input_maps d) (pd_label_maps d) p) ->
  (Z.of_nat (total (pd_px d) (pd_py d) pairs) < 2 ^ 32)%Z -> pd_label_maps d <= length (pd_class_weights d) ->
  patch_outputs d b o -> slot < b -> idx < total (pd_px d) (pd_py d) pairs ->
  exists t col row img lab o', nth_error (patches_from (pd_px d) (pd_py d) 0 pairs) idx = Some (t, col, row) /\
    nth_error pairs t = Some (img, lab) /\ get_patch position error_function mul d o slot (Z.of_nat idx) = Ok (o', true) /\ patch_outputs d b o' /\
    patch_loaded d o o' slot img lab col row.
Proof.
  intros Ei El Els Px Py Hok Hb Hcw (Od & Ol & Oh & Ow) Hs Hi.
  destruct (locate_spec d pairs idx Ei Els) as (t & col & row & [img lab] & E1 & E2 & E3 & E4 & E5); auto.
  { intros p Hp. destruct (Hok p Hp) as (_ & _ & _ & _ & _ & _ & _ & _ & A & B & C & E). repeat split; auto. }
  cbn [fst] in E4, E5.
  destruct (Hok _ (nth_error_In _ _ E3)) as (Wi & Wl & Si & Sl & Mi & Ml & Ewl & Ehl & _). cbn [fst snd] in *.
  destruct (patch_copy d b img (o_data o) slot col row) as (d' & R1 & H1); auto.
  destruct (label_copy d b lab (o_label o) slot col row) as (l' & R2 & H2); auto; try lia.
  destruct (helper_copy b (o_helper o) slot (patch_position position col (width img)) (patch_position position row (height img))) as (h' & R3 & H3); auto.
  pose proof (slot_is_shape _ _ _ _ _ _ _ _ Ol H2) as (Wl' & L1 & L2 & L3 & L4).
  assert (Hpx : pd_px d / 2 < pd_px d) by (apply Nat.div_lt; lia). assert (Hpy : pd_py d / 2 < pd_py d) by (apply Nat.div_lt; lia).
  destruct (Tensor_Props.C06_pixel_maximum lab (col + pd_px d / 2) (row + pd_py d / 2) 0 Wl) as (c & Ec & _); [lia|lia|lia|].
  destruct (class_lt lab (col + pd_px d / 2) (row + pd_py d / 2) c Wl ltac:(lia) ltac:(lia) ltac:(lia) Ec) as (Hc & Hclt).
  assert (Ec' : pixel_maximum fgt f32_lowest l' 0 0 slot = Ok c).
  { destruct (Tensor_Props.C06_pixel_maximum l' 0 0 slot Wl') as (c' & Ec2 & Fc); [lia|lia|lia|]. rewrite Ec2. f_equal.
    set (val := fun m => match at_pos lab (col + pd_px d / 2) (row + pd_py d / 2) m 0 with Some v => v | None => 0%Z end).
    assert (Hval : forall m, m < maps lab -> at_pos lab (col + pd_px d / 2) (row + pd_py d / 2) m 0 = Some (val m)).
    { intros m Hm. destruct (at_pos_some lab (col + pd_px d / 2) (row + pd_py d / 2) m 0 Wl) as [v Ev]; [repeat split; lia|]. unfold val. now rewrite Ev. }
    eapply C06_answer_unique; [apply Fc|]; [|rewrite L4, <- Ml; apply Hc; exact Hval].
    intros m Hm. destruct H2 as (_ & (T1 & T2 & T3 & T4) & Hat). rewrite Hat by (repeat split; lia). rewrite Nat.eqb_refl. apply Hval. lia. }
  destruct (nth_error (pd_class_weights d) c) as [cw|] eqn:Ecw; [|apply nth_error_None in Ecw; lia].
  destruct (weight_copy b (o_weight o) slot (mul (error_function (col + pd_px d / 2) (row + pd_py d / 2) (width img) (height img)) cw)) as (w' & R4 & H4); auto.
  exists t, col, row, img, lab, (mkOut d' l' h' w'). split; [exact E2|]. split; [exact E3|].
  split.
  - unfold get_patch. rewrite E1. cbn [bind]. rewrite !Nat2Z.id, Ei, El. unfold load. rewrite !nth_error_map, E3. cbn [option_map fst snd bind].
    rewrite R1. cbn [bind]. rewrite R2. cbn [bind]. rewrite R3. cbn [bind]. rewrite Ec'. cbn [bind]. rewrite Ecw. cbn [bind]. rewrite R4. reflexivity.
  - split.
    + split; [|split; [|split]]; cbn [o_data o_label o_helper o_weight]; eapply slot_is_shape; eauto.
    + split; [exact H1|]. split; [exact H2|]. split; [exact H3|]. exists c, cw. split; [exact Hc|]. split; [exact Ecw|]. exact H4.
Qed.
End Sample.

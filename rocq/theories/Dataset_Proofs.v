(** Proofs about datasets. *)
From Coq Require Import ZifyBool ZifyNat.
From Verif Require Import Base BaseFacts Float32 Tensor_Model Tensor_Spec Tensor_Proofs Tensor_Props Stream_Model DatasetInput_Model
  DatasetInput_Spec Dataset_Model Dataset_Spec.

(** ** Reported dimensions *)
Section Dims.
Local Open Scope Z_scope.

Lemma land_pow2 v i : 0 <= v -> 0 <= i -> (Z.land v (2 ^ i) =? 0) = ((v / 2 ^ i) mod 2 =? 0).
Proof.
  intros Hv Hi.
  assert (E : Z.land v (2 ^ i) = if Z.testbit v i then 2 ^ i else 0).
  { apply Z.bits_inj'. intros n Hn. rewrite Z.land_spec, Z.pow2_bits_eqb by lia.
    destruct (Z.eqb_spec i n) as [->|Hne].
    - destruct (Z.testbit v n); [now rewrite Z.pow2_bits_true|now rewrite Z.bits_0].
    - rewrite andb_false_r. destruct (Z.testbit v i); [now rewrite Z.pow2_bits_false by lia|now rewrite Z.bits_0]. }
  rewrite E. rewrite <- (Z.testbit_spec' v i) by lia.
  destruct (Z.testbit v i); cbn; auto. apply Z.eqb_neq. assert (0 < 2 ^ i) by (apply Z.pow_pos_nonneg; lia). lia.
Qed.

Lemma round_step_spec v0 v k : 0 < k -> 0 <= v0 -> v0 + 2 * k <= 2 ^ 32 -> (exists i, 0 <= i /\ k = 2 ^ i) ->
  v0 <= v < v0 + k -> v mod k = 0 -> v0 <= round_step v k < v0 + 2 * k /\ round_step v k mod (2 * k) = 0.
Proof.
  intros Hk Hv0 Hb (i & Hi & Ek) Hv Hm. unfold round_step, u32. rewrite Ek, land_pow2 by lia. rewrite <- Ek.
  apply Z.mod_divide in Hm as [q Hq]; [|lia]. rewrite Hq, Z.div_mul by lia.
  destruct (Z.eqb_spec (q mod 2) 0) as [E|E].
  - split; [lia|]. apply Z.mod_divide; [lia|]. apply Z.mod_divide in E as [p Hp]; [|lia]. exists p. subst q. ring.
  - rewrite Z.mod_small by lia. split; [lia|]. apply Z.mod_divide; [lia|]. exists (q / 2 + 1).
    pose proof (Z.div_mod q 2 ltac:(lia)). pose proof (Z.mod_pos_bound q 2 ltac:(lia)).
    assert (q = 2 * (q / 2) + 1) as Eq2 by lia. rewrite Eq2 at 1. ring.
Qed.

Lemma round_dim_spec v : 0 <= v <= 2 ^ 32 - 64 -> v <= round_dim v < v + 64 /\ round_dim v mod 64 = 0.
Proof.
  intros Hv. unfold round_dim. cbn [fold_left].
  assert (P : forall i k, 0 <= i -> k = 2 ^ i -> exists i, 0 <= i /\ k = 2 ^ i) by eauto.
  destruct (round_step_spec v v 1) as [B1 M1]; [lia|lia|lia|exists 0; lia|lia|apply Z.mod_1_r|].
  destruct (round_step_spec v _ 2 ltac:(lia) ltac:(lia) ltac:(lia) (P 1 2 ltac:(lia) eq_refl) B1 M1) as [B2 M2].
  destruct (round_step_spec v _ 4 ltac:(lia) ltac:(lia) ltac:(lia) (P 2 4 ltac:(lia) eq_refl) B2 M2) as [B3 M3].
  destruct (round_step_spec v _ 8 ltac:(lia) ltac:(lia) ltac:(lia) (P 3 8 ltac:(lia) eq_refl) B3 M3) as [B4 M4].
  destruct (round_step_spec v _ 16 ltac:(lia) ltac:(lia) ltac:(lia) (P 4 16 ltac:(lia) eq_refl) B4 M4) as [B5 M5].
  destruct (round_step_spec v _ 32 ltac:(lia) ltac:(lia) ltac:(lia) (P 5 32 ltac:(lia) eq_refl) B5 M5) as [B6 M6].
  split; [exact B6|exact M6].
Qed.

Lemma fold_larger (f : nat -> nat) l : forall m, 0 <= m ->
  (forall t, In t l -> Z.of_nat (f t) < 2 ^ 32) ->
  let r := fold_left (fun m t => take_larger m (f t)) l m in
  m <= r /\ (forall t, In t l -> Z.of_nat (f t) <= r) /\ (r = m \/ exists t, In t l /\ r = Z.of_nat (f t)).
Proof.
  induction l as [|a l IH]; intros m Hm Hb r; cbn [fold_left] in r.
  - subst r. split; [lia|]. split; [intros t []|auto].
  - assert (Ha : Z.of_nat (f a) < 2 ^ 32) by (apply Hb; now left).
    assert (E : take_larger m (f a) = Z.max m (Z.of_nat (f a))).
    { unfold take_larger, u32. destruct (Z.ltb_spec m (Z.of_nat (f a))); [rewrite Z.mod_small by lia|]; lia. }
    destruct (IH (take_larger m (f a))) as (H1 & H2 & H3); [lia|intros t Ht; apply Hb; now right|]. fold r in H1, H2, H3.
    split; [lia|]. split.
    + intros t [<-|Ht]; [lia|auto].
    + destruct H3 as [H3|(t & Ht & H3)].
      * destruct (Z.max_spec m (Z.of_nat (f a))) as [[_ E']|[_ E']]; rewrite E' in E.
        -- right. exists a. split; [now left|]. congruence.
        -- left. congruence.
      * right. exists t. split; [now right|auto].
Qed.

Lemma largest_spec dim (size : tensor f32 -> nat) training testing :
  (forall s i, dim s i = match nth_error s i with Some t => size t | None => 0%nat end) ->
  Nat.odd (length training) = false -> Nat.odd (length testing) = false ->
  (forall t, considered training testing t -> Z.of_nat (size t) <= 2 ^ 32 - 64) ->
  0 <= largest dim training testing <= 2 ^ 32 - 64 /\
  (forall t, considered training testing t -> Z.of_nat (size t) <= largest dim training testing) /\
  (largest dim training testing = 0 \/ exists t, considered training testing t /\ largest dim training testing = Z.of_nat (size t)).
Proof.
  intros Hdim Ot Os Hb. unfold largest. set (nt := (length training / 2)%nat). set (na := ((length testing + length training) / 2)%nat).
  assert (B1 : forall t, In t (seq 0 nt) -> Z.of_nat (dim training (2 * t)%nat) < 2 ^ 32).
  { intros t Ht. rewrite Hdim. destruct (nth_error training (2 * t)) eqn:E; [|lia].
    assert (considered training testing t0) as H by (left; exists t; exact E). apply Hb in H. lia. }
  destruct (fold_larger (fun t => dim training (2 * t)%nat) (seq 0 nt) 0 ltac:(lia) B1) as (L1 & A1 & E1).
  set (m := fold_left _ (seq 0 nt) 0) in *.
  assert (B2 : forall t, In t (range nt na) -> Z.of_nat (dim testing (2 * t)%nat) < 2 ^ 32).
  { intros t Ht. rewrite Hdim. destruct (nth_error testing (2 * t)) eqn:E; [|lia].
    apply in_range in Ht. assert (considered training testing t0) as H by (right; exists t; split; [unfold nt in *; lia|exact E]). apply Hb in H. lia. }
  destruct (fold_larger (fun t => dim testing (2 * t)%nat) (range nt na) m L1 B2) as (L2 & A2 & E2).
  set (r := fold_left _ (range nt na) m) in *.
  assert (Hex : r = 0 \/ exists t, considered training testing t /\ r = Z.of_nat (size t)).
  { destruct E2 as [E2|(t & Ht & E2)].
    - destruct E1 as [E1|(t & Ht & E1)]; [left; congruence|]. rewrite Hdim in E1.
      destruct (nth_error training (2 * t)) as [u|] eqn:E; [|left; lia]. right. exists u. split; [left; exists t; exact E|congruence].
    - rewrite Hdim in E2. destruct (nth_error testing (2 * t)) as [u|] eqn:E; [|left; lia]. right. exists u.
      apply in_range in Ht. split; [right; exists t; split; [unfold nt in *; lia|exact E]|congruence]. }
  split; [|split; [|exact Hex]].
  - split; [lia|]. destruct Hex as [->|(t & Ht & ->)]; [lia|auto].
  - intros t [(i & Hi)|(i & Hi & Hi')].
    + unfold image in Hi. assert (In i (seq 0 nt)) as Hin.
      { apply in_seq. assert (2 * i < length training)%nat by (apply nth_error_Some; congruence).
        rewrite <- Nat.negb_even in Ot. apply negb_false_iff, Nat.even_spec in Ot as [k Hk]. unfold nt. rewrite Hk, Nat.mul_comm, Nat.div_mul by lia. lia. }
      apply A1 in Hin. rewrite Hdim, Hi in Hin. lia.
    + unfold image in Hi'. assert (In i (range nt na)) as Hin.
      { apply in_range. assert (2 * i < length testing)%nat by (apply nth_error_Some; congruence).
        rewrite <- Nat.negb_even in Os. apply negb_false_iff, Nat.even_spec in Os as [k Hk]. split; [exact Hi|].
        unfold na. apply Nat.div_le_lower_bound; lia. }
      apply A2 in Hin. rewrite Hdim, Hi' in Hin. lia.
Qed.
End Dims.

Lemma dim_least dim (size : tensor f32 -> nat) training testing :
  (forall s i, dim s i = match nth_error s i with Some t => size t | None => 0%nat end) ->
  Nat.odd (length training) = false -> Nat.odd (length testing) = false ->
  (forall t, considered training testing t -> (Z.of_nat (size t) <= 2 ^ 32 - 64)%Z) ->
  least_multiple_of_64 (fun v => exists t, considered training testing t /\ v = size t) (Z.to_nat (round_dim (largest dim training testing))).
Proof.
  intros Hd O1 O2 Hb. destruct (largest_spec dim size training testing Hd O1 O2 Hb) as (Hr & Ha & He).
  destruct (round_dim_spec _ Hr) as (R1 & R2).
  set (m := largest dim training testing) in *. set (r := round_dim m) in *. clearbody r. clear Hb Hd O1 O2.
  split; [|split].
  - lia.
  - intros v (t & Ht & ->). specialize (Ha t Ht). lia.
  - intros r' Hm Hall. destruct He as [He|(t & Ht & He)].
    + assert (r = 0)%Z by lia. lia.
    + assert (size t <= r') by (apply Hall; eauto). lia.
Qed.

(** The class found in the output label is that of the stored label. *)
Lemma pixel_maximum_same (t u : tensor f32) x y s s' :
  wf t -> wf u -> x < width t -> y < height t -> s < samples t -> x < width u -> y < height u -> s' < samples u -> maps t = maps u ->
  (forall m, m < maps t -> at_pos t x y m s = at_pos u x y m s') ->
  pixel_maximum fgt f32_lowest t x y s = pixel_maximum fgt f32_lowest u x y s'.
Proof.
  intros Wt Wu Xt Yt St Xu Yu Su Em Hv.
  destruct (C06_pixel_maximum t x y s Wt Xt Yt St) as (r & Er & Fr).
  destruct (C06_pixel_maximum u x y s' Wu Xu Yu Su) as (q & Eq & Fq).
  rewrite Er, Eq. f_equal.
  set (val := fun m => match at_pos t x y m s with Some v => v | None => 0%Z end).
  assert (Hval : forall m, m < maps t -> at_pos t x y m s = Some (val m)).
  { intros m Hm. destruct (at_pos_some t x y m s Wt) as [v E]; [repeat split; auto|]. unfold val. now rewrite E. }
  eapply C06_answer_unique; [apply Fr; exact Hval|]. rewrite Em. apply Fq. intros m Hm. rewrite <- Em in Hm. rewrite <- Hv by auto. auto.
Qed.

Lemma class_lt lab x y c : wf lab -> x < width lab -> y < height lab -> 0 < samples lab -> pixel_maximum fgt f32_lowest lab x y 0 = Ok c ->
  class_of lab x y c /\ c < maps lab.
Proof.
  intros Hwf Hx Hy Hs E. destruct (C06_pixel_maximum lab x y 0 Hwf Hx Hy Hs) as (r & Er & Fr). rewrite Er in E. inversion E; subst r; clear E.
  split; [exact Fr|].
  set (val := fun m => match at_pos lab x y m 0 with Some v => v | None => 0%Z end).
  assert (Hval : forall m, m < maps lab -> at_pos lab x y m 0 = Some (val m)).
  { intros m Hm. destruct (at_pos_some lab x y m 0 Hwf) as [v Ev]; [repeat split; auto|]. unfold val. now rewrite Ev. }
  destruct (Fr val Hval) as [[-> _]|[H _]]; [|exact H].
  destruct Hwf as [He Hd]. destruct (data lab); [|lia]. destruct (maps lab); [rewrite Nat.mul_0_r in He; simpl in He; lia|lia].
Qed.

Lemma wf_maps_pos {D} (t : tensor D) : wf t -> 0 < samples t -> 0 < maps t.
Proof.
  intros [He Hd] Hs. destruct (data t); [|lia]. destruct (maps t); [rewrite Nat.mul_0_r in He; simpl in He; lia|lia].
Qed.

(** ** Samples *)
Section Sample.
Variable position : nat -> nat -> f32.
Variable error_function : nat -> nat -> nat -> nat -> f32.
Variable mul : f32 -> f32 -> f32.

Lemma helper_spec d b helper slot dw dh :
  shape_is helper b (ds_width d) (ds_height d) 2 -> slot < b -> dw <= ds_width d -> dh <= ds_height d ->
  exists t', run_stores helper (helper_stores position d helper slot dw dh) = Ok t' /\
    slot_shows helper t' slot dw dh (fun x y m => Some (if m =? 0 then position x dw else position y dh)).
Proof.
  intros (Hwf & Hs & Hw & Hh & Hm) Hslot Hdw Hdh.
  set (F := fun x y m s => if s =? slot then Some (if (x <? dw) && (y <? dh) then if m =? 0 then position x dw else position y dh else f32_zero) else None).
  destruct (run_stores_frame helper (helper_stores position d helper slot dw dh) F) as (t' & Hr & Hwf' & Hsh & Hat); auto.
  - intros a rv Hin. unfold helper_stores in Hin.
    apply in_app_or in Hin as [Hin|Hin].
    + apply in_for in Hin as (y & Hy & Hin). apply in_app_or in Hin as [Hin|Hin].
      * apply in_for in Hin as (x & Hx & [E|[E|[]]]); inversion E; subst; clear E.
        -- exists x, y, 0, slot, (position x dw). split; [repeat split; lia|]. split; [auto|]. split; [auto|].
           unfold F. rewrite Nat.eqb_refl. replace (x <? dw) with true by lia. replace (y <? dh) with true by lia. reflexivity.
        -- exists x, y, 1, slot, (position y dh). split; [repeat split; lia|]. split; [auto|]. split; [auto|].
           unfold F. rewrite Nat.eqb_refl. replace (x <? dw) with true by lia. replace (y <? dh) with true by lia. reflexivity.
      * apply in_for_from in Hin as (x & Hx & [E|[E|[]]]); inversion E; subst; clear E.
        -- exists x, y, 0, slot, f32_zero. split; [repeat split; lia|]. split; [auto|]. split; [auto|].
           unfold F. rewrite Nat.eqb_refl. replace (x <? dw) with false by lia. reflexivity.
        -- exists x, y, 1, slot, f32_zero. split; [repeat split; lia|]. split; [auto|]. split; [auto|].
           unfold F. rewrite Nat.eqb_refl. replace (x <? dw) with false by lia. reflexivity.
    + apply in_for_from in Hin as (y & Hy & Hin). apply in_for in Hin as (x & Hx & [E|[E|[]]]); inversion E; subst; clear E.
      * exists x, y, 0, slot, f32_zero. split; [repeat split; lia|]. split; [auto|]. split; [auto|].
        unfold F. rewrite Nat.eqb_refl. replace (y <? dh) with false by lia. now rewrite andb_false_r.
      * exists x, y, 1, slot, f32_zero. split; [repeat split; lia|]. split; [auto|]. split; [auto|].
        unfold F. rewrite Nat.eqb_refl. replace (y <? dh) with false by lia. now rewrite andb_false_r.
  - intros x y m s v (Hx & Hy & Hm' & Hs') E. unfold F in E. destruct (Nat.eqb_spec s slot) as [->|]; [|discriminate]. inversion E; subst v; clear E.
    rewrite Hm in Hm'. unfold helper_stores. apply in_or_app.
    destruct (Nat.lt_ge_cases y dh) as [Ly|Ly]; [left|right].
    + apply in_for. exists y. split; auto. apply in_or_app. replace (y <? dh) with true by lia. rewrite andb_true_r.
      destruct (Nat.lt_ge_cases x dw) as [Lx|Lx]; [left|right].
      * apply in_for. exists x. split; auto. replace (x <? dw) with true by lia.
        destruct m as [|[|m]]; [left|right; left|lia]; reflexivity.
      * apply in_for_from. exists x. split; [lia|]. replace (x <? dw) with false by lia.
        destruct m as [|[|m]]; [left|right; left|lia]; reflexivity.
    + apply in_for_from. exists y. split; [lia|]. apply in_for. exists x. split; [lia|]. replace (y <? dh) with false by lia. rewrite andb_false_r.
      destruct m as [|[|m]]; [left|right; left|lia]; reflexivity.
  - exists t'. split; auto. split; auto. split; auto. intros x y m s Hv. rewrite (Hat _ _ _ _ Hv). unfold F.
    destruct (s =? slot); auto. destruct (_ && _); auto.
Qed.

Definition weight_at (d : dataset) (lab : tensor f32) (dw dh x y : nat) : option f32 :=
  match pixel_maximum fgt f32_lowest lab x y 0 with
  | Ok c => match nth_error (ds_class_weights d) c with Some cw => Some (mul (error_function x y dw dh) cw) | None => None end
  | _ => None
  end.

Lemma weight_spec d b lab label' weight slot dw dh :
  shape_is weight b (ds_width d) (ds_height d) 1 -> slot < b -> dw <= ds_width d -> dh <= ds_height d ->
  wf lab -> 0 < samples lab -> width lab = dw -> height lab = dh -> maps lab <= length (ds_class_weights d) ->
  shape_is label' b (ds_width d) (ds_height d) (maps lab) ->
  (forall x y m, x < dw -> y < dh -> m < maps lab -> at_pos label' x y m slot = at_pos lab x y m 0) ->
  exists c t', clear weight f32_zero (Some slot) = Ok c /\ run_stores c (weight_stores error_function mul d label' c slot dw dh) = Ok t' /\
    slot_shows weight t' slot dw dh (fun x y m => weight_at d lab dw dh x y).
Proof.
  intros (Hwf & Hs & Hw & Hh & Hm) Hslot Hdw Hdh Wl Sl El1 El2 Hcw (Wl' & Sl' & Wl2 & Hl2 & Ml) Hsame.
  destruct (clear_sample_spec weight f32_zero slot Hwf ltac:(lia)) as (c & Hc & Hwfc & Hshc & Hatc).
  pose proof Hshc as (S1 & S2 & S3 & S4).
  assert (Hpix : forall x y, x < dw -> y < dh -> exists k cw, pixel_maximum fgt f32_lowest label' x y slot = Ok k /\
             pixel_maximum fgt f32_lowest lab x y 0 = Ok k /\ nth_error (ds_class_weights d) k = Some cw /\
             weight_at d lab dw dh x y = Some (mul (error_function x y dw dh) cw)).
  { intros x y Hx Hy. destruct (C06_pixel_maximum lab x y 0 Wl) as (k & Ek & _); [lia|lia|lia|].
    destruct (class_lt lab x y k) as (_ & Hk); auto; try lia.
    destruct (nth_error (ds_class_weights d) k) as [cw|] eqn:Ecw; [|apply nth_error_None in Ecw; lia].
    exists k, cw. split; [|unfold weight_at; rewrite Ek, Ecw; auto].
    rewrite <- Ek. apply pixel_maximum_same; auto; try lia. intros m Hm'. apply Hsame; auto. lia. }
  set (F := fun x y (m s : nat) => if (s =? slot) && ((x <? dw) && (y <? dh)) then weight_at d lab dw dh x y else None).
  destruct (run_stores_frame c (weight_stores error_function mul d label' c slot dw dh) F) as (t' & Hr & Hwf' & Hsh & Hat); auto.
  - intros a rv Hin. unfold weight_stores in Hin. apply in_for in Hin as (y & Hy & Hin). apply in_for in Hin as (x & Hx & [E|[]]). inversion E; subst a rv; clear E.
    destruct (Hpix x y Hx Hy) as (k & cw & E1 & E2 & E3 & E4).
    exists x, y, 0, slot, (mul (error_function x y dw dh) cw). split; [repeat split; lia|]. split; [auto|].
    rewrite E1. cbn [bind]. unfold load. rewrite E3. cbn [bind]. split; [auto|].
    unfold F. rewrite Nat.eqb_refl. replace (x <? dw) with true by lia. replace (y <? dh) with true by lia. exact E4.
  - intros x y m s v (Hx & Hy & Hm' & Hs') E. unfold F in E. destruct (Nat.eqb_spec s slot) as [->|]; [|discriminate].
    destruct (Nat.ltb_spec x dw) as [Lx|Lx]; [|discriminate]. destruct (Nat.ltb_spec y dh) as [Ly|Ly]; [|discriminate]. cbn [andb] in E.
    destruct (Hpix x y Lx Ly) as (k & cw & E1 & E2 & E3 & E4). rewrite E4 in E. inversion E; subst v.
    unfold weight_stores. apply in_for. exists y. split; auto. apply in_for. exists x. split; auto. left.
    rewrite E1. cbn [bind]. unfold load. rewrite E3. cbn [bind]. f_equal. f_equal. lia.
  - exists c, t'. split; auto. split; auto. split; auto. split; [eapply same_shape_trans; eauto|]. intros x y m s Hv.
    assert (Hv' : valid_pos c x y m s) by (now apply (same_shape_valid _ _ _ _ _ _ Hshc)).
    rewrite (Hat _ _ _ _ Hv'), (Hatc _ _ _ _ Hv). unfold F.
    destruct (s =? slot); cbn [andb]; auto. destruct (Nat.ltb_spec x dw) as [Lx|Lx]; cbn [andb]; auto. destruct (Nat.ltb_spec y dh) as [Ly|Ly]; cbn [andb]; auto.
    destruct (Hpix x y Lx Ly) as (k & cw & _ & _ & _ & E4). now rewrite E4.
Qed.

Lemma get_sample_spec d stream b o slot i img lab :
  outputs_for d b o -> slot < b -> i < length stream / 2 -> sample_is d stream i img lab -> ds_label_maps d <= length (ds_class_weights d) ->
  exists o', get_sample position error_function mul d stream o slot i = Ok (o', true) /\ outputs_for d b o' /\
    slot_shows (o_data o) (o_data o') slot (width img) (height img) (fun x y m => at_pos img x y m 0) /\
    slot_shows (o_label o) (o_label o') slot (width img) (height img) (fun x y m => at_pos lab x y m 0) /\
    slot_shows (o_helper o) (o_helper o') slot (width img) (height img)
      (fun x y m => Some (if m =? 0 then position x (width img) else position y (height img))) /\
    slot_shows (o_weight o) (o_weight o') slot (width img) (height img) (fun x y m => weight_at d lab (width img) (height img) x y).
Proof.
  intros (Od & Ol & Oh & Ow) Hslot Hi (Ei & El & Wi & Wl & Si & Sl & Mi & Ml & Ewl & Ehl & Fw & Fh) Hcw.
  unfold image in Ei. unfold label in El.
  unfold get_sample. replace (i <? length stream / 2) with true by (symmetry; apply Nat.ltb_lt; auto).
  unfold float_copy_sample. rewrite Ei, El.
  pose proof Od as (Wd & D1 & D2 & D3 & D4). pose proof Ol as (Wo & L1 & L2 & L3 & L4).
  destruct (copy_sample_spec f32_zero img 0 (o_data o) slot Wi Wd) as (d' & E1 & Wd' & Sd' & _ & Hd'); [now apply wf_maps_pos|].
  destruct (copy_sample_spec f32_zero lab 0 (o_label o) slot Wl Wo) as (l' & E2 & Wl' & Sl' & _ & Hl'); [now apply wf_maps_pos|].
  assert (P1 : copy_sample_possible img 0 (o_data o) slot = true) by (unfold copy_sample_possible; lia).
  assert (P2 : copy_sample_possible lab 0 (o_label o) slot = true) by (unfold copy_sample_possible; lia).
  rewrite E1. cbn [bind]. rewrite E2. cbn [bind]. rewrite P1, P2. specialize (Hd' P1). specialize (Hl' P2).
  unfold stream_width, stream_height. rewrite Ei.
  destruct (helper_spec d b (o_helper o) slot (width img) (height img) Oh Hslot Fw Fh) as (h' & E3 & Hh'). rewrite E3. cbn [bind].
  assert (Ol' : shape_is l' b (ds_width d) (ds_height d) (maps lab)).
  { destruct Sl' as (?&?&?&?). split; [exact Wl'|]. lia. }
  destruct (weight_spec d b lab l' (o_weight o) slot (width img) (height img)) as (c & w' & E4 & E5 & Hw'); auto; try lia.
  { intros x y m Hx Hy Hm. rewrite Hl' by (repeat split; lia). rewrite Nat.eqb_refl, Ewl, Ehl.
    replace (x <? width img) with true by lia. replace (y <? height img) with true by lia. reflexivity. }
  rewrite E4. cbn [bind]. rewrite E5. cbn [bind andb].
  eexists. split; [reflexivity|]. cbn [o_data o_label o_helper o_weight]. unfold outputs_for. cbn [o_data o_label o_helper o_weight].
  split; [|split; [|split; [|split]]].
  - destruct Sd' as (?&?&?&?). destruct Hh' as (Wh & (?&?&?&?) & _). destruct Hw' as (Ww & (?&?&?&?) & _).
    destruct Oh as (?&?&?&?&?). destruct Ow as (?&?&?&?&?). rewrite <- Ml.
    split; [split; [exact Wd'|lia]|]. split; [exact Ol'|]. split; [split; [exact Wh|lia]|split; [exact Ww|lia]].
  - split; [exact Wd'|]. split; [exact Sd'|]. exact Hd'.
  - split; [exact Wl'|]. split; [exact Sl'|]. rewrite Ewl, Ehl in Hl'. exact Hl'.
  - exact Hh'.
  - exact Hw'.
Qed.
End Sample.

(** Proofs about the layers that move data. *)
From Verif Require Import Base BaseFacts LoopFacts Tensor_Model Tensor_Spec Tensor_Proofs Num Math_Model Math_Spec Math_Proofs Conv_Proofs
  Layers_Model DatasetInput_Proofs.

Lemma in_for_one {A} n (f : nat -> A) c : In c (for_ n (fun i => [f i])) <-> exists i, i < n /\ c = f i.
Proof.
  rewrite in_for. split; intros (i & Hi & H); exists i; (split; [exact Hi|]); [destruct H as [<-|[]]; reflexivity|left; symmetry; exact H].
Qed.

Section LayersProofs.
Context {D : Type}.
Variable K : num D.
Implicit Types t a b : tensor D.

Definition covers (calls : list (copy_call (D := D))) (m s : nat) : bool :=
  existsb (fun c => let '(_, _, _, ts, tm) := c in (s =? ts) && (m =? tm)) calls.

Lemma covers_in calls m s : covers calls m s = true <-> exists source ss sm, In (source, ss, sm, s, m) calls.
Proof.
  unfold covers. rewrite existsb_exists. split.
  - intros ([[[[so a] b] c] d] & Hin & H). apply andb_true_iff in H as [H1 H2]. apply Nat.eqb_eq in H1, H2. subst. eauto.
  - intros (so & a & b & Hin). exists (so, a, b, s, m). split; [exact Hin|]. now rewrite !Nat.eqb_refl.
Qed.

(** The calls write the maps listed, each with the values of [F]. *)
Lemma copy_maps_spec (F : nat -> nat -> nat -> nat -> D) (calls : list (copy_call (D := D))) : forall target,
  wf target ->
  (forall source ss sm ts tm, In (source, ss, sm, ts, tm) calls ->
     wf source /\ ss < samples source /\ sm < maps source /\ ts < samples target /\ tm < maps target /\
     width source = width target /\ height source = height target /\
     forall x y, x < width target -> y < height target -> at_pos source x y sm ss = Some (F x y tm ts)) ->
  exists t', copy_maps K calls target = Ok t' /\ wf t' /\ same_shape t' target /\
    forall x y m s, valid_pos target x y m s ->
      at_pos t' x y m s = if covers calls m s then Some (F x y m s) else at_pos target x y m s.
Proof.
  induction calls as [|[[[[source ss] sm] ts] tm] calls IH]; intros target Hwf Hin.
  - exists target. split; [reflexivity|]. split; [exact Hwf|]. split; [apply same_shape_refl|]. intros x y m s Hv. reflexivity.
  - destruct (Hin source ss sm ts tm) as (W & H1 & H2 & H3 & H4 & H5 & H6 & HF); [now left|].
    destruct (copy_map_spec (n0 K) source ss sm target ts tm W Hwf) as (t1 & E1 & W1 & S1 & A1); auto.
    { unfold copy_ok. lia. }
    destruct (IH t1 W1) as (t' & E' & W' & S' & A').
    { intros so a b c d Ho. destruct (Hin so a b c d) as (G0 & G1 & G2 & G3 & G4 & G5 & G6 & GF); [now right|].
      destruct S1 as (P1 & P2 & P3 & P4). rewrite P1, P2, P3, P4. auto 10. }
    exists t'. unfold copy_maps in *. cbn [foldm]. rewrite E1. cbn [bind fst].
    split; [exact E'|]. split; [exact W'|]. split; [eapply same_shape_trans; eauto|].
    intros x y m s Hv. pose proof Hv as Hv1. apply (same_shape_valid _ _ _ _ _ _ S1) in Hv1. rewrite (A' x y m s Hv1).
    unfold covers. cbn [existsb]. fold (covers calls m s). destruct (covers calls m s); [now rewrite orb_true_r|]. rewrite orb_false_r.
    rewrite (A1 x y m s Hv). destruct (Nat.eqb_spec s ts) as [->|]; [|reflexivity]. destruct (Nat.eqb_spec m tm) as [->|]; [|reflexivity].
    cbn [andb]. destruct Hv as (Hx & Hy & _). rewrite H5, H6.
    rewrite (proj2 (Nat.ltb_lt _ _) Hx), (proj2 (Nat.ltb_lt _ _) Hy). apply HF; assumption.
Qed.

(** All maps covered: the contents are [F]. *)
Lemma copy_maps_all (F : nat -> nat -> nat -> nat -> D) calls target :
  wf target ->
  (forall source ss sm ts tm, In (source, ss, sm, ts, tm) calls ->
     wf source /\ ss < samples source /\ sm < maps source /\ ts < samples target /\ tm < maps target /\
     width source = width target /\ height source = height target /\
     forall x y, x < width target -> y < height target -> at_pos source x y sm ss = Some (F x y tm ts)) ->
  (forall s m, s < samples target -> m < maps target -> 0 < height target -> exists source ss sm, In (source, ss, sm, s, m) calls) ->
  exists t', copy_maps K calls target = Ok t' /\ wf t' /\ same_shape t' target /\ contents t' F.
Proof.
  intros Hwf Hin Hcov. destruct (copy_maps_spec F calls target Hwf Hin) as (t' & E & W & S & A).
  exists t'. split; [exact E|]. split; [exact W|]. split; [exact S|]. intros x y m s Hv.
  apply (same_shape_valid _ _ _ _ _ _ S) in Hv. rewrite (A x y m s Hv).
  destruct Hv as (Hx & Hy & Hm & Hs). rewrite (proj2 (covers_in calls m s)); [reflexivity|]. apply Hcov; auto. lia.
Qed.

(** ** Concatenation *)
Lemma concat_ff_correct a b output fa fb ss w h ma mb :
  wf a -> wf b -> wf output -> has_shape a ss w h ma -> has_shape b ss w h mb -> has_shape output ss w h (ma + mb) ->
  contents a fa -> contents b fb ->
  exists output', concat_ff K a b output = Ok output' /\ wf output' /\ same_shape output' output /\
    contents output' (fun x y m s => if m <? ma then fa x y m s else fb x y (m - ma) s).
Proof.
  intros Wa Wb Wo (A1 & A2 & A3 & A4) (B1 & B2 & B3 & B4) (O1 & O2 & O3 & O4) Ca Cb.
  unfold concat_ff. apply copy_maps_all; [exact Wo| |].
  - intros so s0 m0 ts tm Hin. apply in_for in Hin as (s & Hs & Hin). unfold concat_ff_sample in Hin.
    apply in_app_or in Hin as [Hin|Hin]; apply in_for_one in Hin as (m & Hm & E); injection E as -> -> -> -> ->.
    + repeat match goal with |- _ /\ _ => split end; try lia; [exact Wa|]. intros x y Hx Hy.
      rewrite (proj2 (Nat.ltb_lt _ _)) by lia. apply Ca. repeat split; lia.
    + repeat match goal with |- _ /\ _ => split end; try lia; [exact Wb|]. intros x y Hx Hy.
      rewrite (proj2 (Nat.ltb_ge _ _)) by lia. replace (maps a + m - ma) with m by lia. apply Cb. repeat split; lia.
  - intros s m Hs Hm _. destruct (Nat.lt_ge_cases m ma) as [Hlt|Hge].
    + exists a, s, m. apply in_for. exists s. split; [lia|]. apply in_or_app. left. apply in_for_one. exists m. split; [lia|reflexivity].
    + exists b, s, (m - ma). apply in_for. exists s. split; [lia|]. apply in_or_app. right. apply in_for_one.
      exists (m - ma). split; [lia|]. repeat f_equal. lia.
Qed.

Lemma concat_bp_correct output_delta a_delta b_delta g ss w h ma mb :
  wf a_delta -> wf b_delta -> wf output_delta -> has_shape a_delta ss w h ma -> has_shape b_delta ss w h mb ->
  has_shape output_delta ss w h (ma + mb) -> contents output_delta g ->
  exists a' b', concat_bp K output_delta a_delta b_delta = Ok (a', b') /\
    wf a' /\ same_shape a' a_delta /\ contents a' g /\
    wf b' /\ same_shape b' b_delta /\ contents b' (fun x y m s => g x y (ma + m) s).
Proof.
  intros Wa Wb Wo (A1 & A2 & A3 & A4) (B1 & B2 & B3 & B4) (O1 & O2 & O3 & O4) Co.
  destruct (copy_maps_all g (for_ (samples a_delta) (concat_bp_a output_delta (maps a_delta))) a_delta Wa) as (a' & Ea & Wa' & Sa & Ca).
  { intros so s0 m0 ts tm Hin. apply in_for in Hin as (s & Hs & Hin). unfold concat_bp_a in Hin.
    apply in_for_one in Hin as (m & Hm & E); injection E as -> -> -> -> ->.
    repeat match goal with |- _ /\ _ => split end; try lia; [exact Wo|]. intros x y Hx Hy. apply Co. repeat split; lia. }
  { intros s m Hs Hm _. exists output_delta, s, m. apply in_for. exists s. split; [lia|]. apply in_for_one. eauto. }
  destruct (copy_maps_all (fun x y m s => g x y (ma + m) s)
              (for_ (samples a_delta) (concat_bp_b output_delta (maps a_delta) (maps b_delta))) b_delta Wb) as (b' & Eb & Wb' & Sb & Cb).
  { intros so s0 m0 ts tm Hin. apply in_for in Hin as (s & Hs & Hin). unfold concat_bp_b in Hin.
    apply in_for_one in Hin as (m & Hm & E); injection E as -> -> -> -> ->.
    repeat match goal with |- _ /\ _ => split end; try lia; [exact Wo|]. intros x y Hx Hy. rewrite A4. apply Co. repeat split; lia. }
  { intros s m Hs Hm _. exists output_delta, s, (maps a_delta + m). apply in_for. exists s. split; [lia|]. apply in_for_one. eauto. }
  exists a', b'. unfold concat_bp. rewrite Ea. cbn [bind]. rewrite Eb. cbn [bind]. auto 10.
Qed.

(** ** Sum *)
Lemma raw_buffer t i v : raw t i = Some v -> exists l, buffer t = Ok l /\ load l i = Ok v.
Proof. unfold raw, buffer, load. destruct (data t) as [l|]; [|discriminate]. intros H. exists l. rewrite H. auto. Qed.

Lemma sum_ff_correct a b output fa fb ss w h mm :
  wf a -> wf b -> wf output -> has_shape a ss w h mm -> has_shape b ss w h mm -> has_shape output ss w h mm ->
  contents a fa -> contents b fb ->
  exists output', sum_ff K a b output = Ok output' /\ wf output' /\ same_shape output' output /\
    contents output' (fun x y m s => nadd K (fa x y m s) (fb x y m s)).
Proof.
  intros Wa Wb Wo (A1 & A2 & A3 & A4) (B1 & B2 & B3 & B4) (O1 & O2 & O3 & O4) Ca Cb.
  assert (Ea : elements a = ss * mm * h * w) by (rewrite (proj1 Wa), A1, A2, A3, A4; reflexivity).
  assert (Eb : elements b = ss * mm * h * w) by (rewrite (proj1 Wb), B1, B2, B3, B4; reflexivity).
  assert (Eo : elements output = ss * mm * h * w) by (rewrite (proj1 Wo), O1, O2, O3, O4; reflexivity).
  unfold sum_ff, add_tensors. rewrite A1, B1, O1, Ea, Eb, Eo, !Nat.eqb_refl. cbn [negb orb].
  assert (Hval : forall x y m s, valid_pos output x y m s ->
            add_elt K a b (offset output x y m s) = [(offset output x y m s, Ok (nadd K (fa x y m s) (fb x y m s)))]).
  { intros x y m s Hv. destruct Hv as (Hx & Hy & Hm & Hs). unfold add_elt.
    assert (Va : valid_pos a x y m s) by (repeat split; lia). assert (Vb : valid_pos b x y m s) by (repeat split; lia).
    assert (Oa : offset a x y m s = offset output x y m s) by (unfold offset; now rewrite A2, A3, A4, O2, O3, O4).
    assert (Ob : offset b x y m s = offset output x y m s) by (unfold offset; now rewrite B2, B3, B4, O2, O3, O4).
    pose proof (Ca _ _ _ _ Va) as Ra. pose proof (Cb _ _ _ _ Vb) as Rb.
    rewrite at_pos_raw in Ra, Rb by assumption. rewrite Oa in Ra. rewrite Ob in Rb.
    destruct (raw_buffer _ _ _ Ra) as (la & -> & La). destruct (raw_buffer _ _ _ Rb) as (lb & -> & Lb).
    cbn [bind]. rewrite La. cbn [bind]. rewrite Lb. reflexivity. }
  apply run_stores_fill; [exact Wo| |].
  - intros e rv Hin. apply in_for in Hin as (i & Hi & Hin).
    assert (Hb : i < samples output * maps output * height output * width output) by now rewrite O1, O2, O3, O4.
    destruct (offset_surj _ _ Hb) as (x & y & m & s & Hv & <-). rewrite (Hval _ _ _ _ Hv) in Hin.
    destruct Hin as [[= <- <-]|[]]. exists x, y, m, s. auto.
  - intros x y m s Hv. apply in_for. exists (offset output x y m s). rewrite (Hval _ _ _ _ Hv). split; [|now left].
    rewrite <- O1, <- O2, <- O3, <- O4. now apply offset_lt.
Qed.

Lemma sum_bp_to_correct output_delta target g ss w h mm :
  wf output_delta -> wf target -> has_shape output_delta ss w h mm -> has_shape target ss w h mm -> contents output_delta g ->
  exists t', sum_bp_to K ss output_delta target = Ok t' /\ wf t' /\ same_shape t' target /\ contents t' g.
Proof.
  intros Wo Wt (O1 & O2 & O3 & O4) (T1 & T2 & T3 & T4) Co. unfold sum_bp_to.
  destruct (foldm_seq_inv (fun t s => r <- copy_sample (n0 K) output_delta s t s ;; Ok (fst r))
              (fun n t => wf t /\ same_shape t target /\ forall x y m s, valid_pos target x y m s -> s < n -> at_pos t x y m s = Some (g x y m s))
              ss 0 target) as (t' & E & W & S & A).
  - split; [exact Wt|]. split; [apply same_shape_refl|]. intros. lia.
  - intros s t Hs (W & S & A). destruct mm as [|mm'].
    + exists t. pose proof S as (S1 & S2 & S3 & S4). unfold copy_sample. rewrite O4, S4, T4. cbn [Nat.eqb].
      replace (negb (width output_delta =? width t) || negb (height output_delta =? height t)) with false
        by (rewrite S2, S3, O2, O3, T2, T3, !Nat.eqb_refl; reflexivity).
      cbn. split; [reflexivity|]. split; [exact W|]. split; [exact S|]. intros x y m s0 (_ & _ & Hm & _). lia.
    + destruct (copy_sample_spec (n0 K) output_delta s t s Wo W) as (t1 & E1 & W1 & S1 & _ & A1); [lia|].
      exists t1. rewrite E1. split; [reflexivity|]. split; [exact W1|]. split; [eapply same_shape_trans; eauto|].
      intros x y m s0 Hv Hs0. pose proof S as (P1 & P2 & P3 & P4).
      rewrite A1; [| |now apply (same_shape_valid _ _ _ _ _ _ S)].
      * destruct (Nat.eqb_spec s0 s) as [->|Hne]; [|apply A; auto; lia]. destruct Hv as (Hx & Hy & Hm & Hs').
        rewrite (proj2 (Nat.ltb_lt _ _)), (proj2 (Nat.ltb_lt _ _)) by lia. apply Co. repeat split; lia.
      * unfold copy_sample_possible. rewrite P1, P2, P3, P4, O1, O2, O3, O4, T1, T2, T3, T4, Nat.eqb_refl, !Nat.leb_refl.
        cbn [andb]. rewrite (proj2 (Nat.ltb_lt s ss)) by lia. reflexivity.
  - exists t'. split; [exact E|]. split; [exact W|]. split; [exact S|]. intros x y m s Hv.
    apply (same_shape_valid _ _ _ _ _ _ S) in Hv. apply A; [exact Hv|]. destruct Hv as (_ & _ & _ & Hs). lia.
Qed.

Lemma sum_bp_correct output_delta a_delta b_delta g ss w h mm :
  wf output_delta -> wf a_delta -> wf b_delta ->
  has_shape output_delta ss w h mm -> has_shape a_delta ss w h mm -> has_shape b_delta ss w h mm -> contents output_delta g ->
  exists a' b', sum_bp K output_delta a_delta b_delta = Ok (a', b') /\
    wf a' /\ same_shape a' a_delta /\ contents a' g /\ wf b' /\ same_shape b' b_delta /\ contents b' g.
Proof.
  intros Wo Wa Wb So Sa Sb Co.
  destruct (sum_bp_to_correct output_delta a_delta g ss w h mm) as (a' & Ea & Wa' & Sa' & Ca); auto.
  destruct (sum_bp_to_correct output_delta b_delta g ss w h mm) as (b' & Eb & Wb' & Sb' & Cb); auto.
  exists a', b'. unfold sum_bp. rewrite (proj1 Sa), Ea. cbn [bind]. rewrite Eb. cbn [bind]. auto 10.
Qed.

(** ** Borders *)
Lemma resize_ff_correct bx by_ input output f ss w h mm :
  wf input -> wf output -> has_shape input ss w h mm -> has_shape output ss (w + bx) (h + by_) mm -> contents input f ->
  exists output', resize_ff K bx by_ input output = Ok output' /\ wf output' /\ same_shape output' output /\
    contents output' (fun x y m s => if (bx / 2 <=? x) && (x <? bx / 2 + w) && (by_ / 2 <=? y) && (y <? by_ / 2 + h)
                                     then f (x - bx / 2) (y - by_ / 2) m s else n0 K).
Proof.
  intros Wi Wo (I1 & I2 & I3 & I4) (O1 & O2 & O3 & O4) Ci. unfold resize_ff.
  destruct (clear_all_spec output (n0 K) Wo) as (c & Ec & Wc & Sc & Ac). rewrite Ec. cbn [bind].
  pose proof Sc as (C1 & C2 & C3 & C4).
  assert (Hx2 : bx / 2 <= bx) by (apply Nat.div_le_upper_bound; lia).
  assert (Hy2 : by_ / 2 <= by_) by (apply Nat.div_le_upper_bound; lia).
  unfold resize_ff_sample. set (p := bx / 2) in *. set (q := by_ / 2) in *. clearbody p q.
  assert (Hval : forall x y m s, x < w -> y < h -> m < mm -> s < ss ->
            (l <- buffer input ;; load l (offset input 0 y m s + x)) = Ok (f x y m s)).
  { intros x y m s Hx Hy Hm Hs. assert (V : valid_pos input x y m s) by (repeat split; lia).
    pose proof (Ci _ _ _ _ V) as R. rewrite at_pos_raw in R by exact V.
    replace (offset input x y m s) with (offset input 0 y m s + x) in R by (unfold offset; lia).
    destruct (raw_buffer _ _ _ R) as (l & -> & L). exact L. }
  destruct (run_stores_frame c (for_ (samples input) (fun sample => for_ (maps input) (fun map => for_ (height input) (fun y => for_ (width input) (fun x =>
              [(offset c p (y + q) map sample + x, l <- buffer input ;; load l (offset input 0 y map sample + x))])))))
              (fun x y m s => if (p <=? x) && (x <? p + w) && (q <=? y) && (y <? q + h) then Some (f (x - p) (y - q) m s) else None))
    as (t' & E & W & S & A).
  - exact Wc.
  - intros e rv Hin. apply in_for in Hin as (s & Hs & Hin). apply in_for in Hin as (m & Hm & Hin).
    apply in_for in Hin as (y & Hy & Hin). apply in_for_one in Hin as (x & Hx & E). injection E as -> ->.
    rewrite I1 in Hs. rewrite I4 in Hm. rewrite I3 in Hy. rewrite I2 in Hx.
    exists (p + x), (q + y), m, s, (f x y m s). split; [repeat split; lia|].
    split; [unfold offset; lia|]. split; [now apply Hval|].
    rewrite (proj2 (Nat.leb_le p (p + x))), (proj2 (Nat.ltb_lt (p + x) (p + w))), (proj2 (Nat.leb_le q (q + y))), (proj2 (Nat.ltb_lt (q + y) (q + h))) by lia.
    cbn [andb]. f_equal. f_equal; lia.
  - intros x y m s v (Hx & Hy & Hm & Hs). destruct (Nat.leb_spec p x) as [H1|]; [|discriminate]. destruct (Nat.ltb_spec x (p + w)) as [H2|]; [|discriminate].
    destruct (Nat.leb_spec q y) as [H3|]; [|discriminate]. destruct (Nat.ltb_spec y (q + h)) as [H4|]; [|discriminate]. cbn [andb]. intros [= <-].
    apply in_for. exists s. split; [lia|]. apply in_for. exists m. split; [lia|]. apply in_for. exists (y - q). split; [lia|].
    apply in_for_one. exists (x - p). split; [lia|]. symmetry. f_equal; [replace (y - q + q) with y by lia; unfold offset; lia|]. apply Hval; lia.
  - exists t'. split; [exact E|]. split; [exact W|]. split; [eapply same_shape_trans; eauto|].
    intros x y m s Hv. apply (same_shape_valid _ _ _ _ _ _ S) in Hv. rewrite (A x y m s Hv).
    destruct ((p <=? x) && (x <? p + w) && (q <=? y) && (y <? q + h)); [reflexivity|].
    apply Ac. now apply (same_shape_valid _ _ _ _ _ _ Sc).
Qed.

Lemma resize_bp_correct bx by_ output_delta input_delta g ss w h mm :
  wf input_delta -> wf output_delta -> has_shape input_delta ss w h mm -> has_shape output_delta ss (w + bx) (h + by_) mm ->
  contents output_delta g ->
  exists input', resize_bp K true bx by_ output_delta input_delta = Ok input' /\ wf input' /\ same_shape input' input_delta /\
    contents input' (fun x y m s => g (x + bx / 2) (y + by_ / 2) m s).
Proof.
  intros Wi Wo (I1 & I2 & I3 & I4) (O1 & O2 & O3 & O4) Co. unfold resize_bp.
  destruct (clear_all_spec input_delta (n0 K) Wi) as (c & Ec & Wc & Sc & Ac). rewrite Ec. cbn [bind].
  pose proof Sc as (C1 & C2 & C3 & C4).
  assert (Hx2 : bx / 2 <= bx) by (apply Nat.div_le_upper_bound; lia).
  assert (Hy2 : by_ / 2 <= by_) by (apply Nat.div_le_upper_bound; lia).
  unfold resize_bp_sample.
  set (p := bx / 2) in *. set (q := by_ / 2) in *. clearbody p q.
  assert (Hval : forall x y m s, x < w -> y < h -> m < mm -> s < ss ->
            (l <- buffer output_delta ;; load l (offset output_delta p (y + q) m s + x)) = Ok (g (x + p) (y + q) m s)).
  { intros x y m s Hx Hy Hm Hs. assert (V : valid_pos output_delta (x + p) (y + q) m s) by (repeat split; lia).
    pose proof (Co _ _ _ _ V) as R. rewrite at_pos_raw in R by exact V.
    replace (offset output_delta (x + p) (y + q) m s) with (offset output_delta p (y + q) m s + x) in R by (unfold offset; lia).
    destruct (raw_buffer _ _ _ R) as (l & -> & L). exact L. }
  destruct (run_stores_fill c (for_ (samples input_delta) (fun sample => for_ (maps c) (fun map => for_ (height c) (fun y => for_ (width c) (fun x =>
              [(offset c 0 y map sample + x, l <- buffer output_delta ;; load l (offset output_delta p (y + q) map sample + x))])))))
              (fun x y m s => g (x + p) (y + q) m s)) as (t' & E & W & S & A).
  - exact Wc.
  - intros e rv Hin. apply in_for in Hin as (s & Hs & Hin). apply in_for in Hin as (m & Hm & Hin).
    apply in_for in Hin as (y & Hy & Hin). apply in_for_one in Hin as (x & Hx & E). injection E as -> ->.
    exists x, y, m, s. split; [repeat split; lia|]. split; [unfold offset; lia|]. apply Hval; lia.
  - intros x y m s (Hx & Hy & Hm & Hs).
    apply in_for. exists s. split; [lia|]. apply in_for. exists m. split; [lia|]. apply in_for. exists y. split; [lia|].
    apply in_for_one. exists x. split; [lia|]. f_equal; [unfold offset; lia|]. symmetry. apply Hval; lia.
  - exists t'. split; [exact E|]. split; [exact W|]. split; [eapply same_shape_trans; eauto|]. exact A.
Qed.

(** ** Spatial prior *)
Lemma prior_ff_correct (ratio : nat -> nat -> D) input output f ss w h mm :
  wf input -> wf output -> has_shape input ss w h mm -> has_shape output ss w h (mm + 2) -> contents input f ->
  exists output', prior_ff K ratio input output = Ok output' /\ wf output' /\ same_shape output' output /\
    contents output' (fun x y m s => if m =? 0 then ratio x w else if m =? 1 then ratio y h else f x y (m - 2) s).
Proof.
  intros Wi Wo (I1 & I2 & I3 & I4) (O1 & O2 & O3 & O4) Ci. unfold prior_ff.
  destruct (clear_all_spec output (n1 K) Wo) as (c & Ec & Wc & Sc & _). rewrite Ec. cbn [bind].
  set (F := fun x y m s => if m =? 0 then ratio x w else if m =? 1 then ratio y h else f x y (m - 2) s).
  destruct (foldm_seq_inv (fun t sample => t1 <- copy_maps K (prior_copies input sample) t ;; run_stores t1 (prior_coordinates ratio input t1 sample))
              (fun n t => wf t /\ same_shape t output /\ forall x y m s, valid_pos output x y m s -> s < n -> at_pos t x y m s = Some (F x y m s))
              (samples input) 0 c) as (t' & E & W & S & A).
  - split; [exact Wc|]. split; [exact Sc|]. intros. lia.
  - intros s t Hs (W & S & A). pose proof S as (S1 & S2 & S3 & S4).
    destruct (copy_maps_spec (fun x y m s => f x y (m - 2) s) (prior_copies input s) t W) as (t1 & E1 & W1 & T1 & A1).
    { intros so s0 m0 ts tm Hin. apply in_for_from in Hin as (m & Hm & Hin). apply in_for_one in Hin as (y & Hy & E). injection E as -> -> -> -> ->.
      repeat match goal with |- _ /\ _ => split end; try lia; [exact Wi|]. intros x y0 Hx Hy0. apply Ci. repeat split; lia. }
    rewrite E1. cbn [bind]. pose proof T1 as (P1 & P2 & P3 & P4).
    destruct (run_stores_frame t1 (prior_coordinates ratio input t1 s)
                (fun x y m s0 => if (s0 =? s) && (m =? 0) then Some (ratio x w) else if (s0 =? s) && (m =? 1) then Some (ratio y h) else None)) as (t2 & E2 & W2 & T2 & A2).
    + exact W1.
    + intros e rv Hin. apply in_for in Hin as (y & Hy & Hin). apply in_for in Hin as (x & Hx & Hin).
      destruct Hin as [[= <- <-]|[[= <- <-]|[]]].
      * exists x, y, 0, s, (ratio x (width input)). rewrite Nat.eqb_refl, I2. cbn [Nat.eqb andb]. split; [repeat split; lia|]. auto.
      * exists x, y, 1, s, (ratio y (height input)). rewrite Nat.eqb_refl, I3. cbn [Nat.eqb andb]. split; [repeat split; lia|]. auto.
    + intros x y m s0 v (Hx & Hy & Hm & Hs0) Hv. apply in_for. exists y. split; [lia|]. apply in_for. exists x. split; [lia|].
      destruct (Nat.eqb_spec s0 s) as [->|]; [|discriminate]. cbn [andb] in Hv.
      destruct (Nat.eqb_spec m 0) as [->|]; [injection Hv as <-; rewrite I2; now left|].
      destruct (Nat.eqb_spec m 1) as [->|]; [injection Hv as <-; rewrite I3; right; now left|discriminate].
    + exists t2. split; [exact E2|]. split; [exact W2|].
      split; [eapply same_shape_trans; [exact T2|]; eapply same_shape_trans; [exact T1|exact S]|].
      intros x y m s0 Hv Hs0. assert (Vt : valid_pos t x y m s0) by now apply (same_shape_valid _ _ _ _ _ _ S).
      rewrite A2 by now apply (same_shape_valid _ _ _ _ _ _ T1). rewrite A1 by exact Vt. destruct Hv as (Hx & Hy & Hm & Hs').
      destruct (Nat.eqb_spec s0 s) as [->|Hne]; cbn [andb].
      * unfold F. destruct (Nat.eqb_spec m 0) as [->|]; [reflexivity|]. destruct (Nat.eqb_spec m 1) as [->|]; [reflexivity|].
        rewrite (proj2 (covers_in _ _ _)); [reflexivity|]. exists input, s, (m - 2). apply in_for_from. exists m. split; [lia|].
        apply in_for_one. exists 0. split; [lia|reflexivity].
      * replace (covers (prior_copies input s) m s0) with false; [apply A; [repeat split; lia|lia]|].
        symmetry. apply not_true_is_false. intros H. apply covers_in in H as (so & a & b & Hin).
        apply in_for_from in Hin as (m1 & Hm1 & Hin). apply in_for_one in Hin as (y1 & Hy1 & E). injection E as _ _ _ E _. lia.
  - exists t'. split; [exact E|]. split; [exact W|]. split; [exact S|]. intros x y m s Hv.
    apply (same_shape_valid _ _ _ _ _ _ S) in Hv. apply A; [exact Hv|]. destruct Hv as (_ & _ & _ & Hs). lia.
Qed.

Lemma prior_bp_correct output_delta input_delta g ss w h mm :
  wf input_delta -> wf output_delta -> has_shape input_delta ss w h mm -> has_shape output_delta ss w h (mm + 2) -> contents output_delta g ->
  exists input', prior_bp K output_delta input_delta = Ok input' /\ wf input' /\ same_shape input' input_delta /\
    contents input' (fun x y m s => g x y (m + 2) s).
Proof.
  intros Wi Wo (I1 & I2 & I3 & I4) (O1 & O2 & O3 & O4) Co. unfold prior_bp. apply copy_maps_all; [exact Wi| |].
  - intros so s0 m0 ts tm Hin. apply in_for in Hin as (s & Hs & Hin). unfold prior_bp_sample in Hin.
    apply in_for_from in Hin as (m & Hm & Hin). apply in_for_one in Hin as (y & Hy & E). injection E as -> -> -> -> ->.
    repeat match goal with |- _ /\ _ => split end; try lia; [exact Wo|]. intros x y0 Hx Hy0. replace (m - 2 + 2) with m by lia. apply Co. repeat split; lia.
  - intros s m Hs Hm Hh. exists output_delta, s, (m + 2). apply in_for. exists s. split; [lia|]. unfold prior_bp_sample.
    apply in_for_from. exists (m + 2). split; [lia|]. apply in_for_one. exists 0. split; [lia|]. repeat f_equal. lia.
Qed.
End LayersProofs.

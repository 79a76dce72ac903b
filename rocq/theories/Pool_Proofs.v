(** Proofs about the pooling layers. *)
From Verif Require Import Base BaseFacts LoopFacts Float32 FloatOps FloatInt_Proofs Tensor_Model Tensor_Spec Tensor_Proofs Num Math_Model
  Math_Spec Math_Proofs Conv_Proofs Pool_Model Pool_Spec.

Lemma for_from_shift {A} a n (f : nat -> list A) : for_from a (a + n) f = for_ n (fun i => f (a + i)).
Proof.
  unfold for_from, range, for_. replace (a + n - a) with n by lia.
  replace (seq a n) with (map (fun i => a + i) (seq 0 n)).
  - rewrite flat_map_concat_map, map_map, <- flat_map_concat_map. reflexivity.
  - clear f. revert a. induction n as [|n IH]; intros a; [reflexivity|]. cbn [seq map]. rewrite Nat.add_0_r. f_equal.
    rewrite <- (IH (S a)), <- seq_shift, map_map. apply map_ext. intros. lia.
Qed.

Lemma region_cells_columns rw rh ox oy : region_cells rw rh ox oy = columns (ox * rw) (oy * rh) rw rh.
Proof.
  unfold region_cells, columns. replace ((ox + 1) * rw) with (ox * rw + rw) by ring. rewrite for_from_shift. unfold for_.
  apply flat_map_ext. intros i. replace ((oy + 1) * rh) with (oy * rh + rh) by ring. rewrite for_from_shift. apply for_map.
Qed.

Lemma window_cells_rows rw rh sw sh ox oy : window_cells rw rh sw sh ox oy = rows (ox * sw) (oy * sh) rw rh.
Proof.
  unfold window_cells, rows. rewrite for_from_shift. unfold for_. apply flat_map_ext. intros j. rewrite for_from_shift. apply for_map.
Qed.

Lemma in_columns x0 y0 w h p : In p (columns x0 y0 w h) <-> x0 <= fst p < x0 + w /\ y0 <= snd p < y0 + h.
Proof.
  unfold columns. rewrite in_flat_map. split.
  - intros (i & Hi & H). apply in_map_iff in H as (j & <- & Hj). apply in_seq in Hi, Hj. cbn. lia.
  - intros [Hx Hy]. exists (fst p - x0). split; [apply in_seq; lia|]. apply in_map_iff. exists (snd p - y0).
    split; [destruct p; cbn in *; f_equal; lia|apply in_seq; lia].
Qed.

Lemma in_rows x0 y0 w h p : In p (rows x0 y0 w h) <-> x0 <= fst p < x0 + w /\ y0 <= snd p < y0 + h.
Proof.
  unfold rows. rewrite in_flat_map. split.
  - intros (j & Hj & H). apply in_map_iff in H as (i & <- & Hi). apply in_seq in Hi, Hj. cbn. lia.
  - intros [Hx Hy]. exists (snd p - y0). split; [apply in_seq; lia|]. apply in_map_iff. exists (fst p - x0).
    split; [destruct p; cbn in *; f_equal; lia|apply in_seq; lia].
Qed.

Lemma f32_order_laws : order_laws f32_order.
Proof. split; [exact fgt_irrefl|exact fgt_trans|exact fgt_not_above]. Qed.

Section Ordered.
Context {D : Type}.
Variables (O : order D) (K : num D).
Hypothesis HO : order_laws O.

Lemma window_max_all input cells m s (val : nat * nat -> D) :
  (forall c, In c cells -> get input (fst c) (snd c) m s = Ok (val c)) ->
  (window_max O input cells m s = Ok (o_lowest O, (0, 0)) /\ forall c, In c cells -> o_gt O (val c) (o_lowest O) = false) \/
  (exists p, window_max O input cells m s = Ok (val p, p) /\ first_max O cells val p).
Proof.
  intros Hv. induction cells as [|c cells IH] using rev_ind.
  - left. split; [reflexivity|]. intros c [].
  - destruct IH as [[E H]|(p & E & b & a & Ec & Hl & Hm & Hf)].
    { intros q Hq. apply Hv, in_app_iff. now left. }
    + assert (Es : window_max O input (cells ++ [c]) m s = Ok (if o_gt O (val c) (o_lowest O) then (val c, c) else (o_lowest O, (0, 0)))).
      { unfold window_max in *. rewrite foldm_app, E. cbn [bind foldm]. rewrite Hv by (apply in_app_iff; right; now left). reflexivity. }
      rewrite Es. destruct (o_gt O (val c) (o_lowest O)) eqn:Ef.
      * right. exists c. split; [reflexivity|]. exists cells, []. split; [reflexivity|]. split; [exact Ef|]. split.
        -- intros q Hq. apply in_app_iff in Hq as [Hq|[<-|[]]]; [|apply (ol_irrefl _ HO)].
           destruct (o_gt O (val q) (val c)) eqn:Eq; [|reflexivity]. rewrite <- (H q Hq). symmetry. eapply (ol_trans _ HO); eauto.
        -- intros q Hq. eapply (ol_below _ HO); [apply H, Hq|exact Ef].
      * left. split; [reflexivity|]. intros q Hq. apply in_app_iff in Hq as [Hq|[<-|[]]]; auto.
    + assert (Es : window_max O input (cells ++ [c]) m s = Ok (if o_gt O (val c) (val p) then (val c, c) else (val p, p))).
      { unfold window_max in *. rewrite foldm_app, E. cbn [bind foldm]. rewrite Hv by (apply in_app_iff; right; now left). reflexivity. }
      rewrite Es. right. destruct (o_gt O (val c) (val p)) eqn:Ef.
      * exists c. split; [reflexivity|]. exists cells, []. split; [reflexivity|]. split; [eapply (ol_trans _ HO); eauto|]. split.
        -- intros q Hq. apply in_app_iff in Hq as [Hq|[<-|[]]]; [|apply (ol_irrefl _ HO)].
           destruct (o_gt O (val q) (val c)) eqn:Eq; [|reflexivity]. rewrite <- (Hm q Hq). symmetry. eapply (ol_trans _ HO); eauto.
        -- intros q Hq. eapply (ol_below _ HO); [apply Hm, Hq|exact Ef].
      * exists p. split; [reflexivity|]. exists b, (a ++ [c]). split; [rewrite Ec, <- app_assoc; reflexivity|].
        split; [exact Hl|]. split; [|exact Hf]. intros q Hq. apply in_app_iff in Hq as [Hq|[<-|[]]]; auto.
Qed.

Lemma window_max_found input cells m s (val : nat * nat -> D) :
  (forall c, In c cells -> get input (fst c) (snd c) m s = Ok (val c)) ->
  (exists c, In c cells /\ o_gt O (val c) (o_lowest O) = true) ->
  exists p, window_max O input cells m s = Ok (val p, p) /\ first_max O cells val p.
Proof.
  intros Hv (c & Hc & Hg). destruct (window_max_all input cells m s val Hv) as [[_ H]|H]; [|exact H].
  rewrite H in Hg by exact Hc. discriminate.
Qed.

Lemma first_max_in cells val p : first_max O cells val p -> In p cells.
Proof. intros (b & a & -> & _). apply in_app_iff. right. now left. Qed.

(** A finite choice: a function of positions from existence at every position. *)
Lemma choose_positions {A} (d : A) (P : nat -> nat -> nat -> nat -> A -> Prop) w h mm ss :
  (forall x y m s, x < w -> y < h -> m < mm -> s < ss -> exists a, P x y m s a) ->
  exists f, forall x y m s, x < w -> y < h -> m < mm -> s < ss -> P x y m s (f x y m s).
Proof.
  intros H.
  assert (H1 : forall (Q : nat -> A -> Prop) n, (forall i, i < n -> exists a, Q i a) -> exists f, forall i, i < n -> Q i (f i)).
  { intros Q n. induction n as [|n IH]; intros HQ; [exists (fun _ => d); intros; lia|].
    destruct IH as [f Hf]; [intros; apply HQ; lia|]. destruct (HQ n) as [a Ha]; [lia|].
    exists (fun i => if i =? n then a else f i). intros i Hi. destruct (Nat.eqb_spec i n) as [->|]; [exact Ha|]. apply Hf. lia. }
  destruct (H1 (fun k a => P (k mod w) ((k / w) mod h) ((k / (w * h)) mod mm) (k / (w * h * mm)) a) (w * h * mm * ss)) as [f Hf].
  { intros k Hk. assert (w <> 0) by (intros ->; lia). assert (h <> 0) by (intros ->; lia). assert (mm <> 0) by (intros ->; lia).
    apply H; try (now apply Nat.mod_upper_bound). apply Nat.div_lt_upper_bound; [|exact Hk]. intros E.
    apply Nat.eq_mul_0 in E as [E|E]; [apply Nat.eq_mul_0 in E as [E|E]|]; contradiction. }
  exists (fun x y m s => f (((s * mm + m) * h + y) * w + x)). intros x y m s Hx Hy Hm Hs.
  set (k := ((s * mm + m) * h + y) * w + x).
  assert (E1 : k mod w = x) by (unfold k; rewrite Nat.add_comm, Nat.mod_add by lia; now apply Nat.mod_small).
  assert (E2 : k / w = (s * mm + m) * h + y) by (unfold k; rewrite Nat.div_add_l, (Nat.div_small x w) by lia; lia).
  assert (E3 : k / (w * h) = s * mm + m) by (rewrite <- Nat.div_div, E2, Nat.div_add_l, (Nat.div_small y h) by lia; lia).
  assert (E4 : k / (w * h * mm) = s).
  { rewrite <- Nat.div_div; [|intros E; apply Nat.eq_mul_0 in E as [E|E]; lia|lia]. rewrite E3, Nat.div_add_l, (Nat.div_small m mm) by lia. lia. }
  assert (Hk : k < w * h * mm * ss).
  { unfold k. replace (w * h * mm * ss) with (((ss * mm) * h) * w) by ring.
    apply (mix_lt ((s * mm + m) * h + y) x (ss * mm * h) w); [|exact Hx].
    apply (mix_lt (s * mm + m) y (ss * mm) h); [|exact Hy]. now apply mix_lt. }
  pose proof (Hf k Hk) as R. rewrite E1, E2, E3, E4 in R.
  rewrite (Nat.add_comm _ y), Nat.mod_add, (Nat.mod_small y h), (Nat.add_comm _ m), Nat.mod_add, (Nat.mod_small m mm) in R by lia. exact R.
Qed.

Lemma f_to_uint_uint n : (Z.of_nat n < 2 ^ 24)%Z -> f_to_uint (uint_to_f n) = Ok n.
Proof.
  intros H. unfold f_to_uint, uint_to_f. rewrite Z.mod_small by lia. destruct (f_of_Z_small (Z.of_nat n)) as [-> _]; [lia|].
  destruct (Z.leb_spec 0 (Z.of_nat n)); [|lia]. destruct (Z.ltb_spec (Z.of_nat n) (2 ^ 32)); [|lia]. cbn [andb]. f_equal. lia.
Qed.

Lemma feq_uint a b : (Z.of_nat a < 2 ^ 24)%Z -> (Z.of_nat b < 2 ^ 24)%Z -> feq (uint_to_f a) (uint_to_f b) = (a =? b).
Proof.
  intros Ha Hb. unfold uint_to_f. rewrite !Z.mod_small by lia. rewrite feq_small by lia.
  destruct (Z.eqb_spec (Z.of_nat a) (Z.of_nat b)), (Nat.eqb_spec a b); auto; lia.
Qed.

(** Stores of [f] at every position, in the order of the pooling loops. *)
Lemma pool_fill {E} (t : tensor E) ss mm ow oh (val : nat -> nat -> nat -> nat -> res E) f :
  wf t -> has_shape t ss ow oh mm ->
  (forall ox oy m s, ox < ow -> oy < oh -> m < mm -> s < ss -> val ox oy m s = Ok (f ox oy m s)) ->
  exists t', run_stores t (for_ ss (fun s => pool_loop mm ow oh (fun m ox oy => [(offset t ox oy m s, val ox oy m s)]))) = Ok t' /\
    wf t' /\ same_shape t' t /\ contents t' f.
Proof.
  intros Hwf (E1 & E2 & E3 & E4) Hv. apply run_stores_fill; [exact Hwf| |].
  - intros a rv Ho. apply in_for in Ho as (s & Hs & Ho). apply in_for in Ho as (m & Hm & Ho).
    apply in_for in Ho as (ox & Hox & Ho). apply in_for in Ho as (oy & Hoy & [Eq|[]]). inversion Eq; subst a rv.
    exists ox, oy, m, s. split; [unfold valid_pos; rewrite E1, E2, E3, E4; auto|]. split; [reflexivity|]. now apply Hv.
  - intros x y m s (Hx & Hy & Hm & Hs). rewrite E1, E2, E3, E4 in *. apply in_for. exists s. split; [exact Hs|].
    apply in_for. exists m. split; [exact Hm|]. apply in_for. exists x. split; [exact Hx|]. apply in_for. exists y. split; [exact Hy|].
    left. now rewrite Hv.
Qed.

(** ** Pooling over disjoint regions *)
Section MaxPool.
Variables (rw rh w h mm ss : nat).
Variables (input output : tensor D) (mix miy : tensor f32) (img : nat -> nat -> nat -> nat -> D).
Hypothesis Hrw : 0 < rw.
Hypothesis Hrh : 0 < rh.
Hypothesis Hinput : wf input /\ has_shape input ss (w * rw) (h * rh) mm /\ contents input img.
Hypothesis Hmix : wf mix /\ has_shape mix ss w h mm.
Hypothesis Hmiy : wf miy /\ has_shape miy ss w h mm.
Hypothesis Houtput : wf output /\ has_shape output ss w h mm.
Hypothesis Habove : forall ox oy m s, ox < w -> oy < h -> m < mm -> s < ss ->
  exists x y, ox * rw <= x < ox * rw + rw /\ oy * rh <= y < oy * rh + rh /\ o_gt O (img x y m s) (o_lowest O) = true.

Lemma pool_ff_spec : exists sel mix' miy' output',
  pool_ff O rw rh input mix miy output = Ok (mix', miy', output') /\
  (wf mix' /\ same_shape mix' mix /\ contents mix' (fun ox oy m s => uint_to_f (fst (sel ox oy m s)))) /\
  (wf miy' /\ same_shape miy' miy /\ contents miy' (fun ox oy m s => uint_to_f (snd (sel ox oy m s)))) /\
  (wf output' /\ same_shape output' output /\ contents output' (fun ox oy m s => img (fst (sel ox oy m s)) (snd (sel ox oy m s)) m s)) /\
  forall ox oy m s, ox < w -> oy < h -> m < mm -> s < ss ->
    first_max O (columns (ox * rw) (oy * rh) rw rh) (fun p => img (fst p) (snd p) m s) (sel ox oy m s).
Proof.
  destruct Hinput as (Wi & Si & Ci). pose proof Si as (I1 & I2 & I3 & I4).
  assert (Hch : exists sel : nat -> nat -> nat -> nat -> nat * nat, forall ox oy m s, ox < w -> oy < h -> m < mm -> s < ss ->
    window_max O input (region_cells rw rh ox oy) m s = Ok (img (fst (sel ox oy m s)) (snd (sel ox oy m s)) m s, sel ox oy m s) /\
    first_max O (columns (ox * rw) (oy * rh) rw rh) (fun p => img (fst p) (snd p) m s) (sel ox oy m s)).
  { apply (choose_positions (0, 0) (fun ox oy m s p =>
      window_max O input (region_cells rw rh ox oy) m s = Ok (img (fst p) (snd p) m s, p) /\
      first_max O (columns (ox * rw) (oy * rh) rw rh) (fun p => img (fst p) (snd p) m s) p)).
    intros ox oy m s Hx Hy Hm Hs. rewrite region_cells_columns.
    apply (window_max_found input _ m s (fun p => img (fst p) (snd p) m s)).
    - intros c Hc. apply in_columns in Hc as [H1 H2]. apply (contents_get _ _ _ _ _ _ Ci). unfold valid_pos. rewrite I1, I2, I3, I4.
      assert ((ox + 1) * rw <= w * rw) by (apply Nat.mul_le_mono_r; lia). assert ((oy + 1) * rh <= h * rh) by (apply Nat.mul_le_mono_r; lia).
      repeat split; lia.
    - destruct (Habove ox oy m s Hx Hy Hm Hs) as (x & y & H1 & H2 & H3). exists (x, y). split; [|exact H3]. apply in_columns. cbn. auto. }
  destruct Hch as [sel Hsel]. exists sel. unfold pool_ff.
  destruct Hmix as [W1 S1]. destruct Hmiy as [W2 S2]. destruct Houtput as [W3 S3]. pose proof S3 as (O1 & O2 & O3 & O4).
  rewrite I1, I4, O2, O3.
  assert (Hfill : forall E (t : tensor E) (what : D * (nat * nat) -> E), wf t -> has_shape t ss w h mm ->
    exists t', run_stores t (for_ ss (fun sample => pool_ff_sample O rw rh mm w h input t what sample)) = Ok t' /\ wf t' /\ same_shape t' t /\
      contents t' (fun ox oy m s => what (img (fst (sel ox oy m s)) (snd (sel ox oy m s)) m s, sel ox oy m s))).
  { intros E t what Wt St. unfold pool_ff_sample.
    apply (pool_fill t ss mm w h (fun ox oy m s => best <- window_max O input (region_cells rw rh ox oy) m s ;; Ok (what best))); auto.
    intros ox oy m s H1 H2 H3 H4. destruct (Hsel ox oy m s H1 H2 H3 H4) as [-> _]. reflexivity. }
  destruct (Hfill _ mix (fun best => uint_to_f (fst (snd best))) W1 S1) as (mix' & -> & A1 & A2 & A3). cbn [bind].
  destruct (Hfill _ miy (fun best => uint_to_f (snd (snd best))) W2 S2) as (miy' & -> & B1 & B2 & B3). cbn [bind].
  destruct (Hfill _ output (fun best => fst best) W3 S3) as (output' & -> & C1 & C2 & C3). cbn [bind].
  exists mix', miy', output'. split; [reflexivity|]. split; [auto|]. split; [auto|]. split; [auto|].
  intros ox oy m s H1 H2 H3 H4. now destruct (Hsel ox oy m s H1 H2 H3 H4).
Qed.
End MaxPool.

Lemma pool_bp_spec rw rh w h mm ss (mix miy : tensor f32) (output_delta input_delta : tensor D) sel dl :
  0 < rw -> 0 < rh -> (Z.of_nat (w * rw) <= 2 ^ 24)%Z -> (Z.of_nat (h * rh) <= 2 ^ 24)%Z ->
  wf mix -> has_shape mix ss w h mm -> contents mix (fun ox oy m s => uint_to_f (fst (sel ox oy m s))) ->
  wf miy -> has_shape miy ss w h mm -> contents miy (fun ox oy m s => uint_to_f (snd (sel ox oy m s))) ->
  wf output_delta -> has_shape output_delta ss w h mm -> contents output_delta dl ->
  wf input_delta -> has_shape input_delta ss (w * rw) (h * rh) mm ->
  (forall ox oy m s, ox < w -> oy < h -> m < mm -> s < ss ->
     ox * rw <= fst (sel ox oy m s) < ox * rw + rw /\ oy * rh <= snd (sel ox oy m s) < oy * rh + rh) ->
  exists input_delta', pool_bp K mix miy output_delta input_delta = Ok input_delta' /\ wf input_delta' /\ same_shape input_delta' input_delta /\
    contents input_delta' (fun x y m s =>
      if same_cell (sel (x / rw) (y / rh) m s) (x, y) then dl (x / rw) (y / rh) m s else (n0 K)).
Proof.
  intros Hrw Hrh Bw Bh Wx Sx Cx Wy Sy Cy Wd Sd Cd Wi Si Hsel.
  destruct Sx as (X1 & X2 & X3 & X4), Sy as (Y1 & Y2 & Y3 & Y4), Sd as (D1 & D2 & D3 & D4), Si as (I1 & I2 & I3 & I4).
  unfold pool_bp. rewrite I1, I4, D2, D3.
  destruct (clear_all_spec input_delta (n0 K) Wi) as (cl & -> & Wc & Sc & Hc). cbn [bind].
  destruct Sc as (C1 & C2 & C3 & C4).
  assert (Hop : forall ox oy m s, ox < w -> oy < h -> m < mm -> s < ss ->
    store_at (fx <- get mix ox oy m s ;; ix <- f_to_uint fx ;; fy <- get miy ox oy m s ;; iy <- f_to_uint fy ;; Ok (offset cl ix iy m s))
             (get output_delta ox oy m s) = (offset cl (fst (sel ox oy m s)) (snd (sel ox oy m s)) m s, Ok (dl ox oy m s))).
  { intros ox oy m s H1 H2 H3 H4. destruct (Hsel ox oy m s H1 H2 H3 H4) as [R1 R2].
    assert (B1 : (ox + 1) * rw <= w * rw) by (apply Nat.mul_le_mono_r; lia).
    assert (B2 : (oy + 1) * rh <= h * rh) by (apply Nat.mul_le_mono_r; lia).
    rewrite (contents_get _ _ _ _ _ _ Cx) by (unfold valid_pos; rewrite X1, X2, X3, X4; auto). cbn [bind].
    rewrite f_to_uint_uint by lia. cbn [bind].
    rewrite (contents_get _ _ _ _ _ _ Cy) by (unfold valid_pos; rewrite Y1, Y2, Y3, Y4; auto). cbn [bind].
    rewrite f_to_uint_uint by lia. cbn [bind store_at].
    rewrite (contents_get _ _ _ _ _ _ Cd) by (unfold valid_pos; rewrite D1, D2, D3, D4; auto). reflexivity. }
  destruct (run_stores_frame cl (for_ ss (fun sample => pool_bp_sample mm w h mix miy output_delta cl sample))
    (fun x y m s => if same_cell (sel (x / rw) (y / rh) m s) (x, y) then Some (dl (x / rw) (y / rh) m s) else None) Wc) as (r & Er & Wr & Sr & Hr).
  - intros a rv Ho. apply in_for in Ho as (s & Hs & Ho). apply in_for in Ho as (m & Hm & Ho).
    apply in_for in Ho as (ox & Hox & Ho). apply in_for in Ho as (oy & Hoy & [Eq|[]]). rewrite Hop in Eq by assumption.
    injection Eq as Ea Erv. symmetry in Ea, Erv. exists (fst (sel ox oy m s)), (snd (sel ox oy m s)), m, s, (dl ox oy m s).
    destruct (Hsel ox oy m s Hox Hoy Hm Hs) as [R1 R2].
    assert (B1 : (ox + 1) * rw <= w * rw) by (apply Nat.mul_le_mono_r; lia).
    assert (B2 : (oy + 1) * rh <= h * rh) by (apply Nat.mul_le_mono_r; lia).
    split; [unfold valid_pos; rewrite C1, C2, C3, C4, I1, I2, I3, I4; repeat split; lia|]. split; [exact Ea|]. split; [exact Erv|].
    set (px := fst (sel ox oy m s)) in *. set (py := snd (sel ox oy m s)) in *.
    assert (Q1 : px / rw = ox) by (symmetry; apply (Nat.div_unique px rw ox (px - ox * rw)); lia).
    assert (Q2 : py / rh = oy) by (symmetry; apply (Nat.div_unique py rh oy (py - oy * rh)); lia).
    rewrite Q1, Q2. unfold same_cell. cbn [fst snd]. fold px. fold py. now rewrite !Nat.eqb_refl.
  - intros x y m s v (Hx & Hy & Hm & Hs) HF. rewrite C1, C2, C3, C4, I1, I2, I3, I4 in *.
    unfold same_cell in HF. cbn [fst snd] in HF.
    destruct (Nat.eqb_spec (fst (sel (x / rw) (y / rh) m s)) x) as [F1|]; [|discriminate].
    destruct (Nat.eqb_spec (snd (sel (x / rw) (y / rh) m s)) y) as [F2|]; [|discriminate]. injection HF as <-.
    assert (L1 : x / rw < w) by (apply Nat.div_lt_upper_bound; lia). assert (L2 : y / rh < h) by (apply Nat.div_lt_upper_bound; lia).
    apply in_for. exists s. split; [exact Hs|]. apply in_for. exists m. split; [exact Hm|].
    apply in_for. exists (x / rw). split; [exact L1|]. apply in_for. exists (y / rh). split; [exact L2|]. left. rewrite Hop by assumption.
    now rewrite F1, F2.
  - exists r. split; [exact Er|]. split; [exact Wr|]. split.
    { eapply same_shape_trans; [exact Sr|]. repeat split; assumption. }
    intros x y m s Hv. apply (same_shape_valid _ _ _ _ _ _ Sr) in Hv. rewrite (Hr x y m s Hv).
    destruct (same_cell _ _); [reflexivity|]. apply Hc. destruct Hv as (V1 & V2 & V3 & V4). unfold valid_pos. rewrite <- C1, <- C2, <- C3, <- C4. auto.
Qed.

(** ** Overlapping windows *)

Lemma apool_dim_positions n k stride : 0 < stride -> k <= n -> apool_dim n k stride = Z.of_nat (positions n k stride).
Proof.
  intros Hs Hk. unfold apool_dim, positions. destruct (Nat.ltb_spec n k); [lia|].
  replace (Z.of_nat n - Z.of_nat k)%Z with (Z.of_nat (n - k)) by lia. rewrite Z.quot_div_nonneg by lia.
  rewrite <- Nat2Z.inj_div. lia.
Qed.

(** The outputs whose windows cover coordinate [i] are among those considered. *)
Lemma apool_range i region stride size o : 0 < stride -> o < size ->
  o * stride <= i < o * stride + region -> apool_start i region stride <= o < apool_end i stride size.
Proof.
  intros Hs Ho [H1 H2]. unfold apool_start, apool_end. split.
  - destruct (Nat.ltb_spec i region) as [|Hr]; [lia|].
    assert ((i - region) / stride < o) by (apply Nat.div_lt_upper_bound; lia). lia.
  - apply Nat.min_glb_lt; [|exact Ho]. assert (o <= i / stride) by (apply Nat.div_le_lower_bound; lia). lia.
Qed.

Lemma apool_end_le i stride size : apool_end i stride size <= size.
Proof. apply Nat.le_min_r. Qed.

Lemma for_from_filter {A} (P : A -> bool) a b n (f : nat -> list A) : b <= n ->
  (forall i x, i < n -> ~ (a <= i < b) -> In x (f i) -> P x = false) ->
  filter P (for_from a b f) = filter P (for_ n f).
Proof.
  intros Hb H. unfold for_from, range, for_. destruct (Nat.le_gt_cases a b) as [Hab|Hab].
  - assert (E : n = a + ((b - a) + (n - b))) by lia. rewrite E at 1. rewrite !seq_app, !flat_map_app, !filter_app. cbn [Nat.add].
    assert (Z : forall s c, (forall i, In i (seq s c) -> i < n /\ ~ (a <= i < b)) -> filter P (flat_map f (seq s c)) = []).
    { intros s c Hi. induction (seq s c) as [|i l IH]; [reflexivity|]. cbn [flat_map]. rewrite filter_app, IH by (intros; apply Hi; now right).
      rewrite app_nil_r. destruct (Hi i) as [I1 I2]; [now left|]. pose proof (fun x => H i x I1 I2) as Hf.
      induction (f i) as [|x l' IH']; [reflexivity|]. cbn. rewrite Hf by now left. apply IH'. intros y Hy. apply Hf. now right. }
    rewrite (Z 0 a), (Z (a + (b - a))).
    + now rewrite app_nil_r.
    + intros i Hi. apply in_seq in Hi. lia.
    + intros i Hi. apply in_seq in Hi. lia.
  - replace (b - a) with 0 by lia. cbn. symmetry.
    assert (Hl : forall i, In i (seq 0 n) -> i < n) by (intros i Hi; apply in_seq in Hi; lia).
    induction (seq 0 n) as [|i l IH]; [reflexivity|]. cbn [flat_map]. rewrite filter_app, IH by (intros; apply Hl; now right).
    rewrite app_nil_r. assert (Hf : forall x, In x (f i) -> P x = false) by (intros x Hx; apply (H i x); auto; [apply Hl; now left|lia]).
    induction (f i) as [|x l' IH']; [reflexivity|]. cbn. rewrite Hf by now left. apply IH'. intros y Hy. apply Hf. now right.
Qed.

Lemma foldm_filter {A} (P : A -> bool) (val : A -> D) (step : D -> A -> res D) l s :
  (forall s a, In a l -> step s a = Ok (if P a then nadd K s (val a) else s)) ->
  foldm step l s = Ok (fold_left (nadd K) (map val (filter P l)) s).
Proof.
  revert s. induction l as [|a l IH]; intros s H; [reflexivity|]. cbn [foldm]. rewrite H by now left. cbn [bind].
  rewrite IH by (intros; apply H; now right). cbn [filter]. now destruct (P a).
Qed.

Section APool.
Variables (rw rh sw sh w h mm ss : nat).
Variables (input output : tensor D) (mask : tensor f32) (img : nat -> nat -> nat -> nat -> D).
Hypothesis Hsw : 0 < sw.
Hypothesis Hsh : 0 < sh.
Notation ow := (positions w rw sw).
Notation oh := (positions h rh sh).
Hypothesis Hinput : wf input /\ has_shape input ss w h mm /\ contents input img.
Hypothesis Hmask : wf mask /\ has_shape mask ss ow oh mm.
Hypothesis Houtput : wf output /\ has_shape output ss ow oh mm.
Hypothesis Habove : forall ox oy m s, ox < ow -> oy < oh -> m < mm -> s < ss ->
  exists x y, ox * sw <= x < ox * sw + rw /\ oy * sh <= y < oy * sh + rh /\ o_gt O (img x y m s) (o_lowest O) = true.

Lemma apool_ff_spec : exists sel mask' output',
  apool_ff O rw rh sw sh input mask output = Ok (mask', output') /\
  (wf mask' /\ same_shape mask' mask /\ contents mask' (fun ox oy m s => uint_to_f (w * snd (sel ox oy m s) + fst (sel ox oy m s)))) /\
  (wf output' /\ same_shape output' output /\ contents output' (fun ox oy m s => img (fst (sel ox oy m s)) (snd (sel ox oy m s)) m s)) /\
  forall ox oy m s, ox < ow -> oy < oh -> m < mm -> s < ss ->
    first_max O (rows (ox * sw) (oy * sh) rw rh) (fun p => img (fst p) (snd p) m s) (sel ox oy m s).
Proof.
  destruct Hinput as (Wi & Si & Ci). pose proof Si as (I1 & I2 & I3 & I4).
  assert (Hch : exists sel : nat -> nat -> nat -> nat -> nat * nat, forall ox oy m s, ox < ow -> oy < oh -> m < mm -> s < ss ->
    window_max O input (window_cells rw rh sw sh ox oy) m s = Ok (img (fst (sel ox oy m s)) (snd (sel ox oy m s)) m s, sel ox oy m s) /\
    first_max O (rows (ox * sw) (oy * sh) rw rh) (fun p => img (fst p) (snd p) m s) (sel ox oy m s)).
  { apply (choose_positions (0, 0) (fun ox oy m s p =>
      window_max O input (window_cells rw rh sw sh ox oy) m s = Ok (img (fst p) (snd p) m s, p) /\
      first_max O (rows (ox * sw) (oy * sh) rw rh) (fun p => img (fst p) (snd p) m s) p)).
    intros ox oy m s Hx Hy Hm Hs. rewrite window_cells_rows.
    apply (window_max_found input _ m s (fun p => img (fst p) (snd p) m s)).
    - intros c Hc. apply in_rows in Hc as [H1 H2]. apply (contents_get _ _ _ _ _ _ Ci). unfold valid_pos. rewrite I1, I2, I3, I4.
      apply (positions_fit _ _ _ _ Hsw) in Hx. apply (positions_fit _ _ _ _ Hsh) in Hy. repeat split; lia.
    - destruct (Habove ox oy m s Hx Hy Hm Hs) as (x & y & H1 & H2 & H3). exists (x, y). split; [|exact H3]. apply in_rows. cbn. auto. }
  destruct Hch as [sel Hsel]. exists sel. unfold apool_ff.
  destruct Hmask as [W1 S1]. destruct Houtput as [W3 S3]. pose proof S3 as (O1 & O2 & O3 & O4).
  rewrite I1, I2, I4, O2, O3.
  assert (Hfill : forall E (t : tensor E) (what : D * (nat * nat) -> E), wf t -> has_shape t ss ow oh mm ->
    exists t', run_stores t (for_ ss (fun sample => apool_ff_sample O rw rh sw sh mm ow oh input t what sample)) = Ok t' /\ wf t' /\ same_shape t' t /\
      contents t' (fun ox oy m s => what (img (fst (sel ox oy m s)) (snd (sel ox oy m s)) m s, sel ox oy m s))).
  { intros E t what Wt St. unfold apool_ff_sample.
    apply (pool_fill t ss mm ow oh (fun ox oy m s => best <- window_max O input (window_cells rw rh sw sh ox oy) m s ;; Ok (what best))); auto.
    intros ox oy m s H1 H2 H3 H4. destruct (Hsel ox oy m s H1 H2 H3 H4) as [-> _]. reflexivity. }
  destruct (Hfill _ mask (fun best => uint_to_f (w * snd (snd best) + fst (snd best))) W1 S1) as (mask' & -> & A1 & A2 & A3). cbn [bind].
  destruct (Hfill _ output (fun best => fst best) W3 S3) as (output' & -> & C1 & C2 & C3). cbn [bind].
  exists mask', output'. split; [reflexivity|]. split; [auto|]. split; [auto|].
  intros ox oy m s H1 H2 H3 H4. now destruct (Hsel ox oy m s H1 H2 H3 H4).
Qed.
End APool.

Lemma apool_bp_spec rw rh sw sh w h mm ss (mask : tensor f32) (output_delta input_delta : tensor D) sel dl :
  0 < sw -> 0 < sh -> (Z.of_nat (w * h) <= 2 ^ 24)%Z ->
  let ow := positions w rw sw in let oh := positions h rh sh in
  wf mask -> has_shape mask ss ow oh mm -> contents mask (fun ox oy m s => uint_to_f (w * snd (sel ox oy m s) + fst (sel ox oy m s))) ->
  wf output_delta -> has_shape output_delta ss ow oh mm -> contents output_delta dl ->
  wf input_delta -> has_shape input_delta ss w h mm ->
  (forall ox oy m s, ox < ow -> oy < oh -> m < mm -> s < ss ->
     ox * sw <= fst (sel ox oy m s) < ox * sw + rw /\ oy * sh <= snd (sel ox oy m s) < oy * sh + rh) ->
  exists input_delta', apool_bp K rw rh sw sh mask output_delta input_delta = Ok input_delta' /\ wf input_delta' /\ same_shape input_delta' input_delta /\
    contents input_delta' (fun x y m s =>
      fold_left (nadd K) (map (fun o => dl (fst o) (snd o) m s) (filter (fun o => same_cell (sel (fst o) (snd o) m s) (x, y)) (rows 0 0 ow oh))) (n0 K)).
Proof.
  intros Hsw Hsh Hb ow oh Wm Sm Cm Wd Sd Cd Wi Si Hsel.
  destruct Sm as (M1 & M2 & M3 & M4), Sd as (D1 & D2 & D3 & D4), Si as (I1 & I2 & I3 & I4).
  unfold apool_bp. destruct (Nat.eqb_spec sw 0) as [|N1]; [lia|]. destruct (Nat.eqb_spec sh 0) as [|N2]; [lia|]. cbn [orb].
  unfold apool_bp_sample. rewrite I1, I2, I3, I4.
  set (F := fun x y m s : nat => fold_left (nadd K) (map (fun o => dl (fst o) (snd o) m s) (filter (fun o => same_cell (sel (fst o) (snd o) m s) (x, y)) (rows 0 0 ow oh))) (n0 K)).
  assert (Hval : forall x y m s, x < w -> y < h -> m < mm -> s < ss -> apool_sum K rw rh sw sh w mask output_delta x y m s = Ok (F x y m s)).
  { intros x y m s Hx Hy Hm Hs. unfold apool_sum. rewrite D2, D3.
    set (sx := apool_start x rw sw). set (ex := apool_end x sw ow). set (sy := apool_start y rh sh). set (ey := apool_end y sh oh).
    set (P := fun o : nat * nat => same_cell (sel (snd o) (fst o) m s) (x, y)).
    assert (Hex : ex <= ow) by apply apool_end_le. assert (Hey : ey <= oh) by apply apool_end_le.
    rewrite (foldm_filter P (fun o => dl (snd o) (fst o) m s)).
    2:{ intros acc [oy ox] Ho. apply in_for_from in Ho as (oy' & Hoy & Ho). apply in_for_from in Ho as (ox' & Hox & [Eq|[]]). injection Eq as <- <-. cbn [fst snd].
        rewrite (contents_get _ _ _ _ _ _ Cm) by (unfold valid_pos; rewrite M1, M2, M3, M4; repeat split; lia). cbn [bind].
        destruct (Hsel ox' oy' m s) as [R1 R2]; [lia|lia|exact Hm|exact Hs|].
        assert (Fx : ox' * sw + rw <= w) by (apply (positions_fit _ _ _ _ Hsw); fold ow; lia).
        assert (Fy : oy' * sh + rh <= h) by (apply (positions_fit _ _ _ _ Hsh); fold oh; lia).
        assert (Bs : w * snd (sel ox' oy' m s) + fst (sel ox' oy' m s) < w * h).
        { rewrite (Nat.mul_comm w (snd _)), (Nat.mul_comm w h). apply mix_lt; lia. }
        assert (Bp : x + w * y < w * h). { rewrite (Nat.add_comm x), (Nat.mul_comm w y), (Nat.mul_comm w h). now apply mix_lt. }
        rewrite feq_uint by lia. unfold P, same_cell. cbn [fst snd].
        assert (Eb : (w * snd (sel ox' oy' m s) + fst (sel ox' oy' m s) =? x + w * y) =
                     (fst (sel ox' oy' m s) =? x) && (snd (sel ox' oy' m s) =? y)).
        { set (px := fst (sel ox' oy' m s)) in *. set (py := snd (sel ox' oy' m s)) in *.
          destruct (Nat.eqb_spec (w * py + px) (x + w * y)) as [E|E].
          - destruct (mix_inj py y px x w) as [-> ->]; [lia|lia|lia|]. now rewrite !Nat.eqb_refl.
          - destruct (Nat.eqb_spec px x) as [->|]; [|reflexivity]. destruct (Nat.eqb_spec py y) as [->|]; [lia|reflexivity]. }
        rewrite Eb. destruct ((fst (sel ox' oy' m s) =? x) && (snd (sel ox' oy' m s) =? y)); [|reflexivity].
        rewrite (contents_get _ _ _ _ _ _ Cd) by (unfold valid_pos; rewrite D1, D2, D3, D4; repeat split; lia). reflexivity. }
    f_equal. unfold F. f_equal.
    assert (HP : forall oy ox, oy < oh -> ox < ow -> P (oy, ox) = true -> (sy <= oy < ey) /\ (sx <= ox < ex)).
    { intros oy ox Hoy Hox HP. unfold P, same_cell in HP. cbn [fst snd] in HP. apply andb_true_iff in HP as [E1 E2].
      apply Nat.eqb_eq in E1, E2. destruct (Hsel ox oy m s Hox Hoy Hm Hs) as [R1 R2]. rewrite E1 in R1. rewrite E2 in R2.
      split; apply apool_range; assumption. }
    rewrite (for_from_filter P sy ey oh (fun oy => for_from sx ex (fun ox => [(oy, ox)])) Hey).
    2:{ intros oy [oy' ox] Hoy Hn Ho. apply in_for_from in Ho as (ox' & Hox & [Eq|[]]). injection Eq as <- <-.
        destruct (P (oy, ox')) eqn:Ep; [|reflexivity]. exfalso. apply Hn. destruct (HP oy ox' Hoy) as [R _]; [lia|exact Ep|exact R]. }
    unfold rows. unfold for_.
    assert (Hl : forall oy, In oy (seq 0 oh) -> oy < oh) by (intros i Hi; apply in_seq in Hi; lia).
    induction (seq 0 oh) as [|oy l IH]; [reflexivity|]. cbn [flat_map]. rewrite !filter_app, !map_app, IH by (intros; apply Hl; now right).
    f_equal. rewrite (for_from_filter P sx ex ow (fun ox => [(oy, ox)]) Hex).
    2:{ intros ox q Hox Hn [<-|[]]. destruct (P (oy, ox)) eqn:Ep; [|reflexivity]. exfalso. apply Hn.
        destruct (HP oy ox) as [_ R]; [apply Hl; now left|exact Hox|exact Ep|exact R]. }
    rewrite for_map. clear. induction (seq 0 ow) as [|ox l' IH']; [reflexivity|]. cbn [map filter]. unfold P at 1. cbn [fst snd Nat.add].
    destruct (same_cell (sel ox oy m s) (x, y)); cbn [map fst snd]; rewrite IH'; reflexivity. }
  apply run_stores_fill; [exact Wi| |].
  - intros a rv Ho. apply in_for in Ho as (s & Hs & Ho). apply in_for in Ho as (m & Hm & Ho).
    apply in_for in Ho as (x & Hx & Ho). apply in_for in Ho as (y & Hy & [Eq|[]]). inversion Eq; subst a rv.
    exists x, y, m, s. split; [unfold valid_pos; rewrite I1, I2, I3, I4; auto|]. split; [reflexivity|]. now apply Hval.
  - intros x y m s (Hx & Hy & Hm & Hs). rewrite I1, I2, I3, I4 in *. apply in_for. exists s. split; [exact Hs|].
    apply in_for. exists m. split; [exact Hm|]. apply in_for. exists x. split; [exact Hx|]. apply in_for. exists y. split; [exact Hy|].
    left. now rewrite Hval.
Qed.
End Ordered.

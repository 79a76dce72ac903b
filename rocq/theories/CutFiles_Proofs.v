(** Proofs about reading files that are cut short or hold anything at all. *)
From Verif Require Import Base BaseFacts Float32 Bytes_Model Tensor_Model Tensor_Spec Tensor_Proofs
  Codec_Model Codec_Spec Codec_Proofs Stream_Model Stream_Spec StreamFiles_Spec Stream_Proofs NetParams_Model NetParams_Proofs.
Local Open Scope nat_scope.

(** A stream on a file that was opened: a failed read has also seen the end. *)
Definition sane (s : istream) : Prop := failbit s = true -> eofbit s = true.

Lemma is_read_sane n s : sane s -> sane (snd (is_read n s)) /\ length (rest (snd (is_read n s))) <= length (rest s) /\
  (eofbit (snd (is_read n s)) = false -> length (rest (snd (is_read n s))) + n = length (rest s)).
Proof.
  intros H. unfold is_read, good, sane in *. destruct s as [r e f]. cbn [eofbit failbit rest] in *.
  destruct e, f; cbn [negb andb]; cbn [snd rest eofbit failbit]; repeat split; auto; try discriminate.
  - specialize (H eq_refl). discriminate.
  - destruct (Nat.leb_spec n (length r)); cbn [snd failbit]; [discriminate|reflexivity].
  - destruct (Nat.leb_spec n (length r)); cbn [snd rest]; [rewrite skipn_length; lia|cbn; lia].
  - destruct (Nat.leb_spec n (length r)); cbn [snd rest eofbit]; [rewrite skipn_length; lia|discriminate].
Qed.

Lemma read_u64_sane s : sane s -> sane (snd (read_u64 s)) /\ length (rest (snd (read_u64 s))) <= length (rest s) /\
  (eofbit (snd (read_u64 s)) = false -> length (rest (snd (read_u64 s))) + 8 = length (rest s)).
Proof. intros H. unfold read_u64. pose proof (is_read_sane 8 s H) as P. destruct (is_read 8 s). exact P. Qed.

Lemma is_peek_sane s : sane s -> sane (is_peek s) /\ rest (is_peek s) = rest s /\ (eofbit s = true -> eofbit (is_peek s) = true).
Proof.
  intros H. unfold is_peek, good, sane in *. destruct s as [r e f]. cbn [eofbit failbit rest] in *.
  destruct e, f; cbn [negb andb]; cbn [rest eofbit failbit]; repeat split; auto; try discriminate; destruct r; cbn; auto; discriminate.
Qed.

Lemma sane_eof s : sane s -> eofbit s = true -> eofbit (is_peek s) = true.
Proof. intros H. now apply is_peek_sane. Qed.

Lemma eof_read n s : sane s -> eofbit s = true -> eofbit (snd (is_read n s)) = true /\ fst (is_read n s) = [].
Proof. intros H E. unfold is_read, good. rewrite E. cbn. auto. Qed.

Lemma eof_u64 s : sane s -> eofbit s = true -> eofbit (snd (read_u64 s)) = true /\ fst (read_u64 s) = 0.
Proof. intros H E. unfold read_u64, is_read, good. rewrite E. cbn. auto. Qed.

(** One tensor from any stream: it always comes out well formed, and at least the header has been consumed unless the
    end was seen. *)
Lemma deserialize_any junk t s : wf t -> sane s -> exists t' s', deserialize junk t false s = Ok (t', s') /\ wf t' /\ sane s' /\
  length (rest s') <= length (rest s) /\ (eofbit s' = false -> length (rest s') + 32 <= length (rest s)).
Proof.
  intros Ht H. unfold deserialize.
  destruct (read_u64 s) as [a s1] eqn:E1. pose proof (read_u64_sane s H) as P1. pose proof (eof_u64 s H) as Q1. rewrite E1 in P1, Q1. cbn [fst snd] in *. destruct P1 as (H1 & L1 & M1).
  destruct (read_u64 s1) as [b s2] eqn:E2. pose proof (read_u64_sane s1 H1) as P2. pose proof (eof_u64 s1 H1) as Q2. rewrite E2 in P2, Q2. cbn [fst snd] in *. destruct P2 as (H2 & L2 & M2).
  destruct (read_u64 s2) as [c s3] eqn:E3. pose proof (read_u64_sane s2 H2) as P3. pose proof (eof_u64 s2 H2) as Q3. rewrite E3 in P3, Q3. cbn [fst snd] in *. destruct P3 as (H3 & L3 & M3).
  destruct (read_u64 s3) as [d s4] eqn:E4. pose proof (read_u64_sane s3 H3) as P4. pose proof (eof_u64 s3 H3) as Q4. rewrite E4 in P4, Q4. cbn [fst snd] in *. destruct P4 as (H4 & L4 & M4).
  assert (M : eofbit s4 = false -> length (rest s4) + 32 = length (rest s)).
  { intros N. destruct (eofbit s3) eqn:F3; [destruct Q4; auto; congruence|]. destruct (eofbit s2) eqn:F2; [destruct Q3; auto; congruence|].
    destruct (eofbit s1) eqn:F1; [destruct Q2; auto; congruence|]. specialize (M1 eq_refl). specialize (M2 eq_refl). specialize (M3 eq_refl). specialize (M4 N). lia. }
  pose proof (wf_resize junk t a b c d Ht) as W. rewrite andb_true_r.
  destruct (Nat.ltb_spec 0 (a * d * b * c)) as [P|P].
  - destruct (resize_data junk t a b c d) as (_ & _ & _ & _ & F); [lia|]. set (t1 := resize junk t a b c d) in *. clearbody t1.
    unfold buffer. destruct (data t1) as [l|] eqn:D; [|congruence]. cbn [bind]. unfold read_into.
    pose proof (is_read_sane (4 * length l) s4 H4) as (H5 & L5 & M5). pose proof (fun e => proj1 (eof_read (4 * length l) s4 H4 e)) as Q5.
    assert (G : length (fst (is_read (4 * length l) s4)) <= 4 * length l).
    { unfold is_read. destruct (good s4); [|cbn; lia]. destruct (Nat.leb_spec (4 * length l) (length (rest s4))); cbn [fst]; [rewrite firstn_length|]; lia. }
    destruct (is_read (4 * length l) s4) as [got s5]. cbn [fst snd] in *. eexists. eexists. split; [reflexivity|].
    split; [|split; [exact H5|split; [lia|]]].
    + destruct (wf_data_dims _ _ W D) as (Hl & Hp). unfold wf, with_data. cbn. destruct W as [W0 W1]. rewrite D in W1. split; [exact W0|].
      assert (Hlen : length (f32s_of_bytes (got ++ skipn (length got) (flat_map f32_bytes l))) = length l).
      { rewrite (f32s_of_bytes_length _ _ (Nat.le_refl _)). rewrite app_length, skipn_length, flat_bytes_length.
        replace (length got + (4 * length l - length got)) with (length l * 4) by lia. now rewrite Nat.div_mul. }
      rewrite Hlen. exact W1.
    + intros N. destruct (eofbit s4) eqn:F4; [specialize (Q5 eq_refl); congruence|]. specialize (M eq_refl). lia.
  - eexists. eexists. split; [reflexivity|]. split; [exact W|]. split; [exact H4|]. split; [lia|]. intros N. specialize (M N). lia.
Qed.

(** ** Whole files *)
Lemma load_loop_any {T} (parse : istream -> res (T * istream)) (count : T -> nat) (P : T -> Prop) :
  (forall s, sane s -> exists t s', parse s = Ok (t, s') /\ P t /\ sane s' /\ (eofbit s' = false -> length (rest s') < length (rest s))) ->
  forall fuel s acc, sane s -> Forall (fun t => P t /\ 0 < count t) acc -> length (rest s) < fuel ->
  exists ts, load_loop parse count fuel s acc = Ok ts /\ Forall (fun t => P t /\ 0 < count t) ts.
Proof.
  intros Hp. induction fuel as [|fuel IH]; intros s acc H A L; [lia|]. cbn [load_loop]. destruct (eofbit s) eqn:E; [eauto|].
  destruct (Hp s H) as (t & s1 & -> & W & H1 & M1). cbn [bind].
  destruct (Nat.eqb_spec (count t) 0) as [Z|Z]; [eauto|].
  pose proof (is_peek_sane s1 H1) as (H2 & R2 & E2).
  assert (A' : Forall (fun t => P t /\ 0 < count t) (acc ++ [t])) by (apply Forall_app; split; [exact A|constructor; [split; [exact W|lia]|constructor]]).
  destruct (eofbit s1) eqn:F.
  - exists (acc ++ [t]). split; [|exact A']. specialize (E2 eq_refl). destruct fuel; cbn [load_loop]; now rewrite E2.
  - apply IH; auto. rewrite R2. specialize (M1 eq_refl). lia.
Qed.

Lemma c_deserialize_any junkb s : sane s -> exists c s', c_deserialize junkb false s = Ok (c, s') /\ True /\ sane s' /\
  (eofbit s' = false -> length (rest s') < length (rest s)).
Proof.
  intros H. unfold c_deserialize.
  destruct (read_u64 s) as [a s1] eqn:E1. pose proof (read_u64_sane s H) as P1. pose proof (eof_u64 s H) as Q1. rewrite E1 in P1, Q1. cbn [fst snd] in *. destruct P1 as (H1 & L1 & M1).
  destruct (read_u64 s1) as [b s2] eqn:E2. pose proof (read_u64_sane s1 H1) as P2. pose proof (eof_u64 s1 H1) as Q2. rewrite E2 in P2, Q2. cbn [fst snd] in *. destruct P2 as (H2 & L2 & M2).
  destruct (read_u64 s2) as [c s3] eqn:E3. pose proof (read_u64_sane s2 H2) as P3. pose proof (eof_u64 s2 H2) as Q3. rewrite E3 in P3, Q3. cbn [fst snd] in *. destruct P3 as (H3 & L3 & M3).
  destruct (read_u64 s3) as [d s4] eqn:E4. pose proof (read_u64_sane s3 H3) as P4. pose proof (eof_u64 s3 H3) as Q4. rewrite E4 in P4, Q4. cbn [fst snd] in *. destruct P4 as (H4 & L4 & M4).
  destruct (read_u64 s4) as [n s5] eqn:E5. pose proof (read_u64_sane s4 H4) as P5. pose proof (eof_u64 s4 H4) as Q5. rewrite E5 in P5, Q5. cbn [fst snd] in *. destruct P5 as (H5 & L5 & M5).
  assert (M : eofbit s5 = false -> length (rest s5) < length (rest s)).
  { intros F. destruct (eofbit s4) eqn:F4; [destruct Q5; auto; congruence|]. destruct (eofbit s3) eqn:F3; [destruct Q4; auto; congruence|].
    specialize (M5 F). lia. }
  destruct (n =? 0); [eexists; eexists; split; [reflexivity|]; auto|].
  pose proof (is_read_sane n s5 H5) as (H6 & L6 & M6). pose proof (fun e => proj1 (eof_read n s5 H5 e)) as Q6.
  destruct (is_read n s5) as [got s6]. cbn [fst snd] in *. eexists. eexists. split; [reflexivity|]. split; [exact I|]. split; [exact H6|].
  intros F. destruct (eofbit s5) eqn:F5; [specialize (Q6 eq_refl); congruence|]. specialize (M eq_refl). lia.
Qed.

Lemma load_loop_prefix {T} (parse : istream -> res (T * istream)) count (ser : T -> list byte) ts tail : tail <> [] -> forall fuel acc,
  length ts <= fuel ->
  (forall t r, In t ts -> parse (st (ser t ++ r)) = Ok (t, st r)) ->
  (forall t, In t ts -> 0 < count t) ->
  load_loop parse count fuel (st (flat_map ser ts ++ tail)) acc = load_loop parse count (fuel - length ts) (st tail) (acc ++ ts).
Proof.
  intros Ht. induction ts as [|t ts IH]; intros fuel acc Hf Hp Hc.
  - cbn [flat_map app length]. now rewrite Nat.sub_0_r, app_nil_r.
  - destruct fuel as [|fuel]; [simpl in Hf; lia|]. cbn [flat_map length Nat.sub]. rewrite <- app_assoc. unfold st. cbn [load_loop eofbit].
    pose proof (Hp t (flat_map ser ts ++ tail) (or_introl eq_refl)) as E. unfold st in E. rewrite E. cbn [bind].
    destruct (Nat.eqb_spec (count t) 0) as [E0|E0]; [specialize (Hc t (or_introl eq_refl)); lia|].
    replace (is_peek (mkIS (flat_map ser ts ++ tail) false false)) with (st (flat_map ser ts ++ tail)).
    + rewrite IH; [now rewrite <- app_assoc|simpl in Hf; lia| |]; intros; [apply Hp|apply Hc]; now right.
    + unfold is_peek, good. cbn [eofbit failbit negb andb rest]. destruct (flat_map ser ts ++ tail) eqn:Er; [|reflexivity].
      apply app_eq_nil in Er as [_ Er]. contradiction.
Qed.

(** ** One tensor that is cut *)
Lemma is_read_short n a : length a < n -> is_read n (st a) = (a, mkIS [] true true).
Proof. intros H. unfold is_read, st, good. cbn [eofbit failbit rest negb andb]. destruct (Nat.leb_spec n (length a)); [lia|reflexivity]. Qed.

Lemma read_u64_done : read_u64 (mkIS [] true true) = (0, mkIS [] true true).
Proof. reflexivity. Qed.

Lemma read_u64_short a : length a < 8 -> read_u64 (st a) = (Z.to_nat (le_value a), mkIS [] true true).
Proof. intros H. unfold read_u64. now rewrite is_read_short. Qed.

Lemma le_value_short : forall j n v, (0 <= v < 256 ^ Z.of_nat j)%Z -> j <= n -> le_value (firstn j (le_bytes n v)) = v.
Proof.
  induction j as [|j IH]; intros n v Hv Hj; [change (256 ^ Z.of_nat 0)%Z with 1%Z in Hv; cbn; lia|].
  destruct n as [|n]; [lia|]. cbn [le_bytes firstn le_value]. rewrite Nat2Z.inj_succ, Z.pow_succ_r in Hv by lia.
  rewrite IH; [pose proof (Z.div_mod v 256); lia| |lia]. split; [apply Z.div_pos; lia|apply Z.div_lt_upper_bound; lia].
Qed.

Lemma f32s_nth : forall i bs, 4 * (i + 1) <= length bs -> nth_error (f32s_of_bytes bs) i = Some (le_value (firstn 4 (skipn (4 * i) bs))).
Proof.
  induction i as [|i IH]; intros bs H; destruct bs as [|b0 [|b1 [|b2 [|b3 r]]]]; cbn [length] in H; try lia.
  - reflexivity.
  - replace (4 * S i) with (4 + 4 * i) by lia. cbn [f32s_of_bytes nth_error Nat.add skipn]. apply IH. lia.
Qed.

Lemma flat_skipn : forall i (l : list f32), skipn (4 * i) (flat_map f32_bytes l) = flat_map f32_bytes (skipn i l).
Proof.
  induction i as [|i IH]; intros l; [reflexivity|]. destruct l as [|v l]; [now rewrite !skipn_nil|].
  replace (4 * S i) with (4 + 4 * i) by lia. cbn [flat_map skipn]. rewrite <- IH. reflexivity.
Qed.

Lemma flat_nth (l : list f32) i v : nth_error l i = Some v -> firstn 4 (skipn (4 * i) (flat_map f32_bytes l)) = f32_bytes v.
Proof.
  intros H. rewrite flat_skipn. apply nth_error_split in H as (l1 & l2 & -> & <-).
  rewrite skipn_app, skipn_all, Nat.sub_diag. cbn [skipn app flat_map]. reflexivity.
Qed.

(** Bytes that were delivered on top of what was there: new values as far as all their bytes have come, old values from
    the first that got none. *)
Lemma mixed_values (new old : list f32) j : length new = length old -> Forall f32_range new -> Forall f32_range old -> j <= 4 * length new ->
  let got := firstn j (flat_map f32_bytes new) in
  let l := f32s_of_bytes (got ++ skipn (length got) (flat_map f32_bytes old)) in
  length l = length old /\
  (forall i, 4 * (i + 1) <= j -> nth_error l i = nth_error new i) /\
  (forall i, j <= 4 * i -> nth_error l i = nth_error old i).
Proof.
  intros El Rn Ro Hj got l. assert (Lg : length got = j) by (unfold got; rewrite firstn_length, flat_bytes_length; lia).
  assert (Lb : length (got ++ skipn (length got) (flat_map f32_bytes old)) = 4 * length old) by (rewrite app_length, skipn_length, flat_bytes_length, Lg; lia).
  assert (Ll : length l = length old).
  { unfold l. rewrite (f32s_of_bytes_length _ _ (Nat.le_refl _)), Lb, Nat.mul_comm. now rewrite Nat.div_mul. }
  assert (V : forall v, f32_range v -> le_value (f32_bytes v) = v).
  { intros v Hv. unfold f32_bytes. apply le_value_bytes. change (256 ^ Z.of_nat 4)%Z with (2 ^ 32)%Z. exact Hv. }
  split; [exact Ll|]. split; intros i Hi.
  - destruct (nth_error new i) as [v|] eqn:E; [|apply nth_error_None in E; lia].
    unfold l. rewrite f32s_nth by (rewrite Lb; lia). f_equal.
    assert (E2 : firstn 4 (skipn (4 * i) (got ++ skipn (length got) (flat_map f32_bytes old))) = firstn 4 (skipn (4 * i) (flat_map f32_bytes new))).
    { rewrite skipn_app, firstn_app, skipn_length, Lg. replace (4 - (j - 4 * i)) with 0 by lia. rewrite firstn_O, app_nil_r.
      unfold got. rewrite skipn_firstn_comm, firstn_firstn, Nat.min_l by lia. reflexivity. }
    rewrite E2, (flat_nth new i v E). apply V. rewrite Forall_forall in Rn. apply Rn. eapply nth_error_In. exact E.
  - destruct (nth_error old i) as [v|] eqn:E; [|apply nth_error_None in E; apply nth_error_None; lia].
    assert (i < length old) by (apply nth_error_Some; congruence).
    unfold l. rewrite f32s_nth by (rewrite Lb; lia). f_equal.
    rewrite skipn_app, (skipn_all2 got) by lia. cbn [app]. rewrite Lg.
    assert (E2 : skipn (4 * i - j) (skipn j (flat_map f32_bytes old)) = skipn (4 * i) (flat_map f32_bytes old)).
    { rewrite skipn_twice. f_equal. lia. }
    rewrite E2, (flat_nth old i v E). apply V. rewrite Forall_forall in Ro. apply Ro. eapply nth_error_In. exact E.
Qed.

Lemma serialize_parts t : non_empty t -> wf t -> exists l, data t = Some l /\ length l = elements t /\ 0 < elements t /\
  length (serialize t) = 32 + 4 * elements t /\
  serialize t = (u64_bytes (Z.of_nat (samples t)) ++ u64_bytes (Z.of_nat (width t)) ++ u64_bytes (Z.of_nat (height t))) ++
    u64_bytes (Z.of_nat (maps t)) ++ flat_map f32_bytes l.
Proof.
  intros N [He W]. unfold non_empty in N. destruct (data t) as [l|] eqn:D; [|congruence]. destruct W as [Hl P]. exists l.
  assert (E : serialize t = (u64_bytes (Z.of_nat (samples t)) ++ u64_bytes (Z.of_nat (width t)) ++ u64_bytes (Z.of_nat (height t))) ++
    u64_bytes (Z.of_nat (maps t)) ++ flat_map f32_bytes l).
  { unfold serialize. rewrite D. destruct (Nat.ltb_spec 0 (elements t)); [|lia]. now rewrite <- !app_assoc. }
  repeat split; auto. rewrite E, !app_length, flat_bytes_length. unfold u64_bytes. rewrite !le_bytes_length. lia.
Qed.

(** The header ends inside the first three sizes, or before the fourth: an empty tensor. *)
Lemma deserialize_cut_header junk t t0 k : non_empty t -> wf t -> sizes_fit t -> wf t0 -> k <= 24 ->
  exists s', deserialize junk t0 false (st (firstn k (serialize t))) = Ok (empty_tensor, s') /\ eofbit s' = true /\ good s' = false.
Proof.
  intros N W (S1 & S2 & S3 & S4) W0 Hk. destruct (serialize_parts t N W) as (l & _ & _ & _ & _ & ->).
  assert (L : forall v, length (u64_bytes v) = 8) by (intros; apply le_bytes_length).
  assert (Z0 : forall a b c s s', (let t1 := resize junk t0 a b c 0 in
     if (0 <? a * 0 * b * c) && negb false then l <- buffer t1 ;; let '(l', s5) := read_into l s in Ok (with_data t1 l', s5)
     else Ok (t1, s')) = Ok (empty_tensor, s')).
  { intros. rewrite !Nat.mul_0_r. cbn [Nat.mul Nat.ltb Nat.leb andb]. rewrite resize_zero; auto. rewrite !Nat.mul_0_r. reflexivity. }
  set (B := u64_bytes (Z.of_nat (maps t)) ++ flat_map f32_bytes l) in *.
  rewrite firstn_app. rewrite !app_length, !L. replace (k - (8 + (8 + 8))) with 0 by lia. rewrite firstn_O, app_nil_r. clear B.
  destruct (Nat.le_gt_cases 24 k) as [G|G].
  { rewrite firstn_all2 by (rewrite !app_length, !L; lia). unfold deserialize. rewrite !read_u64_app by auto.
    rewrite <- (app_nil_r (u64_bytes (Z.of_nat (height t)))), read_u64_app by auto.
    change (read_u64 (st [])) with (0, mkIS [] true true). eexists. split; [apply Z0|auto]. }
  destruct (Nat.le_gt_cases 16 k) as [G2|G2].
  { rewrite firstn_app, L. rewrite (firstn_all2 (u64_bytes (Z.of_nat (samples t)))) by (rewrite L; lia).
    rewrite firstn_app, L. rewrite (firstn_all2 (u64_bytes (Z.of_nat (width t)))) by (rewrite L; lia).
    unfold deserialize. rewrite !read_u64_app by auto. rewrite read_u64_short by (rewrite firstn_length, L; lia). rewrite read_u64_done.
    eexists. split; [apply Z0|auto]. }
  destruct (Nat.le_gt_cases 8 k) as [G3|G3].
  { rewrite firstn_app, L. rewrite (firstn_all2 (u64_bytes (Z.of_nat (samples t)))) by (rewrite L; lia).
    rewrite firstn_app, L. replace (k - 8 - 8) with 0 by lia. rewrite firstn_O, app_nil_r.
    unfold deserialize. rewrite !read_u64_app by auto. rewrite read_u64_short by (rewrite firstn_length, L; lia). rewrite !read_u64_done.
    eexists. split; [apply Z0|auto]. }
  rewrite firstn_app, L. replace (k - 8) with 0 by lia. rewrite firstn_O, app_nil_r.
  unfold deserialize. rewrite read_u64_short by (rewrite firstn_length, L; lia). rewrite !read_u64_done.
  eexists. split; [apply Z0|auto].
Qed.

(** The cut is behind the third size, and the bytes of the fourth that are there tell its value. *)
Lemma deserialize_cut_data junk t t0 old l k : f32_tensor t -> sizes_fit t -> data t = Some l -> wf t0 ->
  data (resize junk t0 (samples t) (width t) (height t) (maps t)) = Some old -> Forall f32_range old ->
  24 < k -> k < length (serialize t) -> (Z.of_nat (maps t) < 256 ^ Z.of_nat (k - 24))%Z ->
  exists l' s', deserialize junk t0 false (st (firstn k (serialize t))) = Ok (mkTensor (samples t) (width t) (height t) (maps t) (elements t) (Some l'), s') /\
    s' = mkIS [] true true /\ length l' = elements t /\
    (forall i, 32 + 4 * (i + 1) <= k -> nth_error l' i = nth_error l i) /\
    (forall i, k <= 32 + 4 * i -> nth_error l' i = nth_error old i).
Proof.
  intros [W F] (S1 & S2 & S3 & S4) D W0 Do Ro Hk Hlen Hm. assert (N : non_empty t) by (unfold non_empty; congruence).
  destruct (serialize_parts t N W) as (l0 & D0 & Hl & P & Ls & Es). rewrite D in D0. injection D0 as <-. rewrite D in F.
  assert (L : forall v, length (u64_bytes v) = 8) by (intros; apply le_bytes_length).
  pose proof (wf_resize junk t0 (samples t) (width t) (height t) (maps t) W0) as W1.
  destruct (resize_data junk t0 (samples t) (width t) (height t) (maps t)) as (A & B & C & E & G); [rewrite (proj1 W) in P; lia|].
  assert (He : elements (resize junk t0 (samples t) (width t) (height t) (maps t)) = elements t) by (rewrite (proj1 W1), A, B, C, E, (proj1 W); reflexivity).
  destruct (wf_data_dims _ _ W1 Do) as (Hlo & _). rewrite He in Hlo.
  assert (Hn : samples t * maps t * width t * height t = elements t) by (rewrite (proj1 W); ring).
  set (j := k - 32).
  destruct (mixed_values l old j) as (M1 & M2 & M3); [lia|exact F|exact Ro|unfold j; lia|].
  set (got := firstn j (flat_map f32_bytes l)) in *.
  exists (f32s_of_bytes (got ++ skipn (length got) (flat_map f32_bytes old))). exists (mkIS [] true true).
  split; [|split; [reflexivity|split; [lia|split; intros i Hi; [apply M2|apply M3]; unfold j; lia]]].
  rewrite Es. rewrite firstn_app. rewrite (firstn_all2 (_ ++ _)) by (rewrite !app_length, !L; lia). rewrite !app_length, !L. replace (k - (8 + (8 + 8))) with (k - 24) by lia.
  rewrite <- !app_assoc. unfold deserialize. rewrite !read_u64_app by auto. rewrite firstn_app, L.
  set (t1 := resize junk t0 (samples t) (width t) (height t) (maps t)) in *.
  assert (K : forall s4, is_read (4 * length old) s4 = (got, mkIS [] true true) ->
     (let n := samples t * maps t * width t * height t in
      if (0 <? n) && negb false then l <- buffer t1 ;; let '(l', s5) := read_into l s4 in Ok (with_data t1 l', s5)
      else Ok (t1, s4)) =
     Ok (mkTensor (samples t) (width t) (height t) (maps t) (elements t) (Some (f32s_of_bytes (got ++ skipn (length got) (flat_map f32_bytes old)))), mkIS [] true true)).
  { intros s4 R. cbv zeta. rewrite Hn. rewrite (proj2 (Nat.ltb_lt 0 (elements t)) P). cbn [negb andb]. unfold buffer. rewrite Do. cbn [bind].
    unfold read_into. rewrite R. unfold with_data. rewrite He, A, B, C, E. reflexivity. }
  destruct (Nat.le_gt_cases 32 k) as [G2|G2].
  - rewrite (firstn_all2 (u64_bytes _)) by (rewrite L; lia). rewrite read_u64_app by auto. apply K.
    replace (k - 24 - 8) with j by (unfold j; lia). fold got. apply is_read_short. unfold got. rewrite firstn_length, flat_bytes_length. unfold j. lia.
  - replace (k - 24 - 8) with 0 by lia. rewrite firstn_O, app_nil_r. rewrite read_u64_short by (rewrite firstn_length, L; lia).
    unfold u64_bytes. rewrite le_value_short by lia. rewrite Nat2Z.id. apply K.
    unfold got. replace j with 0 by (unfold j; lia). rewrite firstn_O. reflexivity.
Qed.

(** ** Parameters *)
Lemma load_layer_stopped junk ps s : good s = false -> load_layer junk ps s = Ok (ps, s).
Proof. intros G. destruct ps; [reflexivity|]. cbn [load_layer]. now rewrite G. Qed.

Lemma load_layer_app junk : forall a b s, load_layer junk (a ++ b) s =
  (r <- load_layer junk a s ;; r' <- load_layer junk b (snd r) ;; Ok (fst r ++ fst r', snd r')).
Proof.
  induction a as [|t a IH]; intros b s.
  - cbn [app load_layer bind fst snd]. destruct (load_layer junk b s) as [[x y]| |]; reflexivity.
  - cbn [app load_layer]. destruct (negb (good s) || eofbit s) eqn:G.
    + cbn [bind fst snd]. rewrite load_layer_stopped; [reflexivity|]. unfold good in *. destruct (eofbit s), (failbit s); cbn in *; congruence.
    + destruct (deserialize junk t false s) as [[t' s']| |]; cbn [bind]; try reflexivity. rewrite IH.
      destruct (load_layer junk a (is_peek s')) as [[x y]| |]; cbn [bind fst snd]; try reflexivity.
      destruct (load_layer junk b y) as [[x' y']| |]; reflexivity.
Qed.

Lemma load_layer_length junk : forall ps s ps' s', load_layer junk ps s = Ok (ps', s') -> length ps' = length ps.
Proof.
  induction ps as [|t ps IH]; intros s ps' s' E; cbn [load_layer] in E; [injection E as <- _; reflexivity|].
  destruct (negb (good s) || eofbit s); [injection E as <- _; reflexivity|].
  destruct (deserialize junk t false s) as [[t1 s1]| |]; cbn [bind] in E; try discriminate.
  destruct (load_layer junk ps (is_peek s1)) as [[x y]| |] eqn:E2; cbn [bind] in E; try discriminate. injection E as <- _. cbn. f_equal. eauto.
Qed.

Lemma load_layers_flat junk : forall ls s flat s', load_layer junk (concat ls) s = Ok (flat, s') ->
  exists ls', load_layers junk ls s = Ok (ls', s') /\ concat ls' = flat /\ map (@length _) ls' = map (@length _) ls.
Proof.
  induction ls as [|ps ls IH]; intros s flat s' E.
  - cbn in E. injection E as <- <-. exists []. auto.
  - cbn [concat] in E. rewrite load_layer_app in E. cbn [load_layers].
    destruct (load_layer junk ps s) as [[x y]| |] eqn:E1; cbn [bind fst snd] in E; try discriminate. cbn [bind].
    destruct (load_layer junk (concat ls) y) as [[x' y']| |] eqn:E2; cbn [bind fst snd] in E; try discriminate. injection E as <- <-.
    destruct (IH y x' y' E2) as (ls' & -> & <- & M). cbn [bind]. exists (x :: ls'). split; [reflexivity|]. split; [reflexivity|]. cbn [map]. rewrite M. f_equal.
    eapply load_layer_length. exact E1.
Qed.

Lemma load_layer_any junk : forall ps s, Forall wf ps -> sane s -> exists ps' s', load_layer junk ps s = Ok (ps', s') /\ Forall wf ps'.
Proof.
  induction ps as [|t ps IH]; intros s W H; cbn [load_layer]; [eauto|]. inversion W as [|? ? W1 W2]; subst.
  destruct (negb (good s) || eofbit s); [eauto|].
  destruct (deserialize_any junk t s W1 H) as (t' & s' & -> & Wt & Hs & _). cbn [bind].
  destruct (IH (is_peek s') W2 (proj1 (is_peek_sane s' Hs))) as (ps' & s'' & -> & Wp). cbn [bind]. eexists. eexists. split; [reflexivity|]. now constructor.
Qed.

Lemma load_layer_prefix junk : forall params ps tail, tail <> [] -> length params = length ps -> Forall wf ps -> Forall storable params ->
  load_layer junk ps (st (flat_map serialize params ++ tail)) = Ok (params, st tail).
Proof.
  induction params as [|q params IH]; intros [|t ps] tail Ht L W S; cbn [length] in L; try discriminate; [reflexivity|].
  inversion W; subst. inversion S as [|? ? [F1 F2] S2]; subst. cbn [load_layer flat_map]. rewrite <- app_assoc.
  change (negb (good (st (serialize q ++ flat_map serialize params ++ tail))) || eofbit (st (serialize q ++ flat_map serialize params ++ tail))) with false. cbn iota.
  rewrite deserialize_serialize by assumption. cbn [bind].
  replace (is_peek (st (flat_map serialize params ++ tail))) with (st (flat_map serialize params ++ tail)).
  - rewrite IH; auto.
  - unfold is_peek, good, st. cbn [eofbit failbit negb andb rest]. destruct (flat_map serialize params ++ tail) eqn:E; [|reflexivity].
    apply app_eq_nil in E as [_ E]. contradiction.
Qed.

(** Proofs about [Codec_Model]. *)
From Verif Require Import Base BaseFacts Float32 Bytes_Model Tensor_Model Tensor_Spec Codec_Model Codec_Spec Stream_Spec.
Local Open Scope Z_scope.

(** ** Bytes *)
Lemma le_value_bytes n v : 0 <= v < 256 ^ Z.of_nat n -> le_value (le_bytes n v) = v.
Proof.
  revert v; induction n as [|n IH]; intros v H; cbn [le_bytes le_value].
  - change (256 ^ Z.of_nat 0) with 1 in H. lia.
  - rewrite Nat2Z.inj_succ, Z.pow_succ_r in H by lia.
    rewrite IH.
    + pose proof (Z.div_mod v 256). lia.
    + split; [apply Z.div_pos; lia|]. apply Z.div_lt_upper_bound; lia.
Qed.

Lemma le_bytes_length n v : length (le_bytes n v) = n.
Proof. revert v; induction n; intros; simpl; auto. Qed.

Lemma le_bytes_is_byte n v b : In b (le_bytes n v) -> is_byte b.
Proof.
  revert v; induction n; intros v H; simpl in H; [contradiction|].
  destruct H as [<-|H]; eauto. apply Z.mod_pos_bound. lia.
Qed.

Lemma f32_bytes_cons v : exists b0 b1 b2 b3, f32_bytes v = [b0; b1; b2; b3].
Proof. unfold f32_bytes. simpl. eauto. Qed.

Lemma f32s_of_bytes_app v bs :
  f32_range v -> f32s_of_bytes (f32_bytes v ++ bs) = v :: f32s_of_bytes bs.
Proof.
  intros H. pose proof (le_value_bytes 4 v H) as E.
  unfold f32_bytes. cbn [le_bytes app f32s_of_bytes]. f_equal. exact E.
Qed.

Lemma f32s_of_bytes_flat l : Forall f32_range l -> f32s_of_bytes (flat_map f32_bytes l) = l.
Proof.
  induction 1 as [|v l Hv _ IH]; [reflexivity|].
  cbn [flat_map]. rewrite f32s_of_bytes_app by auto. now rewrite IH.
Qed.

Lemma flat_bytes_length l : length (flat_map f32_bytes l) = (4 * length l)%nat.
Proof. induction l as [|v l IH]; [reflexivity|]. cbn [flat_map]. rewrite app_length, IH. simpl. lia. Qed.

(** ** Decoding a token sequence *)
Lemma run_concat len (b0 b1 b2 b3 : byte) :
  for_ len (fun _ : nat => [b0; b1; b2; b3]) = concat (repeat [b0; b1; b2; b3] len).
Proof.
  unfold for_. generalize 0%nat. induction len as [|len IH]; intros s; [reflexivity|].
  cbn [seq flat_map repeat concat]. now rewrite IH.
Qed.

Lemma decode_token cap t rest :
  token_ok t ->
  decode_loop cap (token_bytes t ++ rest) =
  if (length (token_output t) <=? cap)%nat then
    o <- decode_loop (cap - length (token_output t)) rest ;; Ok (token_output t ++ o)
  else UB.
Proof.
  intros Hok. destruct t as [b| |len b0 b1 b2 b3]; simpl in Hok.
  - simpl. destruct (Z.eqb_spec b rl_marker) as [E|E]; [unfold rl_marker in E; congruence|].
    destruct cap; simpl; auto. now rewrite Nat.sub_0_r.
  - simpl. destruct cap; simpl; auto. now rewrite Nat.sub_0_r.
  - cbn [token_bytes app]. cbn [decode_loop].
    replace (88 =? rl_marker) with true by reflexivity.
    replace (89 =? rl_doublemarker) with false by reflexivity.
    replace (89 =? rl_rle) with true by reflexivity. 
    cbn [token_output]. rewrite <- run_concat.
    destruct (Z.eqb_spec (Z.of_nat len) 0) as [E|E].
    + assert (len = 0%nat) by lia. subst. simpl. rewrite Nat.sub_0_r. now destruct (decode_loop cap rest).
    + rewrite Nat2Z.id. reflexivity.
Qed.

Lemma decode_tokens ts : forall cap rest,
  Forall token_ok ts ->
  decode_loop cap (encoded ts ++ rest) =
  if (length (decoded ts) <=? cap)%nat then
    o <- decode_loop (cap - length (decoded ts)) rest ;; Ok (decoded ts ++ o)
  else UB.
Proof.
  induction ts as [|t ts IH]; intros cap rest Hok.
  - simpl. rewrite Nat.sub_0_r. now destruct (decode_loop cap rest).
  - inversion Hok; subst. unfold encoded, decoded in *. cbn [flat_map]. rewrite <- app_assoc.
    rewrite decode_token by auto. rewrite app_length.
    destruct (Nat.leb_spec (length (token_output t)) cap) as [H|H].
    + rewrite IH by auto.
      destruct (Nat.leb_spec (length (flat_map token_output ts)) (cap - length (token_output t))) as [H'|H'].
      * destruct (Nat.leb_spec (length (token_output t) + length (flat_map token_output ts)) cap); [|lia].
        rewrite Nat.sub_add_distr.
        destruct (decode_loop _ rest); simpl; auto. now rewrite app_assoc.
      * destruct (Nat.leb_spec (length (token_output t) + length (flat_map token_output ts)) cap); [lia|].
        reflexivity.
    + destruct (Nat.leb_spec (length (token_output t) + length (flat_map token_output ts)) cap); [lia|].
      reflexivity.
Qed.

(** Every byte sequence is a token sequence plus a tail. *)
Lemma parse_tokens : forall n input, (length input <= n)%nat -> Forall is_byte input ->
  exists ts tail, input = encoded ts ++ tail /\ Forall token_ok ts /\ inhabited (tail_kind tail).
Proof.
  assert (Hnil : forall tail, tail_kind tail ->
    exists ts tl, tail = encoded ts ++ tl /\ Forall token_ok ts /\ inhabited (tail_kind tl)).
  { intros tail k. exists [], tail. split; [reflexivity|]. split; [constructor|]. now constructor. }
  assert (Hcons : forall t rest, token_ok t ->
    (exists ts tl, rest = encoded ts ++ tl /\ Forall token_ok ts /\ inhabited (tail_kind tl)) ->
    exists ts tl, token_bytes t ++ rest = encoded ts ++ tl /\ Forall token_ok ts /\ inhabited (tail_kind tl)).
  { intros t rest Ht (ts & tl & -> & Hts & Hk). exists (t :: ts), tl.
    split; [unfold encoded; cbn [flat_map]; now rewrite app_assoc|]. split; auto. }
  induction n as [|n IH]; intros input Hn Hb.
  - destruct input; [|simpl in Hn; lia]. apply Hnil. constructor.
  - destruct input as [|c rest]; [apply Hnil; constructor|].
    simpl in Hn. inversion Hb as [|? ? Hc Hrest]; subst.
    destruct (Z.eq_dec c 88) as [->|Hc88].
    2:{ apply (Hcons (Literal c) rest Hc88). apply IH; [lia|auto]. }
    destruct rest as [|d rest1]; [apply Hnil; constructor|].
    inversion Hrest as [|? ? Hd Hrest1]; subst. simpl in Hn.
    destruct (Z.eq_dec d 88) as [->|Hd88].
    { apply (Hcons Marker rest1 I). apply IH; [lia|auto]. }
    destruct (Z.eq_dec d 89) as [->|Hd89].
    2:{ apply Hnil. now constructor. }
    destruct rest1 as [|len rest2]; [apply Hnil; constructor|].
    inversion Hrest1 as [|? ? Hlen Hrest2]; subst. simpl in Hn.
    assert (Hshort : (length rest2 < 4)%nat -> exists ts tail,
      88 :: 89 :: len :: rest2 = encoded ts ++ tail /\ Forall token_ok ts /\ inhabited (tail_kind tail)).
    { intros Hs. apply Hnil. destruct (Z.eq_dec len 0) as [->|]; now constructor. }
    destruct rest2 as [|b0 [|b1 [|b2 [|b3 rest3]]]]; try (apply Hshort; simpl; lia).
    unfold is_byte in Hlen.
    assert (Hok : token_ok (Run (Z.to_nat len) b0 b1 b2 b3)) by (simpl; lia).
    pose proof (Hcons _ rest3 Hok) as H. cbn [token_bytes app] in H. rewrite Z2Nat.id in H by lia.
    apply H. apply IH.
    { simpl in Hn. lia. }
    { do 4 (inversion Hrest2 as [|? ? ? Hrest2']; subst; clear Hrest2; rename Hrest2' into Hrest2). auto. }
Qed.

Definition tail_outcome {tail} (k : tail_kind tail) : res (list byte) :=
  match k with
  | Complete | EmptyRun _ _ => Ok []
  | CutEscape | CutRunLength | CutRun _ _ _ _ => UB
  | BadEscape _ _ _ _ => Fatal
  end.

Lemma decode_tail cap tail (k : tail_kind tail) : decode_loop cap tail = tail_outcome k.
Proof.
  destruct k as [|bs Hb| | |len bs Hl Hb|c bs H1 H2]; simpl; auto.
  - destruct bs as [|? [|? [|? [|? ?]]]]; simpl in Hb; auto; lia.
  - destruct (Z.eqb_spec len 0) as [E|_]; [congruence|].
    destruct bs as [|? [|? [|? [|? ?]]]]; simpl in Hb; auto; lia.
  - unfold rl_doublemarker, rl_rle.
    destruct (Z.eqb_spec c 88); [congruence|]. destruct (Z.eqb_spec c 89); [congruence|]. reflexivity.
Qed.

(** ** The encoder *)
Lemma feq_same_value a b : f32_range a -> f32_range b -> feq a b = true -> same_value a b.
Proof.
  unfold f32_range, feq, same_value, is_zero, f32_zero, f32_neg_zero, f32_key, f32_mag.
  intros Ha Hb H. rewrite !andb_true_iff, Z.eqb_eq in H. destruct H as [_ H].
  destruct (Z.ltb_spec a (2 ^ 31)) as [Ha1|Ha1]; destruct (Z.ltb_spec b (2 ^ 31)) as [Hb1|Hb1].
  - rewrite !Z.mod_small in H by lia. left. lia.
  - replace b with ((b - 2 ^ 31) + 1 * 2 ^ 31) in H by ring.
    rewrite Z.mod_add, !Z.mod_small in H by lia. right. lia.
  - replace a with ((a - 2 ^ 31) + 1 * 2 ^ 31) in H by ring.
    rewrite Z.mod_add, !Z.mod_small in H by lia. right. lia.
  - replace b with ((b - 2 ^ 31) + 1 * 2 ^ 31) in H by ring.
    replace a with ((a - 2 ^ 31) + 1 * 2 ^ 31) in H by ring.
    rewrite !Z.mod_add, !Z.mod_small in H by lia. left. lia.
Qed.

Lemma same_value_refl a : same_value a a.
Proof. now left. Qed.
Lemma same_value_trans a b c : same_value a b -> same_value b c -> same_value a c.
Proof. intros [->|[H1 H2]] [->|[H3 H4]]; unfold same_value; auto. Qed.
Lemma same_value_sym a b : same_value a b -> same_value b a.
Proof. intros [->|[H1 H2]]; unfold same_value; auto. Qed.

(** Tokens for a literal symbol. *)
Definition byte_token (c : byte) : token := if c =? 88 then Marker else Literal c.
Lemma byte_token_ok c : token_ok (byte_token c).
Proof. unfold byte_token. destruct (Z.eqb_spec c 88); simpl; auto. Qed.
Lemma byte_token_bytes bs : encoded (map byte_token bs) = flat_map emit_byte bs.
Proof.
  induction bs as [|c bs IH]; [reflexivity|]. unfold encoded in *. cbn [map flat_map]. rewrite IH.
  unfold byte_token, emit_byte, rl_marker. now destruct (c =? 88).
Qed.
Lemma byte_token_output bs : decoded (map byte_token bs) = bs.
Proof.
  induction bs as [|c bs IH]; [reflexivity|]. unfold decoded in *. cbn [map flat_map]. rewrite IH.
  unfold byte_token. destruct (Z.eqb_spec c 88); simpl; congruence.
Qed.

Lemma encoded_app a b : encoded (a ++ b) = encoded a ++ encoded b.
Proof. apply flat_map_app. Qed.
Lemma decoded_app a b : decoded (a ++ b) = decoded a ++ decoded b.
Proof. apply flat_map_app. Qed.

Lemma flat_map_repeat v n : flat_map f32_bytes (repeat v n) = concat (repeat (f32_bytes v) n).
Proof. induction n as [|n IH]; [reflexivity|]. cbn [repeat flat_map concat]. now rewrite IH. Qed.

Lemma emit_tokens last running :
  (running <= 253)%nat ->
  exists ts, emit last running = encoded ts /\ Forall token_ok ts /\
    decoded ts = flat_map f32_bytes (repeat last running) /\
    (length (emit last running) <= 8 * running)%nat.
Proof.
  intros H. unfold emit.
  destruct (Nat.ltb_spec 0 running) as [H0|H0]; destruct (Nat.ltb_spec running rl_min) as [H1|H1];
    cbn [andb]; unfold rl_min in *.
  - assert (running = 1%nat) by lia. subst.
    exists (map byte_token (f32_bytes last)).
    unfold for_. cbn [seq flat_map repeat]. rewrite !app_nil_r.
    split; [now rewrite byte_token_bytes|]. split.
    { apply Forall_forall. intros t Ht. apply in_map_iff in Ht as (c & <- & _). apply byte_token_ok. }
    split; [apply byte_token_output|].
    assert (L : forall bs, (length (flat_map emit_byte bs) <= 2 * length bs)%nat).
    { induction bs as [|c bs IH]; [simpl; lia|]. cbn [flat_map]. rewrite app_length.
      unfold emit_byte at 1. destruct (c =? rl_marker); simpl in *; lia. }
    specialize (L (f32_bytes last)). unfold f32_bytes in L at 2. rewrite le_bytes_length in L. lia.
  - destruct (Nat.leb_spec 2 running); [|lia].
    destruct (f32_bytes_cons last) as (b0 & b1 & b2 & b3 & E).
    exists [Run running b0 b1 b2 b3]. split; [|split; [|split]].
    + rewrite E. unfold encoded. cbn [flat_map token_bytes]. rewrite app_nil_r.
      unfold rl_marker, rl_rle. cbn [app]. do 2 f_equal.
      f_equal. change 255 with (Z.ones 8). rewrite Z.land_ones by lia.
      apply Z.mod_small. change (2 ^ 8) with 256. lia.
    + constructor; [simpl; lia|constructor].
    + unfold decoded. cbn [flat_map token_output]. rewrite app_nil_r, flat_map_repeat, E. reflexivity.
    + rewrite app_length. unfold f32_bytes. rewrite le_bytes_length. simpl. lia.
  - exists []. destruct (Nat.leb_spec 2 running); [lia|]. assert (running = 0%nat) by lia. subst.
    repeat split; auto.
  - exists []. lia.
Qed.

(** Invariant of the encoding loop after the symbols [p]. *)
Definition enc_inv (p : list f32) (st : f32 * nat * list byte) : Prop :=
  let '(last, running, out) := st in
  (running < 253)%nat /\ f32_range last /\ ((0 < running)%nat -> In last p) /\
  exists q ts, out = encoded ts /\ Forall token_ok ts /\ decoded ts = flat_map f32_bytes q /\
    (length out <= 8 * length q)%nat /\
    Forall2 same_value p (q ++ repeat last running) /\ Forall (fun v => In v p) q.

Lemma Forall2_repeat p v n w :
  Forall2 same_value p (repeat v n) -> same_value v w -> Forall2 same_value p (repeat w n).
Proof.
  revert p; induction n as [|n IH]; intros p H Hvw; simpl in *; inversion H; subst; constructor.
  - eapply same_value_trans; eauto.
  - auto.
Qed.

Lemma repeat_snoc {A} (v : A) n : repeat v (S n) = repeat v n ++ [v].
Proof. induction n as [|n IH]; [reflexivity|]. cbn [repeat app] in *. now rewrite <- IH. Qed.

Lemma enc_step p st c :
  enc_inv p st -> f32_range c -> enc_inv (p ++ [c]) (compress_step st c).
Proof.
  destruct st as [[last running] out].
  intros (Hr & Hlast & Hin & q & ts & Hout & Hts & Hdec & Hlen & Hrel & Hq) Hc.
  assert (Hq' : Forall (fun v => In v (p ++ [c])) q).
  { eapply Forall_impl; [|exact Hq]. intros v Hv. apply in_or_app. auto. }
  unfold compress_step.
  destruct (feq c last) eqn:E; simpl negb; cbn [orb].
  - pose proof (feq_same_value _ _ Hc Hlast E) as Hsv.
    assert (Hq1 : Forall2 same_value (p ++ [c]) (q ++ repeat last (S running))).
    { rewrite repeat_snoc, app_assoc. apply Forall2_app; auto. }
    destruct (Nat.eqb_spec (S running) rl_max) as [Em|Em].
    + unfold enc_inv. unfold rl_max in Em.
      split; [lia|]. split; [auto|]. split; [lia|].
      destruct (emit_tokens last (S running)) as (ts2 & He & Hts2 & Hd2 & Hl2); [lia|].
      exists (q ++ repeat last (S running)), (ts ++ ts2).
      split; [now rewrite encoded_app, Hout, He|].
      split; [now apply Forall_app|].
      split; [now rewrite decoded_app, Hdec, Hd2, flat_map_app|].
      split; [rewrite !app_length, repeat_length; lia|].
      split; [cbn [repeat]; now rewrite app_nil_r|].
      apply Forall_app. split; auto. apply Forall_forall. intros v Hv. apply repeat_spec in Hv. subst v.
      destruct running; [lia|]. apply in_or_app. left. apply Hin. lia.
    + unfold enc_inv. unfold rl_max in Em.
      split; [lia|]. split; [auto|]. split; [intros _; apply in_or_app; right; now left|].
      exists q, ts. split; [auto|]. split; [auto|]. split; [auto|]. split; [auto|]. split; [|auto].
      apply Forall2_app_inv_r in Hq1 as (p1 & p2 & H1 & H2 & ->).
      apply Forall2_app; [auto|].
      eapply Forall2_repeat; [exact H2|]. now apply same_value_sym.
  - destruct (Nat.eqb_spec running rl_max) as [Em|Em]; [unfold rl_max in Em; lia|].
    unfold enc_inv. split; [lia|]. split; [auto|].
    split; [intros _; apply in_or_app; right; now left|].
    destruct (emit_tokens last running) as (ts2 & He & Hts2 & Hd2 & Hl2); [lia|].
    exists (q ++ repeat last running), (ts ++ ts2).
    split; [now rewrite encoded_app, Hout, He|].
    split; [now apply Forall_app|].
    split; [now rewrite decoded_app, Hdec, Hd2, flat_map_app|].
    split; [rewrite !app_length, repeat_length; lia|].
    split; [apply Forall2_app; auto; cbn [repeat]; constructor; [apply same_value_refl|constructor]|].
    apply Forall_app. split; auto. apply Forall_forall. intros v Hv.
    destruct running; [contradiction|]. apply repeat_spec in Hv. subst v.
    apply in_or_app. left. apply Hin. lia.
Qed.

Lemma enc_fold l : forall p st, Forall f32_range l -> enc_inv p st -> enc_inv (p ++ l) (fold_left compress_step l st).
Proof.
  induction l as [|c l IH]; intros p st Hl Hi; simpl.
  - now rewrite app_nil_r.
  - inversion Hl; subst. replace (p ++ c :: l) with ((p ++ [c]) ++ l) by now rewrite <- app_assoc.
    apply IH; auto. now apply enc_step.
Qed.

Lemma compress_spec l :
  Forall f32_range l ->
  exists l' ts, compress_data l = encoded ts /\ Forall token_ok ts /\
    decoded ts = flat_map f32_bytes l' /\
    Forall2 same_value l l' /\ Forall (fun v => In v l) l' /\
    (length (compress_data l) <= 8 * length l)%nat.
Proof.
  intros Hl.
  assert (H0 : enc_inv [] (0, 0%nat, [])).
  { unfold enc_inv, f32_range. split; [lia|]. split; [lia|]. split; [lia|].
    exists [], []. repeat split; auto; try constructor. }
  pose proof (enc_fold l [] _ Hl H0) as H. cbn [app] in H.
  unfold compress_data. destruct (fold_left compress_step l (0, 0%nat, [])) as [[last running] out].
  destruct H as (Hr & Hlast & Hin & q & ts & Hout & Hts & Hdec & Hlen & Hrel & Hq).
  destruct (emit_tokens last running) as (ts2 & He & Hts2 & Hd2 & Hl2); [lia|].
  exists (q ++ repeat last running), (ts ++ ts2).
  split; [now rewrite encoded_app, Hout, He|].
  split; [now apply Forall_app|].
  split; [now rewrite decoded_app, Hdec, Hd2, flat_map_app|].
  split; [auto|]. split.
  - apply Forall_app. split; auto. apply Forall_forall. intros v Hv.
    destruct running; [contradiction|]. apply repeat_spec in Hv. subst v. apply Hin. lia.
  - pose proof (Forall2_length Hrel) as HL. rewrite app_length, repeat_length in HL.
    rewrite app_length. lia.
Qed.

Lemma reported_elements_exact o : (length o mod 4 = 0)%nat -> Z.of_nat (length o) < 2 ^ 32 ->
  reported_elements o = Z.of_nat (length o / 4).
Proof.
  intros H1 H2. unfold reported_elements. rewrite Z.mod_small by lia.
  now rewrite Nat2Z.inj_div.
Qed.

Lemma roundtrip l :
  Forall f32_range l -> Z.of_nat (length (compress_data l)) < 2 ^ 32 ->
  exists l', Forall2 same_value l l' /\ Forall (fun v => In v l) l' /\
    decompress_data (4 * length l) (compress_data l) = Ok (flat_map f32_bytes l').
Proof.
  intros Hl Hsz. destruct (compress_spec l Hl) as (l' & ts & Hc & Hts & Hd & Hrel & Hin & _).
  exists l'. split; [auto|]. split; [auto|].
  unfold decompress_data. destruct (Z.leb_spec (2 ^ 32) (Z.of_nat (length (compress_data l)))); [lia|]. rewrite Hc. rewrite <- (app_nil_r (encoded ts)), decode_tokens by auto.
  pose proof (Forall2_length Hrel) as HL.
  assert (HD : length (decoded ts) = (4 * length l)%nat) by (rewrite Hd, flat_bytes_length; lia).
  rewrite HD, Nat.leb_refl. cbn [decode_loop bind]. rewrite app_nil_r, HD.
  replace ((4 * length l) mod 4)%nat with 0%nat; [cbn [Nat.eqb]; now rewrite Hd|].
  rewrite Nat.mul_comm. symmetry. apply Nat.mod_mul. lia.
Qed.

Lemma same_value_identical l l' :
  Forall2 same_value l l' -> Forall (fun v => In v l) l' ->
  ~ (In f32_zero l /\ In f32_neg_zero l) -> l' = l.
Proof.
  intros H Hin Hz.
  assert (G : forall a b, Forall2 same_value a b -> (forall v, In v a -> In v l) ->
              Forall (fun v => In v l) b -> b = a).
  { induction 1 as [|x y a b Hxy _ IH]; intros Ha Hb; [reflexivity|].
    inversion Hb; subst. f_equal.
    - assert (Hx : In x l) by (apply Ha; now left).
      destruct Hxy as [->|[[->| ->] [->| ->]]]; auto; exfalso; tauto.
    - apply IH; auto. intros v Hv. apply Ha. now right. }
  apply G; auto.
Qed.

(** ** Whole tensors *)
Lemma tensor_roundtrip t l :
  f32_tensor t -> data t = Some l -> 8 * Z.of_nat (elements t) < 2 ^ 32 ->
  exists c l', c_compress t = Ok c /\
    c_samples c = samples t /\ c_width c = width t /\ c_height c = height t /\ c_maps c = maps t /\
    c_elements c = elements t /\ c_data c <> [] /\ c_data c = compress_data l /\
    (length (c_data c) <= 8 * elements t)%nat /\
    c_decompress c = Ok (mkTensor (samples t) (width t) (height t) (maps t) (elements t) (Some l')) /\
    Forall2 same_value l l' /\ Forall (fun v => In v l) l'.
Proof.
  intros [Hwf Hr] Hd Hsz. rewrite Hd in Hr. pose proof Hwf as [He Hw]. rewrite Hd in Hw. destruct Hw as [Hl Hp].
  destruct (compress_spec l Hr) as (_ & _ & _ & _ & _ & _ & _ & Hlen).
  assert (Hcl : Z.of_nat (length (compress_data l)) < 2 ^ 32) by lia.
  destruct (roundtrip l Hr Hcl) as (l' & Hrel & Hin & Hdec).
  unfold c_compress. rewrite Hd. cbn [bind].
  destruct (Nat.leb_spec (length (compress_data l)) (2 * elements t * 4 + 2)) as [_|HH]; [|lia].
  pose proof (Forall2_length Hrel) as HL.
  assert (Hn : (samples t * width t * height t * maps t = elements t)%nat) by (rewrite He; ring).
  assert (Hn2 : (samples t * maps t * width t * height t = elements t)%nat) by (rewrite He; ring).
  eexists _, l'. split; [reflexivity|].
  destruct (compress_data l) as [|b bs] eqn:E.
  { exfalso. simpl in Hdec. destruct l' as [|v l']; [simpl in HL; lia|].
    unfold f32_bytes in Hdec. simpl in Hdec. discriminate. }
  cbn [c_resize]. cbn [c_elements c_data c_samples c_width c_height c_maps].
  do 4 (split; [reflexivity|]). split; [exact Hn|]. split; [discriminate|]. split; [auto|].
  split; [rewrite <- Hl; exact Hlen|]. split; [|auto].
  unfold c_decompress. cbn [c_elements c_data c_samples c_width c_height c_maps].
  rewrite Hn, <- Hl, Hdec. cbn [bind].
  assert (HR : reported_elements (flat_map f32_bytes l') = Z.of_nat (length l)).
  { rewrite reported_elements_exact; rewrite flat_bytes_length, Nat.mul_comm.
    - rewrite Nat.div_mul by lia. lia.
    - apply Nat.mod_mul. discriminate.
    - lia. }
  rewrite HR, Z.eqb_refl. unfold resize_prealloc. rewrite Hn2, <- Hl.
  destruct (Nat.eqb_spec (length l) 0); [lia|].
  rewrite f32s_of_bytes_flat; [reflexivity|].
  eapply Forall_forall. intros v Hv. rewrite Forall_forall in Hin, Hr. auto.
Qed.

(** ** Limits of the 32-bit counters *)
Lemma huge_tensor_fails t l c :
  f32_tensor t -> data t = Some l -> 2 ^ 30 <= Z.of_nat (elements t) ->
  Z.of_nat (length (compress_data l)) < 2 ^ 32 ->
  c_compress t = Ok c -> c_decompress c = Fatal.
Proof.
  intros [Hwf Hr] Hd Hbig Hsz Hc. rewrite Hd in Hr. pose proof Hwf as [He Hw]. rewrite Hd in Hw. destruct Hw as [Hl Hp].
  destruct (roundtrip l Hr Hsz) as (l' & Hrel & Hin & Hdec).
  unfold c_compress in Hc. rewrite Hd in Hc. cbn [bind] in Hc.
  destruct (length (compress_data l) <=? 2 * elements t * 4 + 2)%nat; [|discriminate].
  inversion Hc; subst c; clear Hc.
  pose proof (Forall2_length Hrel) as HL.
  assert (Hn : (samples t * width t * height t * maps t = elements t)%nat) by (rewrite He; ring).
  destruct (compress_data l) as [|b bs] eqn:E.
  { exfalso. simpl in Hdec. destruct l' as [|v l']; [simpl in HL; lia|].
    unfold f32_bytes in Hdec. simpl in Hdec. discriminate. }
  cbn [c_resize]. unfold c_decompress. cbn [c_elements c_data c_samples c_width c_height c_maps].
  rewrite Hn, <- Hl, Hdec. cbn [bind].
  destruct (Z.eqb_spec (reported_elements (flat_map f32_bytes l')) (Z.of_nat (length l))) as [HR|]; [|reflexivity].
  exfalso. unfold reported_elements in HR. 
  pose proof (Z.mod_pos_bound (Z.of_nat (length (flat_map f32_bytes l'))) (2 ^ 32)).
  assert ((Z.of_nat (length (flat_map f32_bytes l')) mod 2 ^ 32) / 4 < 2 ^ 30).
  { apply Z.div_lt_upper_bound; lia. }
  lia.
Qed.

Lemma decode_length : forall n input cap o, (length input <= n)%nat ->
  decode_loop cap input = Ok o -> (length o <= cap)%nat.
Proof.
  induction n as [|n IH]; intros input cap o Hn H.
  - destruct input; [inversion H; simpl; lia|simpl in Hn; lia].
  - destruct input as [|c rest]; [inversion H; simpl; lia|]. cbn [decode_loop] in *. cbn [length] in Hn.
    destruct (c =? rl_marker).
    + destruct rest as [|d rest1]; [discriminate|]. cbn [length] in Hn.
      destruct (d =? rl_doublemarker).
      * destruct cap as [|cap]; [discriminate|].
        destruct (decode_loop cap rest1) as [o1| |] eqn:E; try discriminate.
        apply IH in E; [|lia]. inversion H. simpl. lia.
      * destruct (d =? rl_rle); [|discriminate].
        destruct rest1 as [|len rest2]; [discriminate|]. cbn [length] in Hn.
        destruct (len =? 0).
        -- destruct rest2 as [|? [|? [|? [|? rest3]]]]; try (inversion H; simpl; lia). cbn [length] in Hn.
           eapply IH; [|exact H]. lia.
        -- destruct rest2 as [|b0 [|b1 [|b2 [|b3 rest3]]]]; try discriminate. cbn [length] in Hn.
           set (run := for_ (Z.to_nat len) (fun _ : nat => [b0; b1; b2; b3])) in *.
           destruct (Nat.leb_spec (length run) cap); [|discriminate].
           destruct (decode_loop (cap - length run) rest3) as [o1| |] eqn:E; try discriminate.
           apply IH in E; [|lia]. inversion H. rewrite app_length. lia.
    + destruct cap as [|cap]; [discriminate|].
      destruct (decode_loop cap rest) as [o1| |] eqn:E; try discriminate.
      apply IH in E; [|lia]. inversion H. simpl. lia.
Qed.

Lemma decompress_length cap input o : decompress_data cap input = Ok o ->
  (length o <= cap)%nat /\ (length o mod 4 = 0)%nat.
Proof.
  unfold decompress_data. destruct (decode_loop cap input) as [o1| |] eqn:E; try discriminate. cbn [bind].
  destruct (2 ^ 32 <=? Z.of_nat (length input)); [discriminate|].
  destruct (Nat.eqb_spec (length o1 mod 4) 0); [|discriminate]. intros H. inversion H; subst.
  split; auto. eapply decode_length; eauto.
Qed.

Lemma reported_bound o e : reported_elements o = Z.of_nat e -> (length o <= 4 * e)%nat -> length o = (4 * e)%nat.
Proof.
  unfold reported_elements. intros H Hle.
  pose proof (Z.mod_le (Z.of_nat (length o)) (2 ^ 32)).
  pose proof (Z.div_mod (Z.of_nat (length o) mod 2 ^ 32) 4).
  pose proof (Z.mod_pos_bound (Z.of_nat (length o) mod 2 ^ 32) 4). lia.
Qed.

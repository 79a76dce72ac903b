(** Proofs about [Stream_Model]. *)
From Verif Require Import Base BaseFacts Float32 Bytes_Model Tensor_Model Tensor_Spec Tensor_Proofs
  Codec_Model Codec_Spec Codec_Proofs Stream_Model Stream_Spec StreamFiles_Spec.
Local Open Scope Z_scope.

Definition st (r : list byte) : istream := mkIS r false false.

Lemma is_read_app n a r : length a = n -> is_read n (st (a ++ r)) = (a, st r).
Proof.
  intros <-. unfold is_read, st, good. cbn [eofbit failbit rest negb andb].
  rewrite app_length. destruct (Nat.leb_spec (length a) (length a + length r)); [|lia].
  rewrite firstn_app, firstn_all, Nat.sub_diag, firstn_O, app_nil_r.
  rewrite skipn_app, skipn_all, Nat.sub_diag. reflexivity.
Qed.

Lemma read_u64_app n r : Z.of_nat n < 2 ^ 64 -> read_u64 (st (u64_bytes (Z.of_nat n) ++ r)) = (n, st r).
Proof.
  intros H. unfold read_u64. rewrite is_read_app by apply le_bytes_length.
  unfold u64_bytes. rewrite le_value_bytes; [now rewrite Nat2Z.id|].
  change (256 ^ Z.of_nat 8) with (2 ^ 64). lia.
Qed.

Lemma read_into_app old new r :
  length old = length new -> Forall f32_range new ->
  read_into old (st (flat_map f32_bytes new ++ r)) = (new, st r).
Proof.
  intros Hl Hr. unfold read_into. rewrite is_read_app by (rewrite flat_bytes_length; lia).
  rewrite flat_bytes_length, skipn_all2 by (rewrite flat_bytes_length; lia).
  rewrite app_nil_r, f32s_of_bytes_flat by auto. reflexivity.
Qed.

Lemma serialize_header t : sizes_fit t -> forall r,
  exists body, serialize t ++ r =
    u64_bytes (Z.of_nat (samples t)) ++ u64_bytes (Z.of_nat (width t)) ++
    u64_bytes (Z.of_nat (height t)) ++ u64_bytes (Z.of_nat (maps t)) ++ body ++ r /\
    body = if (0 <? elements t)%nat then flat_map f32_bytes (match data t with Some l => l | None => [] end) else [].
Proof.
  intros _ r. eexists. split; [|reflexivity]. unfold serialize. now rewrite <- !app_assoc.
Qed.

Lemma deserialize_serialize junk t t0 r :
  f32_tensor t -> sizes_fit t -> wf t0 ->
  deserialize junk t0 false (st (serialize t ++ r)) = Ok (t, st r).
Proof.
  intros [Hwf Hf] Hs Hwf0. destruct (serialize_header t Hs r) as (body & -> & Hb).
  destruct Hs as (S1 & S2 & S3 & S4).
  unfold deserialize. rewrite !read_u64_app by auto. rewrite andb_true_r.
  pose proof (proj1 Hwf) as He.
  assert (Hn : (samples t * maps t * width t * height t = elements t)%nat) by (rewrite He; ring).
  rewrite Hn.
  destruct (data t) as [l|] eqn:Hd.
  - destruct (wf_data_dims _ _ Hwf Hd) as (Hl & P).
    assert (Hpos : (0 < elements t)%nat) by (rewrite He; nia).
    destruct (Nat.ltb_spec 0 (elements t)); [|lia].
    destruct (resize_data junk t0 (samples t) (width t) (height t) (maps t)) as (A & B & C & E & F); [lia|].
    pose proof (wf_resize junk t0 (samples t) (width t) (height t) (maps t) Hwf0) as Hw1.
    set (t1 := resize junk t0 (samples t) (width t) (height t) (maps t)) in *. clearbody t1.
    unfold buffer. destruct (data t1) as [l1|] eqn:Hd1; [|congruence]. cbn [bind].
    destruct (wf_data_dims _ _ Hw1 Hd1) as (Hl1 & _).
    subst body.
    rewrite read_into_app; [|rewrite Hl1, Hl, (proj1 Hw1), A, B, C, E; lia|auto].
    do 2 f_equal. unfold with_data. rewrite A, B, C, E, (proj1 Hw1), A, B, C, E, <- He.
    destruct t; simpl in *; subst; reflexivity.
  - pose proof Hwf as [_ Hz]. rewrite Hd in Hz. destruct Hz as (Z1 & Z2 & Z3 & Z4).
    assert (He0 : elements t = 0%nat) by (rewrite He, Z1; ring).
    rewrite He0 in *. subst body. cbn [Nat.ltb Nat.leb app].
    rewrite resize_zero by (auto; rewrite Z1; ring).
    destruct t; simpl in *; subst. reflexivity.
Qed.

Lemma deserialize_head junk t t0 r :
  f32_tensor t -> sizes_fit t -> wf t0 ->
  exists t', deserialize junk t0 true (st (serialize t ++ r)) = Ok (t', st r) /\ wf t' /\ same_shape t' t.
Proof.
  intros [Hwf Hf] Hs Hwf0. destruct (serialize_header t Hs r) as (body & -> & Hb).
  destruct Hs as (S1 & S2 & S3 & S4).
  unfold deserialize. rewrite !read_u64_app by auto. rewrite andb_false_r.
  pose proof (proj1 Hwf) as He.
  assert (Hn : (samples t * maps t * width t * height t = elements t)%nat) by (rewrite He; ring).
  rewrite Hn. exists (resize junk t0 (samples t) (width t) (height t) (maps t)).
  split; [|split; [now apply wf_resize|]].
  - f_equal. f_equal. unfold is_seek, st. cbn [failbit rest]. f_equal.
    assert (Hbl : length body = (4 * elements t)%nat).
    { subst body. destruct (data t) as [l|] eqn:Hd.
      - destruct (wf_data_dims _ _ Hwf Hd) as (Hl & P).
        assert (Hpos : (0 < elements t)%nat) by (rewrite He; nia).
        destruct (Nat.ltb_spec 0 (elements t)); [|lia]. rewrite flat_bytes_length. lia.
      - pose proof Hwf as [_ Hz]. rewrite Hd in Hz. destruct Hz as (Z1 & _).
        rewrite He, Z1. reflexivity. }
    rewrite <- Hbl. rewrite skipn_app, skipn_all, Nat.sub_diag. reflexivity.
  - destruct (Nat.eq_dec (elements t) 0) as [E|E].
    + rewrite resize_zero by (auto; lia).
      destruct Hwf as [_ Hz]. destruct (data t); [lia|]. destruct Hz as (Z1 & Z2 & Z3 & Z4).
      repeat split; simpl; auto.
    + destruct (resize_data junk t0 (samples t) (width t) (height t) (maps t)) as (A & B & C & F & G); [lia|].
      repeat split; auto.
Qed.

Lemma deserialize_mmap_serialize t r :
  f32_tensor t -> sizes_fit t ->
  deserialize_mmap (st (serialize t ++ r)) = Ok (t, st r).
Proof.
  intros [Hwf Hf] Hs. destruct (serialize_header t Hs r) as (body & -> & Hb).
  destruct Hs as (S1 & S2 & S3 & S4).
  unfold deserialize_mmap. rewrite !read_u64_app by auto.
  pose proof (proj1 Hwf) as He.
  assert (Hn : (samples t * maps t * width t * height t = elements t)%nat) by (rewrite He; ring).
  rewrite Hn.
  destruct (data t) as [l|] eqn:Hd.
  - destruct (wf_data_dims _ _ Hwf Hd) as (Hl & P).
    assert (Hpos : (0 < elements t)%nat) by (rewrite He; nia).
    destruct (Nat.ltb_spec 0 (elements t)); [|lia]. subst body.
    assert (Hbl : length (flat_map f32_bytes l) = (4 * elements t)%nat) by (rewrite flat_bytes_length; lia).
    unfold st. cbn [rest]. rewrite <- Hbl.
    assert (HL : (length (flat_map f32_bytes l) <=? length (flat_map f32_bytes l ++ r))%nat = true)
      by (apply Nat.leb_le; rewrite app_length; lia).
    rewrite HL.
    rewrite firstn_app, firstn_all, Nat.sub_diag, firstn_O, app_nil_r, f32s_of_bytes_flat by auto.
    unfold resize_prealloc. rewrite Hn. destruct (Nat.eqb_spec (elements t) 0); [lia|].
    unfold is_seek. cbn [failbit rest]. rewrite skipn_app, skipn_all, Nat.sub_diag. cbn [skipn app].
    do 2 f_equal. destruct t; simpl in *; subst; reflexivity.
  - pose proof Hwf as [_ Hz]. rewrite Hd in Hz. destruct Hz as (Z1 & Z2 & Z3 & Z4).
    assert (He0 : elements t = 0%nat) by (rewrite He, Z1; ring).
    rewrite He0 in *. subst body. cbn [Nat.ltb Nat.leb app].
    destruct t; simpl in *; subst. reflexivity.
Qed.

(** ** The loading loop *)
Section Loop.
Context {T : Type}.
Variable parse : istream -> res (T * istream).
Variable count : T -> nat.
Variable ser : T -> list byte.

Lemma load_loop_ok ts tail : forall fuel acc,
  (length ts < fuel)%nat ->
  (forall t r, In t ts -> parse (st (ser t ++ r)) = Ok (t, st r)) ->
  (forall t, In t ts -> (0 < count t)%nat) ->
  (forall t, In t ts -> ser t <> []) ->
  (exists t s', parse (st tail) = Ok (t, s') /\ count t = 0%nat) ->
  load_loop parse count fuel (st (flat_map ser ts ++ tail)) acc = Ok (acc ++ ts).
Proof.
  induction ts as [|t ts IH]; intros fuel acc Hf Hp Hc Hs Ht.
  - cbn [flat_map app]. destruct fuel as [|fuel]; [simpl in Hf; lia|].
    unfold st. cbn [load_loop eofbit]. destruct Ht as (t & s' & E & Hz).
    unfold st in E. rewrite E. cbn [bind]. rewrite Hz. cbn [Nat.eqb]. now rewrite app_nil_r.
  - destruct fuel as [|fuel]; [simpl in Hf; lia|].
    cbn [flat_map]. rewrite <- app_assoc.
    unfold st. cbn [load_loop eofbit].
    pose proof (Hp t (flat_map ser ts ++ tail) (or_introl eq_refl)) as E. unfold st in E. rewrite E.
    cbn [bind].
    destruct (Nat.eqb_spec (count t) 0) as [E0|E0].
    { specialize (Hc t (or_introl eq_refl)). lia. }
    replace (acc ++ t :: ts) with ((acc ++ [t]) ++ ts) by now rewrite <- app_assoc.
    assert (Hrec : load_loop parse count fuel (st (flat_map ser ts ++ tail)) (acc ++ [t]) = Ok ((acc ++ [t]) ++ ts)).
    { apply IH.
      - simpl in Hf. lia.
      - intros; apply Hp; now right.
      - intros; apply Hc; now right.
      - intros; apply Hs; now right.
      - exact Ht. }
    destruct (flat_map ser ts ++ tail) as [|b bs] eqn:Er.
    + unfold is_peek, good. cbn [eofbit failbit negb andb rest].
      destruct ts as [|t2 ts].
      * destruct fuel; cbn [load_loop eofbit]; now rewrite app_nil_r.
      * exfalso. apply app_eq_nil in Er as [Er _]. cbn [flat_map] in Er.
        apply app_eq_nil in Er as [Er _]. apply (Hs t2); auto. right. now left.
    + exact Hrec.
Qed.
End Loop.

Lemma serialize_length t : (32 <= length (serialize t))%nat.
Proof. unfold serialize. rewrite !app_length. unfold u64_bytes. rewrite !le_bytes_length. lia. Qed.

Lemma flat_map_length_ge {A} (f : A -> list byte) l :
  (forall x, In x l -> (1 <= length (f x))%nat) -> (length l <= length (flat_map f l))%nat.
Proof.
  induction l as [|x l IH]; intros H; [simpl; lia|]. cbn [flat_map length]. rewrite app_length.
  pose proof (H x (or_introl eq_refl)). assert (length l <= length (flat_map f l))%nat; [|lia].
  apply IH. intros; apply H; now right.
Qed.

Lemma f32_tensor_empty : f32_tensor empty_tensor.
Proof. split; [apply wf_empty|exact I]. Qed.
Lemma sizes_fit_empty : sizes_fit (@empty_tensor f32).
Proof. unfold sizes_fit. simpl. lia. Qed.

Lemma float_load_ok junk mmap ts tail :
  Forall (fun t => f32_tensor t /\ sizes_fit t /\ non_empty t) ts -> ends_float tail ->
  float_load junk mmap (flat_map serialize ts ++ tail) = Ok ts.
Proof.
  intros Hts Htail. rewrite Forall_forall in Hts. unfold float_load.
  change (open_file ?x) with (st x).
  rewrite (load_loop_ok _ _ serialize); [reflexivity| | | | |].
  - rewrite app_length. pose proof (flat_map_length_ge serialize ts) as H.
    assert (length ts <= length (flat_map serialize ts))%nat; [|lia].
    apply H. intros x _. pose proof (serialize_length x). lia.
  - intros t r Hin. destruct (Hts t Hin) as (A & B & C). destruct mmap.
    + now apply deserialize_mmap_serialize.
    + apply deserialize_serialize; auto. apply wf_empty.
  - intros t Hin. destruct (Hts t Hin) as ([[He A] _] & _ & C). unfold non_empty in C.
    destruct (data t); [lia|congruence].
  - intros t _ E. pose proof (serialize_length t). rewrite E in H. simpl in H. lia.
  - destruct Htail as [->|[more ->]].
    + destruct mmap.
      * eexists _, _. split; [reflexivity|reflexivity].
      * eexists _, _. split; [reflexivity|reflexivity].
    + change (repeat 0 32) with (serialize (@empty_tensor f32)). destruct mmap.
      * exists empty_tensor, (st more). split; [|reflexivity].
        apply deserialize_mmap_serialize; [apply f32_tensor_empty|apply sizes_fit_empty].
      * exists empty_tensor, (st more). split; [|reflexivity].
        apply deserialize_serialize; [apply f32_tensor_empty|apply sizes_fit_empty|apply wf_empty].
Qed.

(** ** Compressed tensors *)
Lemma c_serialize_length c : (40 <= length (c_serialize c))%nat.
Proof. unfold c_serialize. rewrite !app_length. unfold u64_bytes. rewrite !le_bytes_length. lia. Qed.

Lemma c_deserialize_serialize junkb mmap c r :
  ctensor_ok c -> c_deserialize junkb mmap (st (c_serialize c ++ r)) = Ok (c, st r).
Proof.
  intros (He & Hpos & Hne & _ & S1 & S2 & S3 & S4 & S5).
  unfold c_serialize. rewrite <- !app_assoc. unfold c_deserialize.
  rewrite !read_u64_app by auto.
  destruct (Nat.eqb_spec (length (c_data c)) 0) as [E|E].
  { apply length_zero_iff_nil in E. congruence. }
  destruct (Nat.ltb_spec 0 (c_elements c)) as [_|HH]; [|lia].
  assert (Hc : c_resize (c_samples c) (c_width c) (c_height c) (c_maps c) (c_data c) = c).
  { unfold c_resize. destruct c as [a b d e f g]; cbn in *. destruct g; [congruence|].
    now rewrite He. }
  destruct mmap.
  - unfold st. cbn [rest]. rewrite app_length.
    destruct (Nat.leb_spec (length (c_data c)) (length (c_data c) + length r)) as [_|HH]; [|lia].
    rewrite firstn_app, firstn_all, Nat.sub_diag, firstn_O, app_nil_r, Hc.
    unfold is_seek. cbn [failbit rest]. rewrite skipn_app, skipn_all, Nat.sub_diag. reflexivity.
  - rewrite is_read_app by reflexivity.
    rewrite skipn_all2 by (rewrite map_length, seq_length; lia).
    rewrite app_nil_r, Hc. reflexivity.
Qed.

Lemma compressed_load_ok junkb mmap cs tail :
  Forall ctensor_ok cs -> ends_compressed tail ->
  compressed_load junkb mmap (u64_bytes cts_magic ++ flat_map c_serialize cs ++ tail) =
  Ok (cs, fold_left Nat.max (map (fun c => c_elements c) cs) 0%nat).
Proof.
  intros Hcs Htail. rewrite Forall_forall in Hcs. unfold compressed_load.
  change (open_file ?x) with (st x).
  rewrite is_read_app by reflexivity.
  replace (le_value (u64_bytes cts_magic) =? cts_magic) with true by reflexivity.
  rewrite (load_loop_ok _ _ c_serialize); [reflexivity| | | | |].
  - rewrite !app_length. pose proof (flat_map_length_ge c_serialize cs) as H.
    assert (length cs <= length (flat_map c_serialize cs))%nat; [|lia].
    apply H. intros x _. pose proof (c_serialize_length x). lia.
  - intros c r Hin. apply c_deserialize_serialize; auto.
  - intros c Hin. apply (Hcs c Hin).
  - intros c _ E. pose proof (c_serialize_length c). rewrite E in H. simpl in H. lia.
  - destruct Htail as [->|[more ->]]; eexists _, _; (split; [reflexivity|reflexivity]).
Qed.

(** ** The compressor's output consists of bytes *)
Lemma emit_bytes_ok last running : (running <= 253)%nat -> Forall is_byte (emit last running).
Proof.
  intros Hr. apply Forall_forall. intros b Hb. unfold emit in Hb.
  assert (HF : In b (f32_bytes last) -> is_byte b) by apply le_bytes_is_byte.
  destruct ((0 <? running) && (running <? rl_min))%nat.
  - apply in_for in Hb as (i & _ & Hb). apply in_flat_map in Hb as (c & Hc & Hb).
    apply le_bytes_is_byte in Hc. unfold emit_byte, rl_marker, rl_doublemarker in Hb.
    destruct (c =? 88); simpl in Hb; unfold is_byte in *; intuition lia.
  - destruct (rl_min <=? running)%nat; [|contradiction].
    apply in_app_or in Hb as [Hb|Hb]; auto.
    unfold rl_marker, rl_rle in Hb. unfold is_byte. 
    destruct Hb as [<-|[<-|[<-|[]]]]; try lia.
    change 255 with (Z.ones 8). rewrite Z.land_ones by lia.
    apply Z.mod_pos_bound. lia.
Qed.

Lemma compress_bytes_ok l : Forall f32_range l -> Forall is_byte (compress_data l).
Proof.
  intros Hl.
  assert (H : forall l p stt, Forall f32_range l -> enc_inv p stt -> Forall is_byte (snd stt) ->
              Forall is_byte (snd (fold_left compress_step l stt)) /\
              (snd (fst (fold_left compress_step l stt)) <= 253)%nat).
  { clear. induction l as [|c l IH]; intros p [[last running] out] Hl Hi Ho.
    - split; [exact Ho|]. destruct Hi as (H & _). simpl. lia.
    - inversion Hl; subst. cbn [fold_left]. apply (IH (p ++ [c])); auto.
      + now apply enc_step.
      + destruct Hi as (Hr & _). unfold compress_step.
        set (r1 := if feq c last then S running else running).
        assert (r1 <= 253)%nat by (unfold r1; destruct (feq c last); lia).
        destruct (_ || _); cbn [snd]; auto. apply Forall_app. split; auto. now apply emit_bytes_ok. }
  assert (H0 : enc_inv [] (0, 0%nat, [])).
  { unfold enc_inv, f32_range. split; [lia|]. split; [lia|]. split; [lia|].
    exists [], []. repeat split; auto; try constructor. }
  destruct (H l [] (0, 0%nat, []) Hl H0) as [H1 H2]; [constructor|].
  unfold compress_data. destruct (fold_left compress_step l (0, 0%nat, [])) as [[last running] out].
  cbn [fst snd] in *. apply Forall_app. split; auto. now apply emit_bytes_ok.
Qed.

Lemma compressible_ctensor t : compressible t ->
  exists c t', c_compress t = Ok c /\ ctensor_ok c /\ c_decompress c = Ok t' /\
    same_tensor_values t t' /\ f32_tensor t' /\ elements t' = elements t.
Proof.
  intros (Hf & Hs & Hn & Hsz). unfold non_empty in Hn.
  destruct (data t) as [l|] eqn:Hd; [|congruence].
  destruct (tensor_roundtrip t l Hf Hd Hsz) as (c & l' & Hc & C1 & C2 & C3 & C4 & C5 & C6 & C7 & C8 & Hdec & Hrel & Hin).
  destruct Hf as [Hwf Hr]. rewrite Hd in Hr.
  pose proof Hwf as [He Hw]. rewrite Hd in Hw. destruct Hw as [Hl Hpos].
  destruct Hs as (S1 & S2 & S3 & S4).
  eexists c, _. split; [exact Hc|]. split; [|split; [exact Hdec|split; [|split]]].
  - unfold ctensor_ok. rewrite C1, C2, C3, C4, C5.
    split; [rewrite He; ring|]. split; [auto|]. split; [auto|].
    split; [rewrite C7; now apply compress_bytes_ok|]. repeat split; auto. lia.
  - unfold same_tensor_values. cbn. rewrite Hd. repeat split. exact Hrel.
  - split; [|cbn].
    + split; cbn; [exact He|]. rewrite <- (Forall2_length Hrel). auto.
    + apply Forall_forall. intros v Hv. rewrite Forall_forall in Hin, Hr. auto.
  - reflexivity.
Qed.

Definition compressed_form (t : tensor f32) : ctensor :=
  match c_compress t with Ok c => c | _ => c_empty end.

Lemma compress_tool_ok junk ts : forall fuel t0 out,
  Forall compressible ts -> wf t0 -> (length ts < fuel)%nat -> ts <> [] ->
  compress_tool_loop junk fuel t0 (st (flat_map serialize ts)) out =
  Ok (out ++ flat_map c_serialize (map compressed_form ts)).
Proof.
  induction ts as [|t ts IH]; intros fuel t0 out Hts Hwf0 Hf Hne; [congruence|].
  inversion Hts as [|? ? Ht Hrest]; subst.
  destruct fuel as [|fuel]; [simpl in Hf; lia|].
  destruct (compressible_ctensor t Ht) as (c & t' & Hc & Hok & Hd & Hsv & Hft & Hel).
  destruct Ht as (Hf1 & Hs1 & Hn1 & _).
  unfold st. cbn [flat_map compress_tool_loop eofbit].
  pose proof (deserialize_serialize junk t t0 (flat_map serialize ts) Hf1 Hs1 Hwf0) as E.
  unfold st in E. rewrite E. cbn [bind]. rewrite Hc. cbn [bind]. rewrite Hd. cbn [bind].
  rewrite Hel, Nat.eqb_refl.
  assert (Hcf : compressed_form t = c) by (unfold compressed_form; now rewrite Hc).
  destruct ts as [|t2 ts].
  - cbn [flat_map map app]. rewrite Hcf, app_nil_r.
    unfold is_peek, good. cbn [eofbit failbit negb andb rest]. destruct fuel; reflexivity.
  - assert (Hpk : is_peek (mkIS (flat_map serialize (t2 :: ts)) false false) = st (flat_map serialize (t2 :: ts))).
    { unfold is_peek, good. cbn [eofbit failbit negb andb rest].
      destruct (flat_map serialize (t2 :: ts)) eqn:E2; [|reflexivity].
      exfalso. cbn [flat_map] in E2. apply app_eq_nil in E2 as [E2 _].
      pose proof (serialize_length t2) as L. rewrite E2 in L. simpl in L. lia. }
    rewrite Hpk. rewrite IH; auto.
    + cbn [map flat_map]. rewrite Hcf, <- app_assoc. reflexivity.
    + apply Hft.
    + simpl in *. lia.
    + discriminate.
Qed.

Lemma compress_tool_spec junk ts :
  Forall compressible ts -> ts <> [] ->
  compress_tool junk (flat_map serialize ts) =
  Ok (u64_bytes cts_magic ++ flat_map c_serialize (map compressed_form ts)).
Proof.
  intros Hts Hne. unfold compress_tool. change (open_file ?x) with (st x).
  rewrite compress_tool_ok; auto.
  - apply wf_empty.
  - pose proof (flat_map_length_ge serialize ts) as H.
    assert (length ts <= length (flat_map serialize ts))%nat; [|lia].
    apply H. intros x _. pose proof (serialize_length x). lia.
Qed.

(** ** Copying samples out of a compressed stream *)
Lemma decode_cap_mono : forall n input cap cap' o, (length input <= n)%nat ->
  decode_loop cap input = Ok o -> (cap <= cap')%nat -> decode_loop cap' input = Ok o.
Proof.
  induction n as [|n IH]; intros input cap cap' o Hn H Hc.
  - destruct input; [exact H|simpl in Hn; lia].
  - destruct input as [|c rest]; [exact H|]. cbn [decode_loop] in *. cbn [length] in Hn.
    destruct (c =? rl_marker).
    + destruct rest as [|d rest1]; [discriminate|]. cbn [length] in Hn.
      destruct (d =? rl_doublemarker).
      * destruct cap as [|cap]; [discriminate|]. destruct cap' as [|cap']; [lia|].
        destruct (decode_loop cap rest1) as [o1| |] eqn:E; try discriminate.
        rewrite (IH rest1 cap cap' o1); auto; lia.
      * destruct (d =? rl_rle); [|discriminate].
        destruct rest1 as [|len rest2]; [discriminate|]. cbn [length] in Hn.
        destruct (len =? 0).
        -- destruct rest2 as [|? [|? [|? [|? rest3]]]]; auto. cbn [length] in Hn.
           eapply IH; [|exact H|exact Hc]. lia.
        -- destruct rest2 as [|b0 [|b1 [|b2 [|b3 rest3]]]]; auto. cbn [length] in Hn.
           set (run := for_ (Z.to_nat len) (fun _ : nat => [b0; b1; b2; b3])) in *.
           destruct (Nat.leb_spec (length run) cap); [|discriminate].
           destruct (Nat.leb_spec (length run) cap'); [|lia].
           destruct (decode_loop (cap - length run) rest3) as [o1| |] eqn:E; try discriminate.
           rewrite (IH rest3 (cap - length run)%nat (cap' - length run)%nat o1); auto; lia.
    + destruct cap as [|cap]; [discriminate|]. destruct cap' as [|cap']; [lia|].
      destruct (decode_loop cap rest) as [o1| |] eqn:E; try discriminate.
      rewrite (IH rest cap cap' o1); auto; lia.
Qed.

Lemma decompress_cap_mono input cap cap' o :
  decompress_data cap input = Ok o -> (cap <= cap')%nat -> decompress_data cap' input = Ok o.
Proof.
  unfold decompress_data. intros H Hc. destruct (decode_loop cap input) as [o1| |] eqn:E; try discriminate.
  rewrite (decode_cap_mono (length input) input cap cap' o1); auto.
Qed.

Lemma f32s_of_bytes_length : forall n bs, (length bs <= n)%nat -> length (f32s_of_bytes bs) = (length bs / 4)%nat.
Proof.
  induction n as [|n IH]; intros bs H.
  - destruct bs; [reflexivity|simpl in H; lia].
  - destruct bs as [|b0 [|b1 [|b2 [|b3 rest]]]]; try reflexivity.
    cbn [f32s_of_bytes length]. rewrite IH by (cbn [length] in H; lia).
    replace (S (S (S (S (length rest))))) with (length rest + 1 * 4)%nat by lia.
    rewrite Nat.div_add by lia. lia.
Qed.

Lemma splice_nth old at_ new i :
  (at_ + length new <= length old)%nat ->
  nth_error (splice old at_ new) i =
  if (i <? at_)%nat then nth_error old i
  else if (i <? at_ + length new)%nat then nth_error new (i - at_) else nth_error old i.
Proof.
  intros H. unfold splice.
  assert (Hfl : length (firstn at_ old) = at_) by (rewrite firstn_length; lia).
  destruct (Nat.ltb_spec i at_) as [Hi|Hi].
  - rewrite nth_error_app1 by lia.
    rewrite <- (firstn_skipn at_ old) at 2. rewrite nth_error_app1; auto. lia.
  - rewrite nth_error_app2 by lia. rewrite Hfl.
    destruct (Nat.ltb_spec i (at_ + length new)) as [Hj|Hj].
    + rewrite nth_error_app1 by lia. reflexivity.
    + rewrite nth_error_app2 by lia.
      rewrite <- (firstn_skipn (at_ + length new) old) at 2.
      rewrite nth_error_app2 by (rewrite firstn_length; lia).
      f_equal. rewrite firstn_length. lia.
Qed.

Lemma splice_length old at_ new :
  (at_ + length new <= length old)%nat -> length (splice old at_ new) = length old.
Proof.
  intros H. unfold splice. rewrite !app_length, firstn_length, skipn_length. lia.
Qed.

Lemma copy_sample_same_result {D} (zero : D) src ss tgt ts t1 :
  wf src -> wf tgt -> (0 < maps src)%nat -> copy_sample_possible src ss tgt ts = true ->
  wf t1 -> same_shape t1 tgt ->
  (forall x y m s, valid_pos tgt x y m s ->
     at_pos t1 x y m s = if (s =? ts)%nat then
          if ((x <? width src) && (y <? height src))%nat then at_pos src x y m ss else Some zero
        else at_pos tgt x y m s) ->
  copy_sample zero src ss tgt ts = Ok (t1, true).
Proof.
  intros Hws Hwt Hm Hp Hw1 Hs1 Hat.
  destruct (copy_sample_spec zero src ss tgt ts Hws Hwt Hm) as (t' & Hc & Hw' & Hs' & _ & Hat').
  rewrite Hp in *. rewrite Hc. do 2 f_equal.
  apply tensor_ext; auto.
  - eapply same_shape_trans; [exact Hs'|]. now apply same_shape_sym.
  - intros x y m s. destruct (valid_pos_dec tgt x y m s) as [Hv|Hv].
    + rewrite (Hat' eq_refl _ _ _ _ Hv), (Hat _ _ _ _ Hv). reflexivity.
    + rewrite !at_pos_invalid; auto.
      * intros H. apply Hv. apply (same_shape_valid _ _ _ _ _ _ Hs1). exact H.
      * intros H. apply Hv. apply (same_shape_valid _ _ _ _ _ _ Hs'). exact H.
Qed.

Lemma compressed_copy_ok cs temp source ss target ts c t :
  nth_error cs source = Some c -> ctensor_ok c -> c_decompress c = Ok t ->
  (c_elements c <= length temp)%nat -> wf target -> (ts < samples target)%nat ->
  exists temp', length temp' = length temp /\
    compressed_copy_sample cs temp source ss target ts =
    (r <- copy_sample f32_zero t ss target ts ;; Ok (r, temp')).
Proof.
  intros Hnth Hok Hd Htemp Hwt Hts.
  pose proof Hok as (He & Hpos & _).
  unfold compressed_copy_sample. rewrite Hnth.
  unfold c_decompress in Hd. destruct (decompress_data (4 * c_elements c) (c_data c)) as [o| |] eqn:Ed; try discriminate.
  cbn [bind] in Hd. destruct (Z.eqb_spec (reported_elements o) (Z.of_nat (c_elements c))) as [El|]; [|discriminate].
  assert (Hfl : length (f32s_of_bytes o) = c_elements c).
  { rewrite (f32s_of_bytes_length (length o)) by lia.
    rewrite (reported_bound o (c_elements c) El) by (eapply decompress_length; eauto).
    rewrite Nat.mul_comm, Nat.div_mul; lia. }
  unfold resize_prealloc in Hd.
  assert (Hn : (c_samples c * c_maps c * c_width c * c_height c = c_elements c)%nat) by (rewrite He; ring).
  rewrite Hn in Hd. destruct (Nat.eqb_spec (c_elements c) 0); [lia|]. inversion Hd; subst t; clear Hd.
  set (t := mkTensor (c_samples c) (c_width c) (c_height c) (c_maps c) (c_elements c) (Some (f32s_of_bytes o))).
  assert (Hwf : wf t).
  { split; cbn; [rewrite He; ring|]. split; auto. }
  assert (Hmaps : (0 < c_maps c)%nat) by nia.
  match goal with |- context [if ?cond then _ else _] => destruct cond eqn:Ec end.
  - rewrite !andb_true_iff, !Nat.eqb_eq in Ec. destruct Ec as ((((-> & Ew) & Eh) & Em) & Es).
    destruct (data target) as [l|] eqn:Hdt.
    2:{ exfalso. destruct Hwt as [_ Hz]. rewrite Hdt in Hz. lia. }
    destruct (wf_data_dims _ _ Hwt Hdt) as (Hl & P1 & P2 & P3 & P4).
    unfold buffer. rewrite Hdt. cbn [bind].
    set (at_ := offset target 0 0 0 ts).
    assert (Hat : at_ = (ts * (maps target * width target * height target))%nat)
      by (unfold at_, offset; ring).
    assert (Hce : c_elements c = (maps target * width target * height target)%nat)
      by (rewrite He, Es, Ew, Eh, Em; ring).
    assert (Hroom : (at_ + c_elements c <= length l)%nat).
    { rewrite Hl, (proj1 Hwt), Hat, Hce.
      replace (samples target * maps target * height target * width target)%nat
        with (samples target * (maps target * width target * height target))%nat by ring. nia. }
    destruct (Nat.ltb_spec (length l) at_); [lia|].
    rewrite (decompress_cap_mono _ _ (4 * (length l - at_)) _ Ed) by lia. cbn [bind].
    rewrite El, Z.eqb_refl.
    exists temp. split; [reflexivity|].
    set (t1 := with_data target (splice l at_ (f32s_of_bytes o))).
    assert (Hw1 : wf t1).
    { destruct Hwt as [E1 E2]. rewrite Hdt in E2. split; cbn; auto.
      rewrite splice_length by lia. auto. }
    rewrite (copy_sample_same_result f32_zero t 0 target ts t1); auto; try reflexivity.
    + unfold copy_sample_possible, t. cbn [maps width height samples]. rewrite Ew, Eh, Em, Es, Nat.eqb_refl, !Nat.leb_refl.
      apply Nat.ltb_lt in Hts. rewrite Hts. reflexivity.
    + repeat split.
    + intros x y m s Hv.
      assert (Hv1 : valid_pos t1 x y m s) by exact Hv.
      rewrite (at_pos_valid t1 _ _ _ _ (splice l at_ (f32s_of_bytes o)) Hv1 eq_refl).
      change (offset t1 x y m s) with (offset target x y m s).
      rewrite splice_nth by lia. rewrite Hfl.
      pose proof (sample_range target x y m ts s Hv) as HR.
      replace (width target * height target * maps target * ts)%nat with at_ in HR by (rewrite Hat; ring).
      replace (width target * height target * maps target * (ts + 1))%nat with (at_ + c_elements c)%nat in HR
        by (rewrite Hat, Hce; ring).
      destruct Hv as (Hx & Hy & Hm & Hs).
      destruct (Nat.eqb_spec s ts) as [->|Hne].
      * destruct HR as [_ HR]. specialize (HR eq_refl).
        destruct (Nat.ltb_spec (offset target x y m ts) at_); [lia|].
        destruct (Nat.ltb_spec (offset target x y m ts) (at_ + c_elements c)); [|lia].
        cbn [width height t]. rewrite Ew, Eh.
        pose proof Hx as Hxb. pose proof Hy as Hyb. apply Nat.ltb_lt in Hxb, Hyb. rewrite Hxb, Hyb. cbn [andb].
        assert (Hvt : valid_pos t x y m 0) by (unfold valid_pos; cbn; lia).
        rewrite (at_pos_valid t _ _ _ _ (f32s_of_bytes o) Hvt eq_refl). f_equal.
        rewrite Hat. unfold offset. cbn [width height maps t]. rewrite Ew, Eh, Em.
        set (A := (maps target * width target * height target)%nat).
        replace (ts * maps target * width target * height target)%nat with (ts * A)%nat by (unfold A; ring).
        replace (0 * maps target * width target * height target)%nat with 0%nat by ring. lia.
      * rewrite (at_pos_valid target _ _ _ _ l (conj Hx (conj Hy (conj Hm Hs))) Hdt).
        destruct (Nat.ltb_spec (offset target x y m s) at_); auto.
        destruct (Nat.ltb_spec (offset target x y m s) (at_ + c_elements c)); auto.
        exfalso. apply Hne. apply HR. lia.
  - rewrite (decompress_cap_mono _ _ (4 * length temp) _ Ed) by lia. cbn [bind].
    rewrite El, Z.eqb_refl.
    exists (splice temp 0 (f32s_of_bytes o)). split; [apply splice_length; lia|].
    assert (Hv : firstn (c_elements c) (splice temp 0 (f32s_of_bytes o)) = f32s_of_bytes o).
    { unfold splice. cbn [firstn app]. rewrite firstn_app, Hfl, Nat.sub_diag, firstn_O, app_nil_r.
      rewrite <- Hfl. apply firstn_all. }
    rewrite Hv. reflexivity.
Qed.

(** ** Telling file kinds apart *)
Lemma le_value_bound bs : Forall is_byte bs -> 0 <= le_value bs < 256 ^ Z.of_nat (length bs).
Proof.
  induction 1 as [|b bs Hb _ IH]; [simpl; lia|].
  cbn [le_value length]. rewrite Nat2Z.inj_succ, Z.pow_succ_r by lia. unfold is_byte in Hb. lia.
Qed.

Lemma le_bytes_value bs : Forall is_byte bs -> le_bytes (length bs) (le_value bs) = bs.
Proof.
  induction 1 as [|b bs Hb _ IH]; [reflexivity|].
  cbn [le_value length le_bytes]. unfold is_byte in Hb. f_equal.
  - rewrite Z.mul_comm, Z.mod_add by lia. apply Z.mod_small. lia.
  - rewrite Z.mul_comm, Z.div_add, Z.div_small by lia. exact IH.
Qed.

Lemma detect_spec file : Forall is_byte file ->
  (detect file = CompressedFile <-> exists r, file = u64_bytes cts_magic ++ r).
Proof.
  intros Hf. unfold detect.
  destruct (Z.eqb_spec (le_value (fst (is_read 8 (open_file file)))) cts_magic) as [E|E].
  - split; [intros _|reflexivity].
    unfold is_read, open_file, good in E. cbn [eofbit failbit negb andb rest] in E.
    destruct (Nat.leb_spec 8 (length file)) as [H|H]; cbn [fst] in E.
    + exists (skipn 8 file). rewrite <- (firstn_skipn 8 file) at 1. f_equal.
      unfold u64_bytes. rewrite <- E.
      assert (HL : length (firstn 8 file) = 8%nat) by (rewrite firstn_length; lia).
      rewrite <- HL at 2. symmetry. apply le_bytes_value.
      rewrite Forall_forall in Hf. apply Forall_forall. intros x Hx. apply Hf.
      rewrite <- (firstn_skipn 8 file). apply in_or_app. now left.
    + exfalso. pose proof (le_value_bound file Hf) as HB. rewrite E in HB.
      assert (256 ^ Z.of_nat (length file) <= 256 ^ 7) by (apply Z.pow_le_mono_r; lia).
      assert (256 ^ 7 < cts_magic) by reflexivity. lia.
  - split; [discriminate|]. intros [r ->]. exfalso. apply E.
    change (open_file ?x) with (st x). rewrite is_read_app by reflexivity. reflexivity.
Qed.

Lemma serialize_is_bytes t : Forall is_byte (serialize t).
Proof.
  apply Forall_forall. unfold serialize. intros b H.
  repeat (apply in_app_or in H as [H|H]; [eapply le_bytes_is_byte; exact H|]).
  destruct (0 <? elements t)%nat; [|contradiction].
  apply in_flat_map in H as (v & _ & H). eapply le_bytes_is_byte; exact H.
Qed.

Lemma detect_float t r : sizes_fit t ->
  (detect (serialize t ++ r) = CompressedFile <-> Z.of_nat (samples t) = cts_magic).
Proof.
  intros (S1 & _). unfold detect, serialize. rewrite <- !app_assoc.
  change (open_file ?x) with (st x). rewrite is_read_app by apply le_bytes_length. cbn [fst].
  unfold u64_bytes at 1. rewrite le_value_bytes by (change (256 ^ Z.of_nat 8) with (2 ^ 64); lia).
  destruct (Z.eqb_spec (Z.of_nat (samples t)) cts_magic); split; congruence.
Qed.

(** ** Histories of requests *)
Lemma requests_ok cs tens reqs : forall temp target answers,
  Forall2 (fun c t => ctensor_ok c /\ c_decompress c = Ok t) cs tens ->
  Forall (fun c => (c_elements c <= length temp)%nat) cs ->
  wf target -> Forall (fun '(_, _, ts) => (ts < samples target)%nat) reqs ->
  exists target' answers' temp',
    foldm (compressed_request cs) reqs (target, answers, temp) = Ok (target', answers', temp') /\
    foldm (float_request tens) reqs (target, answers) = Ok (target', answers').
Proof.
  induction reqs as [|[[source ss] ts] reqs IH]; intros temp target answers H2 Htemp Hwf Hreqs.
  - eexists _, _, _. split; reflexivity.
  - inversion Hreqs as [|? ? Hts Hrest]; subst. cbn [foldm compressed_request float_request].
    unfold float_copy_sample.
    destruct (nth_error cs source) as [c|] eqn:Hc.
    + assert (exists t, nth_error tens source = Some t /\ ctensor_ok c /\ c_decompress c = Ok t) as (t & Ht & Hok & Hd).
      { clear - H2 Hc. revert source Hc. induction H2; intros [|source] Hc; try discriminate; simpl in *.
        - inversion Hc; subst. eexists. split; [reflexivity|]. auto.
        - eauto. }
      rewrite Ht.
      assert (Htl : (c_elements c <= length temp)%nat).
      { rewrite Forall_forall in Htemp. apply Htemp. eapply nth_error_In; eauto. }
      destruct (compressed_copy_ok cs temp source ss target ts c t Hc Hok Hd Htl Hwf Hts) as (temp' & Hl & E).
      rewrite E.
      assert (Hwt : wf t /\ (0 < maps t)%nat).
      { pose proof Hok as (He & Hpos & _). unfold c_decompress in Hd.
        destruct (decompress_data (4 * c_elements c) (c_data c)) as [o| |] eqn:Ed; try discriminate.
        cbn [bind] in Hd. destruct (Z.eqb_spec (reported_elements o) (Z.of_nat (c_elements c))) as [El|]; [|discriminate].
        unfold resize_prealloc in Hd.
        assert (Hn : (c_samples c * c_maps c * c_width c * c_height c = c_elements c)%nat) by (rewrite He; ring).
        rewrite Hn in Hd. destruct (Nat.eqb_spec (c_elements c) 0); [lia|]. inversion Hd; subst t.
        cbn. split; [|nia]. split; cbn; [rewrite <- Hn; ring|]. split; auto.
        rewrite (f32s_of_bytes_length (length o)) by lia.
        rewrite (reported_bound o (c_elements c) El) by (eapply decompress_length; eauto).
        rewrite Nat.mul_comm, Nat.div_mul; lia. }
      destruct Hwt as [Hwt Hmt].
      destruct (copy_sample_spec f32_zero t ss target ts Hwt Hwf Hmt) as (t1 & Hc1 & Hw1 & Hs1 & _).
      rewrite Hc1. cbn [bind].
      apply IH; auto.
      * rewrite Hl. exact Htemp.
      * destruct Hs1 as (-> & _). exact Hrest.
    + assert (Ht : nth_error tens source = None).
      { apply nth_error_None in Hc. apply nth_error_None. rewrite <- (Forall2_length H2). exact Hc. }
      rewrite Ht. unfold compressed_copy_sample. rewrite Hc. cbn [bind]. apply IH; auto.
Qed.

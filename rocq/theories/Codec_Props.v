(** C09 C10 C11: the run-length codec. *)
From Verif Require Import Base BaseFacts Float32 Bytes_Model Tensor_Model Tensor_Spec
  Codec_Model Codec_Spec Stream_Spec Codec_Proofs.
Local Open Scope Z_scope.

(** ** C09 *)
(** Compressing and decompressing a tensor of floats below 2^29 elements restores shape
    and contents; an element can only come back with different bits if it is a zero. *)
Theorem C09_roundtrip t l :
  f32_tensor t -> data t = Some l -> 8 * Z.of_nat (elements t) < 2 ^ 32 ->
  exists c l', c_compress t = Ok c /\
    c_decompress c = Ok (mkTensor (samples t) (width t) (height t) (maps t) (elements t) (Some l')) /\
    length l' = length l /\
    forall i a, nth_error l i = Some a ->
      exists b, nth_error l' i = Some b /\ (b = a \/ (is_zero a /\ is_zero b)).
Proof.
  intros Hf Hd Hs. destruct (tensor_roundtrip t l Hf Hd Hs) as (c & l' & H & _ & _ & _ & _ & _ & _ & _ & _ & H2 & H3 & _).
  exists c, l'. split; [exact H|]. split; [exact H2|]. split; [symmetry; now apply Forall2_length in H3|].
  clear - H3. induction H3 as [|a b l l' Hab _ IH]; intros [|i] v Hv; try discriminate; cbn in *.
  - inversion Hv; subst. exists b. split; auto. destruct Hab; auto.
  - auto.
Qed.

(** Without zeros of both signs the round trip is the identity on the whole tensor. *)
Theorem C09_roundtrip_identical t l :
  f32_tensor t -> data t = Some l -> 8 * Z.of_nat (elements t) < 2 ^ 32 ->
  ~ (In f32_zero l /\ In f32_neg_zero l) ->
  exists c, c_compress t = Ok c /\ c_decompress c = Ok t.
Proof.
  intros Hf Hd Hs Hz. destruct (tensor_roundtrip t l Hf Hd Hs) as (c & l' & H & _ & _ & _ & _ & _ & _ & _ & _ & H2 & H3 & H4).
  exists c. split; [exact H|]. rewrite H2. rewrite (same_value_identical l l' H3 H4 Hz), <- Hd.
  now destruct t.
Qed.

(** With zeros of both signs the bits may change: -0 +0 comes back as +0 +0. *)
Theorem C09_bit_identity_refuted :
  exists t c t', f32_tensor t /\ c_compress t = Ok c /\ c_decompress c = Ok t' /\ t' <> t.
Proof.
  exists (mkTensor 1 2 1 1 2 (Some [f32_neg_zero; f32_zero])). eexists _, _.
  split; [|split; [reflexivity|split; [reflexivity|discriminate]]].
  split; [split; cbn; repeat split; lia|]. cbn. repeat constructor; unfold f32_range, f32_neg_zero, f32_zero; lia.
Qed.

(** From 2^30 elements on, a tensor that was compressed cannot be decompressed. *)
Theorem C09_huge_tensors_refuted t l c :
  f32_tensor t -> data t = Some l -> 2 ^ 30 <= Z.of_nat (elements t) ->
  Z.of_nat (length (compress_data l)) < 2 ^ 32 ->
  c_compress t = Ok c -> c_decompress c = Fatal.
Proof. apply huge_tensor_fails. Qed.

(** ** C10 *)
Theorem C10_output_size l :
  Forall f32_range l -> (length (compress_data l) <= 8 * length l)%nat.
Proof. intros H. destruct (compress_spec l H) as (_ & _ & _ & _ & _ & _ & _ & Hl). exact Hl. Qed.

(** Hence Compress never writes outside its buffer, for any tensor. *)
Theorem C10_compress_stays_in_buffer t : f32_tensor t -> exists c, c_compress t = Ok c.
Proof.
  intros [Hwf Hr]. unfold c_compress. destruct Hwf as [He Hw]. destruct (data t) as [l|].
  - cbn [bind]. pose proof (C10_output_size l Hr) as H. destruct Hw as [Hl _].
    destruct (Nat.leb_spec (length (compress_data l)) (2 * elements t * 4 + 2)); [eauto|lia].
  - destruct Hw as (H1 & _). rewrite He, H1. cbn [Nat.mul Nat.eqb bind].
    eexists. reflexivity.
Qed.

(** ** C11 *)
(** Every byte sequence is a sequence of complete tokens followed by one of six kinds of
    tails, which determine what the decoder does with an output buffer of [cap] bytes. *)
Theorem C11_decoder_outcome cap input :
  Forall is_byte input -> Z.of_nat (length input) < 2 ^ 32 ->
  exists ts tail (k : tail_kind tail),
    input = encoded ts ++ tail /\ Forall token_ok ts /\
    decompress_data cap input =
    if (length (decoded ts) <=? cap)%nat then
      match k with
      | Complete | EmptyRun _ _ => if (length (decoded ts) mod 4 =? 0)%nat then Ok (decoded ts) else Fatal
      | BadEscape _ _ _ _ => Fatal
      | CutEscape | CutRunLength | CutRun _ _ _ _ => UB
      end
    else UB.
Proof.
  intros Hb Hsz. destruct (parse_tokens (length input) input (le_n _) Hb) as (ts & tail & E & Hok & [k]).
  exists ts, tail, k. split; [exact E|]. split; [exact Hok|].
  unfold decompress_data. destruct (Z.leb_spec (2 ^ 32) (Z.of_nat (length input))); [lia|].
  rewrite E, decode_tokens by auto. rewrite (decode_tail _ _ k).
  destruct (length (decoded ts) <=? cap)%nat; [|reflexivity].
  destruct k; cbn [tail_outcome bind]; rewrite ?app_nil_r; reflexivity.
Qed.

(** Decoding a tensor never yields a tensor of a different size than announced. *)
Theorem C11_decompressed_size c t :
  c_decompress c = Ok t -> (0 < c_elements c)%nat ->
  c_elements c = (c_samples c * c_width c * c_height c * c_maps c)%nat ->
  wf t /\ samples t = c_samples c /\ width t = c_width c /\ height t = c_height c /\ maps t = c_maps c.
Proof.
  intros Hd Hpos He. unfold c_decompress in Hd.
  destruct (decompress_data (4 * c_elements c) (c_data c)) as [o| |] eqn:Ed; try discriminate.
  cbn [bind] in Hd. destruct (Z.eqb_spec (reported_elements o) (Z.of_nat (c_elements c))) as [El|]; [|discriminate].
  unfold resize_prealloc in Hd.
  assert (Hn : (c_samples c * c_maps c * c_width c * c_height c = c_elements c)%nat) by (rewrite He; ring).
  rewrite Hn in Hd. destruct (Nat.eqb_spec (c_elements c) 0); [lia|]. inversion Hd; subst t. cbn.
  split; [|auto]. split; cbn; [rewrite <- Hn; ring|]. split; auto.
  destruct (decompress_length _ _ _ Ed) as [H1 H2].
  pose proof (reported_bound o _ El H1) as H3.
  assert (G : forall n bs, (length bs <= n)%nat -> length (f32s_of_bytes bs) = (length bs / 4)%nat).
  { clear. induction n as [|n IH]; intros bs H.
    - destruct bs; [reflexivity|simpl in H; lia].
    - destruct bs as [|b0 [|b1 [|b2 [|b3 rest]]]]; try reflexivity.
      cbn [f32s_of_bytes length]. rewrite IH by (cbn [length] in H; lia).
      replace (S (S (S (S (length rest))))) with (length rest + 1 * 4)%nat by lia.
      rewrite Nat.div_add by lia. lia. }
  rewrite (G (length o)) by lia. rewrite H3, Nat.mul_comm, Nat.div_mul; lia.
Qed.

(** The decoder does not check its output buffer: well-formed data that announces fewer
    elements than it holds makes it write outside. *)
Theorem C11_output_check_refuted :
  exists c, Forall is_byte (c_data c) /\
    c_elements c = (c_samples c * c_width c * c_height c * c_maps c)%nat /\
    c_decompress c = UB.
Proof.
  exists (mkCTensor 1 1 1 1 1 [88; 89; 2; 0; 0; 128; 63]).
  split; [|split; reflexivity]. repeat constructor; unfold is_byte; lia.
Qed.

(** ** Concrete cases *)
(** 1.0 three times, then a float that contains the escape byte, then NaN twice: NaN does
    not equal itself and is therefore never part of a run. *)
Definition ex_codec : tensor f32 :=
  mkTensor 1 3 2 1 6 (Some [1065353216; 1065353216; 1065353216; 1065351512; 2143289344; 2143289344]).
Example ex_codec_ok : f32_tensor ex_codec /\ 8 * Z.of_nat (elements ex_codec) < 2 ^ 32.
Proof.
  split; [|reflexivity]. split; [split; cbn; repeat split; lia|].
  cbn. repeat constructor; unfold f32_range; lia.
Qed.
Example ex_codec_bytes :
  compress_data [1065353216; 1065353216; 1065353216; 1065351512; 2143289344; 2143289344] =
  [88; 89; 3; 0; 0; 128; 63; 88; 88; 249; 127; 63; 0; 0; 192; 127; 0; 0; 192; 127].
Proof. reflexivity. Qed.
Example ex_codec_roundtrip : (c <- c_compress ex_codec ;; c_decompress c) = Ok ex_codec.
Proof. reflexivity. Qed.
Example ex_decoder_outcomes :
  decompress_data 8 [88; 89; 2; 0; 0; 128; 63] = Ok [0; 0; 128; 63; 0; 0; 128; 63] /\
  decompress_data 8 [88; 65] = Fatal /\ decompress_data 8 [1; 2; 3] = Fatal /\
  decompress_data 8 [1; 2; 3; 88] = UB.
Proof. repeat split. Qed.

Print Assumptions C09_roundtrip.
Print Assumptions C09_roundtrip_identical.
Print Assumptions C09_bit_identity_refuted.
Print Assumptions C09_huge_tensors_refuted.
Print Assumptions C10_output_size.
Print Assumptions C10_compress_stays_in_buffer.
Print Assumptions C11_decoder_outcome.
Print Assumptions C11_decompressed_size.
Print Assumptions C11_output_check_refuted.

(** C04 C12 C13 C14: serialization and tensor streams. *)
From Verif Require Import Base BaseFacts Float32 Bytes_Model Tensor_Model Tensor_Spec Tensor_Proofs
  Codec_Model Codec_Spec Stream_Spec Codec_Proofs Stream_Model StreamFiles_Spec Stream_Proofs.
Local Open Scope Z_scope.

(** ** C04 *)
(** Reading back into any tensor [t0], with anything behind it in the file. *)
Theorem C04_serialize_roundtrip junk t t0 following :
  f32_tensor t -> sizes_fit t -> wf t0 ->
  deserialize junk t0 false (mkIS (serialize t ++ following) false false) = Ok (t, mkIS following false false).
Proof. apply deserialize_serialize. Qed.

Theorem C04_header_only junk t t0 following :
  f32_tensor t -> sizes_fit t -> wf t0 ->
  exists t', deserialize junk t0 true (mkIS (serialize t ++ following) false false) = Ok (t', mkIS following false false) /\
    wf t' /\ same_shape t' t.
Proof. apply deserialize_head. Qed.

(** Memory-mapped reading gives the same tensor and the same position. *)
Theorem C04_mapped_roundtrip t following :
  f32_tensor t -> sizes_fit t ->
  deserialize_mmap (mkIS (serialize t ++ following) false false) = Ok (t, mkIS following false false).
Proof. apply deserialize_mmap_serialize. Qed.

(** Different tensors have different serializations. *)
Theorem C04_serialize_injective t u r s :
  f32_tensor t -> sizes_fit t -> f32_tensor u -> sizes_fit u ->
  serialize t ++ r = serialize u ++ s -> t = u /\ r = s.
Proof.
  intros Ht St Hu Su E.
  pose proof (deserialize_mmap_serialize t r Ht St) as H1.
  pose proof (deserialize_mmap_serialize u s Hu Su) as H2.
  rewrite E in H1. rewrite H1 in H2. inversion H2; subst. auto.
Qed.

(** ** C13 *)
Theorem C13_float_file_loads junk mmap ts tail :
  Forall (fun t => f32_tensor t /\ sizes_fit t /\ non_empty t) ts -> ends_float tail ->
  float_load junk mmap (flat_map serialize ts ++ tail) = Ok ts.
Proof. apply float_load_ok. Qed.

Theorem C13_file_kind file : Forall is_byte file ->
  (detect file = CompressedFile <-> exists following, file = [76; 194; 76; 194; 76; 194; 76; 194] ++ following).
Proof. exact (detect_spec file). Qed.

Theorem C13_float_file_misread_iff t following : sizes_fit t ->
  (detect (serialize t ++ following) = CompressedFile <-> Z.of_nat (samples t) = 14000778976521142860).
Proof. exact (detect_float t following). Qed.

(** ** C12 *)
Theorem C12_compressed_file_loads junkb mmap cs tail :
  Forall ctensor_ok cs -> ends_compressed tail ->
  compressed_load junkb mmap ([76; 194; 76; 194; 76; 194; 76; 194] ++ flat_map c_serialize cs ++ tail) =
  Ok (cs, fold_left Nat.max (map (fun c => c_elements c) cs) 0%nat).
Proof. exact (compressed_load_ok junkb mmap cs tail). Qed.

(** End to end: what the compression tool makes of a file of tensors is recognized as a
    compressed file, loads as one compressed tensor per original tensor, and each of them
    decompresses to its original (up to the sign of zeros). *)
Theorem C12_compression_tool junk junkb mmap ts :
  Forall compressible ts -> ts <> [] ->
  exists file cs m,
    compress_tool junk (flat_map serialize ts) = Ok file /\
    detect file = CompressedFile /\
    compressed_load junkb mmap file = Ok (cs, m) /\
    Forall2 (fun t c => exists t', c_decompress c = Ok t' /\ same_tensor_values t t') ts cs.
Proof.
  intros Hts Hne.
  assert (Hok : Forall ctensor_ok (map compressed_form ts)).
  { apply Forall_forall. intros c Hc. apply in_map_iff in Hc as (t & <- & Hin).
    rewrite Forall_forall in Hts. destruct (compressible_ctensor t (Hts t Hin)) as (c & t' & E & H & _).
    unfold compressed_form. now rewrite E. }
  eexists _, _, _. split; [now apply compress_tool_spec|]. split; [|split].
  - unfold detect. change (open_file ?x) with (st x). rewrite is_read_app by reflexivity. reflexivity.
  - rewrite <- (app_nil_r (flat_map c_serialize (map compressed_form ts))).
    apply compressed_load_ok; [exact Hok|now left].
  - clear Hok Hne. induction Hts as [|t ts Ht _ IH]; constructor; auto.
    destruct (compressible_ctensor t Ht) as (c & t' & E & H & H2 & H3 & _).
    unfold compressed_form. rewrite E. eauto.
Qed.

(** ** C14 *)
(** Both paths of the compressed stream do what CopySample does on the decompressed
    tensor; the scratch memory keeps its size. *)
Theorem C14_copy_sample cs temp source source_sample target target_sample c t :
  nth_error cs source = Some c -> ctensor_ok c -> c_decompress c = Ok t ->
  (c_elements c <= length temp)%nat -> wf target -> (target_sample < samples target)%nat ->
  exists temp', length temp' = length temp /\
    compressed_copy_sample cs temp source source_sample target target_sample =
    (r <- copy_sample f32_zero t source_sample target target_sample ;; Ok (r, temp')).
Proof. apply compressed_copy_ok. Qed.

(** Any sequence of requests, including requests for tensors or samples that do not
    exist, fills the target and answers exactly like a stream of the plain tensors,
    whatever the scratch memory [temp] contained before. *)
Theorem C14_request_history cs tens reqs temp target :
  Forall2 (fun c t => ctensor_ok c /\ c_decompress c = Ok t) cs tens ->
  Forall (fun c => (c_elements c <= length temp)%nat) cs ->
  wf target -> Forall (fun '(_, _, ts) => (ts < samples target)%nat) reqs ->
  exists target' answers temp',
    foldm (compressed_request cs) reqs (target, [], temp) = Ok (target', answers, temp') /\
    foldm (float_request tens) reqs (target, []) = Ok (target', answers).
Proof. apply requests_ok. Qed.

(** A target sample that does not exist: the plain stream refuses, the compressed stream
    writes outside the target's memory. *)
Theorem C14_missing_target_sample_refuted :
  exists c t target, ctensor_ok c /\ c_decompress c = Ok t /\ wf target /\
    float_copy_sample [t] 0 0 target 1 = Ok (target, false) /\
    compressed_copy_sample [c] [0; 0] 0 0 target 1 = UB.
Proof.
  exists (mkCTensor 1 2 1 1 2 [88; 89; 2; 0; 0; 128; 63]), (mkTensor 1 2 1 1 2 (Some [1065353216; 1065353216])),
    (mkTensor 1 2 1 1 2 (Some [7; 8])).
  split; [|split; [reflexivity|split; [|split; reflexivity]]].
  - unfold ctensor_ok. cbn. repeat split; try lia; try discriminate. repeat constructor; unfold is_byte; lia.
  - split; cbn; auto.
Qed.

(** ** Concrete cases *)
Definition ex_a : tensor f32 := mkTensor 1 2 1 1 2 (Some [1065353216; 0]).
Definition ex_b : tensor f32 := mkTensor 1 1 3 1 3 (Some [5; 5; 5]).
Example ex_streams_ok : Forall compressible [ex_a; ex_b] /\
  Forall (fun t => f32_tensor t /\ sizes_fit t /\ non_empty t) [ex_a; ex_b].
Proof.
  assert (Ha : compressible ex_a).
  { split; [split; [split; cbn; repeat split; lia|cbn; repeat constructor; unfold f32_range; lia]|].
    split; [unfold sizes_fit; cbn; lia|]. split; [discriminate|reflexivity]. }
  assert (Hb : compressible ex_b).
  { split; [split; [split; cbn; repeat split; lia|cbn; repeat constructor; unfold f32_range; lia]|].
    split; [unfold sizes_fit; cbn; lia|]. split; [discriminate|reflexivity]. }
  split; [constructor; [exact Ha|constructor; [exact Hb|constructor]]|].
  constructor; [|constructor; [|constructor]]; [destruct Ha as (?&?&?&_)|destruct Hb as (?&?&?&_)]; auto.
Qed.
Example ex_float_load :
  float_load (fun _ => 9) false (flat_map serialize [ex_a; ex_b] ++ serialize empty_tensor ++ [1; 2]) = Ok [ex_a; ex_b].
Proof. reflexivity. Qed.
Example ex_tool_load :
  (f <- compress_tool (fun _ => 9) (flat_map serialize [ex_a; ex_b]) ;; compressed_load (fun _ => 1) false f)
  = Ok ([mkCTensor 1 2 1 1 2 [0; 0; 128; 63; 0; 0; 0; 0]; mkCTensor 1 1 3 1 3 [88; 89; 3; 5; 0; 0; 0]], 3%nat).
Proof. vm_compute. reflexivity. Qed.
(** first request takes the fast path, second the ordinary path, the others are refused *)
Example ex_requests :
  foldm (compressed_request [mkCTensor 1 2 1 1 2 [88; 89; 2; 0; 0; 128; 63]; mkCTensor 1 1 1 1 1 [5; 0; 0; 0]])
        [(0, 0, 1); (1, 0, 0); (2, 0, 0); (0, 1, 0)]%nat
        (mkTensor 2 2 1 1 4 (Some [7; 8; 9; 10]), [], [99; 99]) =
  Ok (mkTensor 2 2 1 1 4 (Some [5; 0; 1065353216; 1065353216]), [true; true; false; false], [1065353216; 1065353216]).
Proof. vm_compute. reflexivity. Qed.

Print Assumptions C04_serialize_roundtrip.
Print Assumptions C04_header_only.
Print Assumptions C04_mapped_roundtrip.
Print Assumptions C04_serialize_injective.
Print Assumptions C13_float_file_loads.
Print Assumptions C13_file_kind.
Print Assumptions C13_float_file_misread_iff.
Print Assumptions C12_compressed_file_loads.
Print Assumptions C12_compression_tool.
Print Assumptions C14_copy_sample.
Print Assumptions C14_request_history.
Print Assumptions C14_missing_target_sample_refuted.

(** A tensor without elements is stored as five zeros and nothing else; an entry without data is read as that tensor, whatever
    sizes it claims. *)
Theorem C12_empty_entry : forall junkb mmap t s w h m following,
  data t = None -> elements t = 0%nat -> Forall (fun n => Z.of_nat n < 2 ^ 64) [s; w; h; m] ->
  exists c, c_compress t = Ok c /\ c_serialize c = repeat 0 40 /\
    c_samples c = 0%nat /\ c_width c = 0%nat /\ c_height c = 0%nat /\ c_maps c = 0%nat /\ c_elements c = 0%nat /\ c_data c = [] /\
    c_deserialize junkb mmap (open_file (u64_bytes (Z.of_nat s) ++ u64_bytes (Z.of_nat w) ++ u64_bytes (Z.of_nat h) ++ u64_bytes (Z.of_nat m) ++ u64_bytes 0 ++ following)) =
      Ok (c, open_file following).
Proof.
  intros junkb mmap t s w h m following Hd He Hs. inversion Hs as [|? ? H1 Hs1]; subst. inversion Hs1 as [|? ? H2 Hs2]; subst. inversion Hs2 as [|? ? H3 Hs3]; subst. inversion Hs3 as [|? ? H4 _]; subst.
  exists c_empty. split; [unfold c_compress; rewrite Hd, He; reflexivity|]. split; [reflexivity|]. do 6 (split; [reflexivity|]).
  unfold c_deserialize. change open_file with st. rewrite !read_u64_app by assumption. change (u64_bytes 0) with (u64_bytes (Z.of_nat 0)). rewrite read_u64_app by reflexivity. reflexivity.
Qed.
Print Assumptions C12_empty_entry.

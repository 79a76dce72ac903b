(** C88: reading files that are cut short, or that hold anything at all. *)
From Verif Require Import Base BaseFacts Float32 Bytes_Model Tensor_Model Tensor_Spec Tensor_Proofs
  Codec_Model Codec_Spec Codec_Proofs Stream_Model Stream_Spec StreamFiles_Spec Stream_Proofs Stream_Props NetParams_Model NetParams_Proofs NetParams_Props
  ToolStream_Model CutFiles_Proofs.
Local Open Scope nat_scope.

(** ** Any bytes *)

(** Loading a float file by reading ends, whatever the file holds, and gives consistent tensors that are not empty. *)
Theorem C88_any_float_file : forall junk file,
  exists ts, float_load junk false file = Ok ts /\ Forall (fun t => wf t /\ non_empty t) ts.
Proof.
  intros junk file. unfold float_load.
  destruct (load_loop_any (fun s => deserialize junk empty_tensor false s) (fun t => elements t) wf) with (fuel := S (length file)) (s := open_file file) (acc := @nil (tensor f32))
    as (ts & E & F).
  - intros s H. destruct (deserialize_any junk empty_tensor s wf_empty H) as (t & s' & E & W & H' & _ & M). exists t, s'. split; [exact E|]. split; [exact W|]. split; [exact H'|]. intros N. specialize (M N). lia.
  - discriminate.
  - constructor.
  - cbn. lia.
  - exists ts. split; [exact E|]. eapply Forall_impl; [|exact F]. cbn. intros t [W P]. split; [exact W|]. intros D. destruct W as [He W]. rewrite D in W. destruct W as (Z1 & _). rewrite He, Z1 in P. cbn in P. lia.
Qed.

(** Loading a compressed file by reading: refused exactly without the magic number; otherwise it ends. *)
Theorem C88_any_compressed_file : forall junkb file, Forall is_byte file ->
  (detect file = FloatFile -> compressed_load junkb false file = Fatal) /\
  (detect file = CompressedFile -> exists cs, compressed_load junkb false file = Ok (cs, fold_left Nat.max (map (fun c => c_elements c) cs) 0) /\
    Forall (fun c => 0 < c_elements c) cs).
Proof.
  intros junkb file _. unfold detect, compressed_load.
  pose proof (is_read_sane 8 (open_file file)) as P. destruct (is_read 8 (open_file file)) as [got s] eqn:E. cbn [fst snd] in *.
  destruct (le_value got =? cts_magic)%Z; split; intros H; try discriminate; [|reflexivity].
  destruct P as (P & L & _); [discriminate|].
  destruct (load_loop_any (c_deserialize junkb false) (fun c => c_elements c) (fun _ => True) (c_deserialize_any junkb) (S (length file)) s [] P) as (cs & -> & F).
  - constructor.
  - cbn in L. lia.
  - cbn [bind]. exists cs. split; [reflexivity|]. eapply Forall_impl; [|exact F]. cbn. tauto.
Qed.

Lemma count_any junk : forall fuel t s n, wf t -> sane s -> length (rest s) < fuel -> exists m, count_loop junk fuel t s n = Ok (Some m).
Proof.
  induction fuel as [|fuel IH]; intros t s n W H L; [lia|]. cbn [count_loop]. destruct (eofbit s); [eauto|].
  destruct (deserialize_any junk t s W H) as (t' & s' & -> & W' & H' & _ & M). cbn [bind fst snd].
  pose proof (is_peek_sane s' H') as (H2 & R2 & E2). destruct (eofbit s') eqn:F.
  - specialize (E2 eq_refl). exists (n + 1). destruct fuel; cbn [count_loop]; now rewrite E2.
  - apply IH; auto. rewrite R2. specialize (M eq_refl). lia.
Qed.

Lemma read_any junk : forall n s, sane s -> exists ts, read_tensors junk n s = Ok ts /\ length ts = n /\ Forall wf ts.
Proof.
  induction n as [|n IH]; intros s H; cbn [read_tensors]; [eauto|].
  destruct (deserialize_any junk empty_tensor s wf_empty H) as (t' & s' & -> & W' & H' & _). cbn [bind fst snd].
  destruct (IH s' H') as (ts & -> & L & F). cbn [bind]. exists (t' :: ts). cbn. auto.
Qed.

(** tensorStreamTool ends on every file that exists (it does not when there is none, see C72): it leaves the file alone
    or writes as many tensors as it was told to keep. *)
Theorem C88_any_tool : forall junk fuel file keep, length file < fuel ->
  exists history, stream_tool junk fuel (Some file) keep = Ok (Some history) /\ hd [] history = file /\
    (history = [file] \/ exists ts, length ts = keep /\ Forall wf ts /\ last history [] = flat_map serialize ts).
Proof.
  intros junk fuel file keep L. unfold stream_tool. cbn [open_path].
  destruct (count_any junk fuel empty_tensor (open_file file) 0 wf_empty) as (m & ->); [discriminate|exact L|]. cbn [bind].
  destruct (m <? keep); [eexists; split; [reflexivity|]; auto|]. destruct (m =? keep); [eexists; split; [reflexivity|]; auto|].
  destruct (read_any junk keep (open_file file)) as (ts & -> & Lt & F); [discriminate|]. cbn [bind]. eexists. split; [reflexivity|]. split; [reflexivity|]. right.
  exists ts. split; [exact Lt|]. split; [exact F|]. unfold prefixes. set (b := flat_map serialize ts). rewrite seq_S, map_app. cbn [Nat.add map]. rewrite firstn_all.
  rewrite app_comm_cons. now rewrite last_last.
Qed.

(** Loading parameters ends on every file, keeps the number of parameters of every layer, and leaves the layers behind
    the last one asked for alone. *)
Theorem C88_any_parameters : forall junk cur last_layer file, cur <> [] -> Forall (Forall wf) cur ->
  exists loaded s, deserialize_parameters junk cur last_layer (open_file file) = Ok (loaded, s) /\
    map (@length _) loaded = map (@length _) cur /\ Forall wf (concat (firstn (S (last_restored last_layer (length cur))) loaded)) /\
    skipn (S (last_restored last_layer (length cur))) loaded = skipn (S (last_restored last_layer (length cur))) cur.
Proof.
  intros junk cur last_layer file Hc Hw. unfold deserialize_parameters. destruct cur as [|c0 cs] eqn:Ecur; [congruence|]. rewrite <- Ecur in *.
  fold (last_restored last_layer (length cur)). set (last := S (last_restored last_layer (length cur))).
  assert (Hlast : last <= length cur).
  { subst last. unfold last_restored. rewrite Ecur. cbn [length]. destruct (last_layer =? 0); cbn [orb]; [lia|].
    destruct (Nat.leb_spec (S (length cs)) last_layer); lia. }
  assert (Hw' : Forall wf (concat (firstn last cur))).
  { rewrite <- (firstn_skipn last cur) in Hw. apply Forall_app in Hw as [Hw _]. clear - Hw. induction Hw; cbn; [constructor|]. apply Forall_app. auto. }
  destruct (load_layer_any junk _ (open_file file) Hw') as (flat & s & E & F); [discriminate|].
  destruct (load_layers_flat junk _ _ _ _ E) as (ls' & -> & <- & L). cbn [bind]. eexists. eexists. split; [reflexivity|].
  assert (Ln : length ls' = length (firstn last cur)) by (rewrite <- (map_length (@length _)), L; apply map_length).
  rewrite firstn_length, Nat.min_l in Ln by exact Hlast.
  split; [|split].
  - rewrite map_app, L, <- map_app, firstn_skipn. reflexivity.
  - rewrite firstn_app, Ln, Nat.sub_diag, firstn_O, app_nil_r. rewrite firstn_all2 by lia. exact F.
  - rewrite skipn_app, Ln, Nat.sub_diag. cbn [skipn]. rewrite (skipn_all2 ls') by lia. reflexivity.
Qed.

(** ** Files that are cut *)
Definition ordinary (t : tensor f32) : Prop := f32_tensor t /\ sizes_fit t /\ non_empty t.

Lemma ordinary_prefix junk ts t k acc : Forall ordinary ts -> 0 < k -> k < length (serialize t) ->
  load_loop (fun s => deserialize junk empty_tensor false s) (fun t => elements t) (S (length (flat_map serialize ts ++ firstn k (serialize t))))
    (st (flat_map serialize ts ++ firstn k (serialize t))) acc =
  load_loop (fun s => deserialize junk empty_tensor false s) (fun t => elements t)
    (S (S (length (flat_map serialize ts ++ firstn k (serialize t)) - length ts - 1))) (st (firstn k (serialize t))) (acc ++ ts).
Proof.
  intros F Hk Hl. rewrite Forall_forall in F. pose proof (flat_map_length_ge serialize ts) as G.
  assert (length ts <= length (flat_map serialize ts)) by (apply G; intros x _; pose proof (serialize_length x); lia).
  assert (Hlen : length (firstn k (serialize t)) = k) by (rewrite firstn_length; lia).
  rewrite load_loop_prefix; [f_equal; rewrite app_length, Hlen; lia| | | |].
  - intros E. rewrite E in Hlen. cbn in Hlen. lia.
  - rewrite app_length. lia.
  - intros u r Hin. destruct (F u Hin) as (A & B & _). apply deserialize_serialize; auto. apply wf_empty.
  - intros u Hin. destruct (F u Hin) as ([[He A] _] & _ & C). unfold non_empty in C. destruct (data u); [lia|congruence].
Qed.

(** Cut within the first three sizes of a tensor: the tensors before it are loaded, and nothing else. *)
Theorem C88_cut_header : forall junk ts t k, Forall ordinary ts -> ordinary t -> k <= 24 ->
  float_load junk false (flat_map serialize ts ++ firstn k (serialize t)) = Ok ts.
Proof.
  intros junk ts t k F (Ft & S & N) Hk. destruct k as [|k].
  { rewrite firstn_O. apply C13_float_file_loads; [exact F|now left]. }
  unfold float_load. change (open_file ?x) with (st x). pose proof (serialize_length t).
  rewrite ordinary_prefix by (auto; lia). cbn [load_loop]. cbn [st eofbit].
  destruct (deserialize_cut_header junk t empty_tensor (Datatypes.S k) N (proj1 Ft) S wf_empty Hk) as (s' & E & _). unfold st in E |- *. rewrite E. cbn [bind]. reflexivity.
Qed.

(** Cut later: the tensors before it are loaded, and one more of the full size is handed out.  It has the values whose
    bytes the file still holds; the values of which it holds no byte are what was in memory. *)
(** Finding: a tensor file that is cut short is not refused.  FloatTensorStream.cpp and Tensor::Deserialize never look at
    the number of bytes read: the last tensor is handed out in full size, its missing values are uninitialized memory;
    with less than four complete sizes in the header even all of its values. *)
Theorem C88_cut_data_refuted : forall junk ts t l k, Forall ordinary ts -> ordinary t -> data t = Some l -> (forall i, f32_range (junk i)) ->
  24 < k -> k < length (serialize t) -> (Z.of_nat (maps t) < 256 ^ Z.of_nat (k - 24))%Z ->
  exists t' l', float_load junk false (flat_map serialize ts ++ firstn k (serialize t)) = Ok (ts ++ [t']) /\
    same_shape t' t /\ data t' = Some l' /\ length l' = length l /\
    (forall i, 32 + 4 * (i + 1) <= k -> nth_error l' i = nth_error l i) /\
    (forall i, k <= 32 + 4 * i -> i < length l -> nth_error l' i = Some (junk i)).
Proof.
  intros junk ts t l k F (Ft & Sz & N) D J Hk Hl Hm.
  destruct (serialize_parts t N (proj1 Ft)) as (l0 & D0 & El & P & _). rewrite D in D0. injection D0 as <-.
  assert (Ro : resize junk empty_tensor (samples t) (width t) (height t) (maps t) =
     mkTensor (samples t) (width t) (height t) (maps t) (samples t * maps t * width t * height t) (Some (map junk (seq 0 (elements t))))).
  { unfold resize, reshape. cbn [data empty_tensor]. rewrite (proj1 (proj1 Ft)) in *. replace (samples t * maps t * width t * height t) with (samples t * maps t * height t * width t) by ring.
    destruct (Nat.eqb_spec (samples t * maps t * height t * width t) 0); [lia|]. reflexivity. }
  destruct (deserialize_cut_data junk t empty_tensor (map junk (seq 0 (elements t))) l k Ft Sz D wf_empty) as (l' & s' & E & Es & Ll & A & B).
  - now rewrite Ro.
  - apply Forall_forall. intros v Hv. apply in_map_iff in Hv as (i & <- & _). apply J.
  - exact Hk.
  - exact Hl.
  - exact Hm.
  - eexists. exists l'. split; [|split; [|split; [|split; [lia|split; [exact A|]]]]].
    + unfold float_load. change (open_file ?x) with (st x). rewrite ordinary_prefix by (auto; lia). cbn [load_loop]. cbn [st eofbit].
      unfold st in E |- *. rewrite E. cbn [bind elements]. destruct (Nat.eqb_spec (elements t) 0); [lia|]. rewrite Es. reflexivity.
    + repeat split.
    + reflexivity.
    + intros i Hi Hil. rewrite B by exact Hi. rewrite nth_error_map. rewrite (nth_error_nth' _ 0) by (rewrite seq_length; lia). rewrite seq_nth by lia. reflexivity.
Qed.

(** Finding: a tensor file that is cut inside the values of a tensor and memory mapped is accepted; the program faults
    when it touches the missing values (Tensor.cpp:288-303 maps as many bytes as the header asks for). *)
Theorem C88_cut_mapped_refuted : forall junk ts t k, Forall ordinary ts -> ordinary t -> 32 <= k -> k < length (serialize t) ->
  float_load junk true (flat_map serialize ts ++ firstn k (serialize t)) = UB.
Proof.
  intros junk ts t k F (Ft & Sz & N) Hk Hl. unfold float_load. change (open_file ?x) with (st x). rewrite Forall_forall in F.
  pose proof (flat_map_length_ge serialize ts) as G.
  assert (length ts <= length (flat_map serialize ts)) by (apply G; intros x _; pose proof (serialize_length x); lia).
  assert (Hlen : length (firstn k (serialize t)) = k) by (rewrite firstn_length; lia).
  rewrite (load_loop_prefix _ _ serialize).
  - replace (S (length (flat_map serialize ts ++ firstn k (serialize t))) - length ts) with (S (length (flat_map serialize ts ++ firstn k (serialize t)) - length ts)) by (rewrite app_length; lia).
    cbn [load_loop]. cbn [st eofbit].
    destruct (serialize_parts t N (proj1 Ft)) as (l & D & El & P & Ls & Es).
    assert (L : forall v, length (u64_bytes v) = 8) by (intros; apply le_bytes_length). destruct Sz as (S1 & S2 & S3 & S4).
    assert (U : deserialize_mmap (st (firstn k (serialize t))) = UB).
    { rewrite Es, firstn_app. rewrite (firstn_all2 (_ ++ _)) by (rewrite !app_length, !L; lia). rewrite !app_length, !L. replace (k - (8 + (8 + 8))) with (k - 24) by lia.
      rewrite firstn_app, L, (firstn_all2 (u64_bytes (Z.of_nat (maps t)))) by (rewrite L; lia). rewrite <- !app_assoc. unfold deserialize_mmap. rewrite !read_u64_app by auto.
      replace (samples t * maps t * width t * height t) with (elements t) by (rewrite (proj1 (proj1 Ft)); ring).
      destruct (Nat.ltb_spec 0 (elements t)); [|lia]. cbn [st rest]. rewrite firstn_length, flat_bytes_length.
      destruct (Nat.leb_spec (4 * elements t) (Nat.min (k - 24 - 8) (4 * length l))); [lia|reflexivity]. }
    unfold st in U |- *. rewrite U. reflexivity.
  - intros E. rewrite E in Hlen. cbn in Hlen. lia.
  - rewrite app_length. lia.
  - intros u r Hin. destruct (F u Hin) as (A & B & _). now apply deserialize_mmap_serialize.
  - intros u Hin. destruct (F u Hin) as ([[He A] _] & _ & C). unfold non_empty in C. destruct (data u); [lia|congruence].
Qed.

(** Parameters from a file that is cut inside the values of one of them, when this parameter has its size already: the
    parameters before it are restored, the ones behind it stay as they were. *)
(** Finding: the parameter in which the file ends is left half restored: the leading values come from the file, the others
    are those the network had before.  NetGraph::DeserializeParameters reports nothing. *)
Theorem C88_cut_parameters_refuted : forall junk cur before q after params p k l old,
  Forall (Forall wf) cur -> concat cur = before ++ q :: after -> length params = length before -> Forall storable params ->
  ordinary p -> same_shape q p -> data p = Some l -> data q = Some old -> Forall f32_range old -> 32 <= k -> k < length (serialize p) ->
  exists loaded s l', deserialize_parameters junk cur 0 (open_file (flat_map serialize params ++ firstn k (serialize p))) = Ok (loaded, s) /\
    map (@length _) loaded = map (@length _) cur /\
    concat loaded = params ++ with_data q l' :: after /\ length l' = length l /\
    (forall i, 32 + 4 * (i + 1) <= k -> nth_error l' i = nth_error l i) /\
    (forall i, k <= 32 + 4 * i -> nth_error l' i = nth_error old i).
Proof.
  intros junk cur before q after params p k l old Hw Ec Lp Sp (Fp & Sz & N) Hs Dl Dq Ro Hk Hl.
  assert (W : Forall wf (concat cur)) by (clear - Hw; induction Hw; cbn; [constructor|]; apply Forall_app; auto).
  rewrite Ec in W. apply Forall_app in W as [Wb Wq]. inversion Wq as [|? ? Wq1 Wa]; subst.
  destruct (serialize_parts p N (proj1 Fp)) as (l0 & D0 & El & P & _). rewrite Dl in D0. injection D0 as <-.
  destruct Hs as (A1 & A2 & A3 & A4).
  assert (Eq : elements q = elements p) by (rewrite (proj1 Wq1), (proj1 (proj1 Fp)), A1, A2, A3, A4; reflexivity).
  destruct (deserialize_cut_data junk p q old l k Fp Sz Dl Wq1) as (l' & s' & E & Es & Ll & A & B).
  - unfold resize, reshape. rewrite Dq. replace (samples p * maps p * width p * height p) with (elements p) by (rewrite (proj1 (proj1 Fp)); ring). rewrite Eq, Nat.eqb_refl. reflexivity.
  - exact Ro.
  - lia.
  - exact Hl.
  - destruct Sz as (_ & _ & _ & S4). eapply Z.lt_le_trans; [exact S4|]. change (2 ^ 64)%Z with (256 ^ 8)%Z. apply Z.pow_le_mono_r; lia.
  - assert (Hc : cur <> []) by (intros ->; destruct before; discriminate).
    assert (Fl : load_layer junk (concat cur) (st (flat_map serialize params ++ firstn k (serialize p))) = Ok (params ++ with_data q l' :: after, is_peek s')).
    { rewrite Ec, load_layer_app. rewrite load_layer_prefix; auto; [|intros E0; apply (f_equal (@length _)) in E0; rewrite firstn_length in E0; cbn in E0; lia].
      cbn [bind fst snd load_layer]. change (negb (good (st (firstn k (serialize p)))) || eofbit (st (firstn k (serialize p)))) with false. cbn iota. rewrite E. cbn [bind].
      rewrite load_layer_stopped by (rewrite Es; reflexivity). cbn [bind fst snd]. unfold with_data. rewrite A1, A2, A3, A4, Eq. reflexivity. }
    destruct (load_layers_flat junk cur _ _ _ Fl) as (ls' & El' & Ecc & Lm).
    exists ls'. exists (is_peek s'). exists l'. split; [|split; [exact Lm|split; [exact Ecc|split; [lia|split; [exact A|exact B]]]]].
    unfold deserialize_parameters. destruct cur as [|c0 cs] eqn:Ecur; [congruence|]. rewrite <- Ecur in *. cbn [Nat.eqb orb].
    replace (S (length cur - 1)) with (length cur) by (rewrite Ecur; cbn; lia). rewrite firstn_all, skipn_all. change (open_file ?x) with (st x). rewrite El'. cbn [bind]. now rewrite app_nil_r.
Qed.

(** Two tensors in a file that ends one byte inside the second value of the second tensor. *)
Definition cut_a : tensor f32 := mkTensor 1 2 1 1 2 (Some [7; 8]%Z).
Definition cut_b : tensor f32 := mkTensor 1 3 1 1 3 (Some [1; 2; 3]%Z).
Example C88_hypotheses : ordinary cut_a /\ ordinary cut_b /\ 32 <= 37 < length (serialize cut_b) /\
  (Z.of_nat (maps cut_b) < 256 ^ Z.of_nat (37 - 24))%Z /\ (Z.of_nat (maps cut_b) < 256 ^ Z.of_nat (25 - 24))%Z /\
  float_load (fun i => Z.of_nat (100 + i)) false (flat_map serialize [cut_a] ++ firstn 37 (serialize cut_b)) =
    Ok [cut_a; mkTensor 1 3 1 1 3 (Some [1; 2; 102]%Z)] /\
  float_load (fun i => Z.of_nat (100 + i)) false (flat_map serialize [cut_a] ++ firstn 25 (serialize cut_b)) =
    Ok [cut_a; mkTensor 1 3 1 1 3 (Some [100; 101; 102]%Z)].
Proof.
  assert (A : ordinary cut_a).
  { split; [split; [split; [reflexivity|cbn; lia]|repeat constructor; unfold f32_range; lia]|split; [unfold sizes_fit; cbn; lia|discriminate]]. }
  assert (B : ordinary cut_b).
  { split; [split; [split; [reflexivity|cbn; lia]|repeat constructor; unfold f32_range; lia]|split; [unfold sizes_fit; cbn; lia|discriminate]]. }
  split; [exact A|]. split; [exact B|]. split; [split; [lia|apply Nat.leb_le; vm_compute; reflexivity]|]. split; [vm_compute; reflexivity|]. split; [vm_compute; reflexivity|].
  split; vm_compute; reflexivity.
Qed.

Example C88_parameters_hypotheses : exists l s,
  deserialize_parameters (fun _ => 0%Z) [[mkTensor 1 2 1 1 2 (Some [50; 51]%Z)]; [mkTensor 1 3 1 1 3 (Some [60; 61; 62]%Z); cut_a]] 0
    (open_file (flat_map serialize [cut_a] ++ firstn 37 (serialize cut_b))) = Ok (l, s) /\
  l = [[cut_a]; [mkTensor 1 3 1 1 3 (Some [1; 2; 62]%Z); cut_a]].
Proof. eexists. eexists. split; [vm_compute; reflexivity|reflexivity]. Qed.

Print Assumptions C88_any_float_file.
Print Assumptions C88_any_compressed_file.
Print Assumptions C88_any_tool.
Print Assumptions C88_any_parameters.
Print Assumptions C88_cut_header.
Print Assumptions C88_cut_data_refuted.
Print Assumptions C88_cut_mapped_refuted.
Print Assumptions C88_cut_parameters_refuted.

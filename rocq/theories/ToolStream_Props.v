(** C72: the tools that shorten tensor files and edit single tensors. *)
From Verif Require Import Base BaseFacts Float32 Bytes_Model Tensor_Model Tensor_Spec Tensor_Proofs Tensor_Props Codec_Model Stream_Model Stream_Spec StreamFiles_Spec Stream_Proofs Stream_Props
  Raw_Model Segmentation_Model Math_Model Math_Spec Segmentation_Props ToolStream_Model.
Local Open Scope nat_scope.

(** A file of at least one tensor. *)
Definition tensor_file (ts : list (tensor f32)) : Prop := ts <> [] /\ Forall (fun t => f32_tensor t /\ sizes_fit t) ts.

Lemma serialize_long t : exists b r, serialize t = b :: r.
Proof. unfold serialize, u64_bytes. cbn. eauto. Qed.

Lemma is_peek_more t r : is_peek (st (serialize t ++ r)) = st (serialize t ++ r).
Proof. destruct (serialize_long t) as (b & r' & ->). reflexivity. Qed.

Section Tools.
Variable junk : nat -> f32.

Lemma count_spec ts : forall fuel t0 n, tensor_file ts -> wf t0 -> length ts <= fuel -> count_loop junk fuel t0 (st (flat_map serialize ts)) n = Ok (Some (n + length ts)).
Proof.
  induction ts as [|t ts IH]; intros fuel t0 n [Hne Hall] W Hf; [congruence|]. inversion Hall as [|? ? [F S] Hall']; subst. destruct fuel as [|fuel]; [cbn in Hf; lia|].
  cbn [count_loop flat_map]. change (eofbit (st _)) with false. cbv iota. rewrite (deserialize_serialize junk t t0 _ F S W). cbn [bind fst snd].
  destruct ts as [|t2 ts].
  - cbn [flat_map]. change (is_peek (st [])) with (mkIS [] true false). destruct fuel; cbn; f_equal; f_equal; lia.
  - cbn [flat_map]. rewrite is_peek_more. change (serialize t2 ++ flat_map serialize ts) with (flat_map serialize (t2 :: ts)). rewrite IH.
    + cbn [length]. f_equal. f_equal. lia.
    + split; [discriminate|exact Hall'].
    + apply F.
    + cbn in *. lia.
Qed.

Lemma read_spec ts : forall k, Forall (fun t => f32_tensor t /\ sizes_fit t) ts -> k <= length ts -> read_tensors junk k (st (flat_map serialize ts)) = Ok (firstn k ts).
Proof.
  induction ts as [|t ts IH]; intros [|k] Hall Hk; cbn [length] in Hk; try lia; try reflexivity. inversion Hall as [|? ? [F S] Hall']; subst.
  cbn [read_tensors flat_map firstn]. rewrite (deserialize_serialize junk t empty_tensor _ F S wf_empty). cbn [bind fst snd]. rewrite IH by (auto; lia). reflexivity.
Qed.

Lemma read_id_spec ts : forall k t0 t, Forall (fun t => f32_tensor t /\ sizes_fit t) ts -> wf t0 -> nth_error ts k = Some t -> read_id junk k t0 (st (flat_map serialize ts)) = Ok t.
Proof.
  induction ts as [|t ts IH]; intros [|k] t0 t' Hall W E; cbn [nth_error] in E; try discriminate; inversion Hall as [|? ? [F S] Hall']; subst.
  - injection E as ->. cbn [read_id flat_map]. now rewrite (deserialize_serialize junk t' t0 _ F S W).
  - cbn [read_id flat_map]. rewrite (deserialize_serialize junk t t0 _ F S W). cbn [bind fst snd]. apply IH; auto. apply F.
Qed.
End Tools.

(** ** tensorStreamTool *)

(** The tool leaves the first [keep] tensors, and the file as it is if there are no more than that. *)
Theorem C72_keeps_first : forall junk ts keep fuel, tensor_file ts -> length ts <= fuel ->
  exists history, stream_tool junk fuel (Some (flat_map serialize ts)) keep = Ok (Some history) /\
    hd [] history = flat_map serialize ts /\
    last history [] = flat_map serialize (firstn keep ts) /\
    (length ts <= keep -> history = [flat_map serialize ts]).
Proof.
  intros junk ts keep fuel H Hf. unfold stream_tool. cbn [open_path]. change (open_file ?x) with (st x).
  rewrite (count_spec junk ts fuel empty_tensor 0 H wf_empty Hf). cbn [bind Nat.add].
  destruct (Nat.ltb_spec (length ts) keep) as [L|L].
  - eexists. split; [reflexivity|]. cbn [hd last]. split; [reflexivity|]. split; [|reflexivity]. now rewrite firstn_all2 by lia.
  - destruct (Nat.eqb_spec (length ts) keep) as [<-|N].
    + eexists. split; [reflexivity|]. cbn [hd last]. split; [reflexivity|]. split; [|reflexivity]. now rewrite firstn_all.
    + rewrite (read_spec junk ts keep (proj2 H)) by lia. cbn [bind]. eexists. split; [reflexivity|]. split; [reflexivity|]. split; [|lia].
      unfold prefixes. set (b := flat_map serialize (firstn keep ts)). rewrite seq_S, map_app. cbn [Nat.add map]. rewrite firstn_all.
      rewrite app_comm_cons. now rewrite last_last.
Qed.

(** So a program that opens the file afterwards finds the first [keep] tensors (here for tensors that are not empty). *)
Theorem C72_kept_load : forall junk junk' mmap ts keep fuel, tensor_file ts -> Forall non_empty ts -> length ts <= fuel ->
  exists history, stream_tool junk fuel (Some (flat_map serialize ts)) keep = Ok (Some history) /\
    float_load junk' mmap (last history []) = Ok (firstn keep ts).
Proof.
  intros junk junk' mmap ts keep fuel H Hn Hf. destruct (C72_keeps_first junk ts keep fuel H Hf) as (hi & E & _ & L & _). exists hi. split; [exact E|]. rewrite L.
  rewrite <- (app_nil_r (flat_map serialize (firstn keep ts))). apply C13_float_file_loads; [|now left]. destruct H as [_ H]. apply Forall_forall. intros t Ht.
  rewrite Forall_forall in H, Hn. assert (In t ts) by (rewrite <- (firstn_skipn keep ts); apply in_or_app; now left). destruct (H t); auto.
Qed.

(** If the tool is interrupted, the file is as it was or has the first bytes of what it will be. *)
Theorem C72_interrupted : forall junk fuel ts keep history now, tensor_file ts -> length ts <= fuel ->
  stream_tool junk fuel (Some (flat_map serialize ts)) keep = Ok (Some history) -> In now history ->
  now = flat_map serialize ts \/ exists later, now ++ later = flat_map serialize (firstn keep ts).
Proof.
  intros junk fuel ts keep history now H Hf E Hin. unfold stream_tool in E. cbn [open_path] in E. change (open_file ?x) with (st x) in E.
  rewrite (count_spec junk ts fuel empty_tensor 0 H wf_empty Hf) in E. cbn [bind Nat.add] in E.
  destruct (length ts <? keep) eqn:L; [injection E as <-; destruct Hin as [<-|[]]; now left|].
  destruct (length ts =? keep); [injection E as <-; destruct Hin as [<-|[]]; now left|]. apply Nat.ltb_ge in L.
  rewrite (read_spec junk ts keep (proj2 H)) in E by lia. cbn [bind] in E. injection E as <-. destruct Hin as [<-|Hin]; [now left|]. right.
  apply in_map_iff in Hin as (k & <- & _). exists (skipn k (flat_map serialize (firstn keep ts))). apply firstn_skipn.
Qed.

(** But the tensors to be kept are not safe: when some tensors are dropped there is a moment when the file is empty. *)
Theorem C72_interrupted_refuted : forall junk fuel ts keep, tensor_file ts -> length ts <= fuel -> keep < length ts ->
  exists history, stream_tool junk fuel (Some (flat_map serialize ts)) keep = Ok (Some history) /\ In [] history.
Proof.
  intros junk fuel ts keep H Hf Hk. unfold stream_tool. cbn [open_path]. change (open_file ?x) with (st x).
  rewrite (count_spec junk ts fuel empty_tensor 0 H wf_empty Hf). cbn [bind Nat.add].
  rewrite (proj2 (Nat.ltb_ge _ _)) by lia. rewrite (proj2 (Nat.eqb_neq _ _)) by lia.
  rewrite (read_spec junk ts keep (proj2 H)) by lia. cbn [bind]. eexists. split; [reflexivity|]. right. left. reflexivity.
Qed.

(** A missing file: the tool never ends. *)
Theorem C72_missing_file_refuted : forall junk keep fuel, stream_tool junk fuel None keep = Ok None.
Proof.
  intros junk keep fuel. unfold stream_tool. cbn [open_path].
  assert (G : forall t n, wf t -> count_loop junk fuel t (mkIS [] false true) n = Ok None).
  { induction fuel as [|fuel IH]; intros t n W; [reflexivity|]. cbn [count_loop eofbit].
    assert (E : deserialize junk t false (mkIS [] false true) = Ok (resize junk t 0 0 0 0, mkIS [] false true)) by reflexivity.
    rewrite E. cbn [bind fst snd]. change (is_peek (mkIS [] false true)) with (mkIS [] false true). apply IH. now apply wf_resize. }
  now rewrite (G empty_tensor 0 wf_empty).
Qed.

(** ** tensorTool *)

(** What a list of commands makes of a tensor. *)
Definition edit (junk : nat -> f32) (t : tensor f32) (c : command) : res (tensor f32) :=
  match c with
  | Transpose => transpose junk t
  | Reshape w h m s => Ok (fst (reshape t s w h m))
  | Extract pw ph s => r <- extract_patches junk pw ph empty_tensor empty_tensor t s false ;; Ok (fst r)
  | _ => Ok t
  end.
Definition goes_on (c : command) : Prop := c <> Quit.
(** Commands that cannot fail, whatever the tensor. *)
Definition safe (c : command) : Prop := match c with Quit | Extract _ _ _ | Bin => False | _ => True end.

Lemma edit_wf junk t c : wf t -> safe c -> exists t', edit junk t c = Ok t' /\ wf t'.
Proof.
  intros W S. destruct c; cbn in S; try contradiction; cbn [edit].
  - eauto.
  - destruct (C03_transpose junk t W) as (t' & E & W' & _). eauto.
  - eexists. split; [reflexivity|]. now apply wf_reshape.
  - eauto.
Qed.

(** A session of such commands that ends with quit: the program ends, and the file holds what the tensor was at the last
    write, or is unchanged if there was none. *)
Theorem C72_session : forall junk ts k t cs fuel, tensor_file ts -> nth_error ts k = Some t -> Forall safe cs -> length cs < fuel ->
  exists final, tensor_tool junk fuel (flat_map serialize ts) k (cs ++ [Quit]) = Ok (Some final) /\
    foldm (edit junk) cs t = Ok (s_tensor final) /\ wf (s_tensor final) /\ s_bin final = None /\
    ((~ In Write cs) -> s_file final = flat_map serialize ts) /\
    (forall before after, cs = before ++ Write :: after -> ~ In Write after ->
       exists written, foldm (edit junk) before t = Ok written /\ s_file final = serialize written).
Proof.
  intros junk ts k t cs fuel H Hk Hs Hf. unfold tensor_tool. change (open_file ?x) with (st x). rewrite (read_id_spec junk ts k empty_tensor t (proj2 H) wf_empty Hk). cbn [bind].
  assert (W : wf t). { destruct H as [_ H]. rewrite Forall_forall in H. destruct (H t) as [[W _] _]; [eapply nth_error_In; eauto|exact W]. }
  assert (G : forall cs fuel t file, wf t -> Forall safe cs -> length cs < fuel ->
    exists final, session junk fuel (cs ++ [Quit]) (mkSession t file None) = Ok (Some final) /\ foldm (edit junk) cs t = Ok (s_tensor final) /\ wf (s_tensor final) /\ s_bin final = None /\
      (~ In Write cs -> s_file final = file) /\
      (forall before after, cs = before ++ Write :: after -> ~ In Write after -> exists written, foldm (edit junk) before t = Ok written /\ s_file final = serialize written)).
  { clear. induction cs as [|c cs IH]; intros fuel t file W Hs Hf; (destruct fuel as [|fuel]; [cbn in Hf; lia|]).
    - cbn. eexists. split; [reflexivity|]. cbn. repeat (split; auto). intros [|] after E; discriminate.
    - inversion Hs as [|? ? Sc Hs']; subst. cbn [length] in Hf.
      destruct (edit_wf junk t c W Sc) as (t' & Et & W').
      set (file' := match c with Write => serialize t | _ => file end).
      assert (St : step junk c (mkSession t file None) = Ok (mkSession t' file' None, true)).
      { destruct c; cbn in Sc; try contradiction; cbn [step s_tensor s_file s_bin edit] in *; try (injection Et as <-; reflexivity).
        rewrite Et. reflexivity. }
      cbn [session app next fst snd]. rewrite St. cbn [bind fst snd].
      destruct (IH fuel t' file' W' Hs' ltac:(lia)) as (final & E & Ed & Wf & Hb & Hno & Hw). exists final. split; [exact E|].
      cbn [foldm]. rewrite Et. cbn [bind]. split; [exact Ed|]. split; [exact Wf|]. split; [exact Hb|]. split.
      + intros Hn. rewrite Hno by (intros Hi; apply Hn; now right). unfold file'. destruct c; try reflexivity. exfalso. apply Hn. now left.
      + intros before after Ecs Hna. destruct before as [|c' before]; cbn [app] in Ecs.
        * injection Ecs as -> ->. exists t. split; [reflexivity|]. now rewrite Hno by exact Hna.
        * injection Ecs as <- ->. destruct (Hw before after eq_refl Hna) as (w & Ew & Ef). exists w. split; [cbn [foldm]; rewrite Et; exact Ew|exact Ef]. }
  destruct (G cs fuel t (flat_map serialize ts) W Hs Hf) as (final & X). exists final. exact X.
Qed.

(** Cutting a tensor into patches and writing the result: the file holds the patches of the sample, as C53 describes them. *)
Theorem C72_extract : forall junk ts k t img pw ph sample fuel, tensor_file ts -> nth_error ts k = Some t -> contents t img -> sample < samples t ->
  (Z.of_nat (elements t) < 2 ^ 64)%Z -> 0 < pw < 2 * width t -> 0 < ph < 2 * height t -> 2 < fuel ->
  exists final, tensor_tool junk fuel (flat_map serialize ts) k [Extract pw ph sample; Write; Quit] = Ok (Some final) /\
    s_file final = serialize (s_tensor final) /\ wf (s_tensor final) /\ has_shape (s_tensor final) (width t * height t) pw ph (maps t) /\
    forall px py ipx ipy m, px < width t -> py < height t -> ipx < pw -> ipy < ph -> m < maps t ->
      exists qx qy,
        mirrored (Z.of_nat (width t)) (Z.of_nat px + (Z.of_nat ipx - Z.of_nat pw / 2)) (Z.of_nat qx) /\
        mirrored (Z.of_nat (height t)) (Z.of_nat py + (Z.of_nat ipy - Z.of_nat ph / 2)) (Z.of_nat qy) /\
        at_pos (s_tensor final) ipx ipy m (width t * py + px) = Some (img qx qy m sample).
Proof.
  intros junk ts k t img pw ph sample fuel H Hk C Hs He Hw Hh Hf. unfold tensor_tool. change (open_file ?x) with (st x). rewrite (read_id_spec junk ts k empty_tensor t (proj2 H) wf_empty Hk). cbn [bind].
  assert (W : wf t). { destruct H as [_ H]. rewrite Forall_forall in H. destruct (H t) as [[W _] _]; [eapply nth_error_In; eauto|exact W]. }
  destruct (C53_patches junk pw ph empty_tensor empty_tensor t img sample wf_empty wf_empty W C Hs He Hw Hh) as (t' & h' & E & W' & Sh & _ & P).
  destruct fuel as [|[|[|fuel]]]; try lia. cbn [session next fst snd step s_tensor]. rewrite E. cbn [bind fst snd session next step s_tensor s_file s_bin].
  eexists. split; [reflexivity|]. cbn [s_file s_tensor]. split; [reflexivity|]. split; [exact W'|]. split; [exact Sh|].
  intros px py ipx ipy m H1 H2 H3 H4 H5. destruct (P px py ipx ipy m H1 H2 H3 H4 H5) as (qx & qy & A & B & F & _). eauto.
Qed.

(** Finding: writing a tensor back replaces the whole file by that tensor; the others are lost. *)
Theorem C72_write_back_refuted : forall junk junk' mmap ts k t fuel, tensor_file ts -> nth_error ts k = Some t -> non_empty t -> 2 <= fuel ->
  exists final, tensor_tool junk fuel (flat_map serialize ts) k [Write; Quit] = Ok (Some final) /\ float_load junk' mmap (s_file final) = Ok [t].
Proof.
  intros junk junk' mmap ts k t fuel H Hk Hn Hf.
  destruct (C72_session junk ts k t [Write] fuel H Hk) as (final & E & _ & _ & _ & _ & Hw); [repeat constructor|cbn; lia|].
  exists final. split; [exact E|]. destruct (Hw [] [] eq_refl) as (w & Ew & ->); [intros []|]. injection Ew as <-.
  replace (serialize t) with (flat_map serialize [t] ++ []) by (cbn [flat_map]; now rewrite !app_nil_r). apply C13_float_file_loads; [|now left].
  constructor; [|constructor]. destruct H as [_ H]. rewrite Forall_forall in H. destruct (H t) as [A B]; [eapply nth_error_In; eauto|]. auto.
Qed.

(** Finding: at the end of its input the program goes on asking forever. *)
Theorem C72_end_of_input_refuted : forall junk fuel cs st0, Forall safe cs -> wf (s_tensor st0) -> session junk fuel cs st0 = Ok None.
Proof.
  intros junk fuel. induction fuel as [|fuel IH]; intros cs st0 Hs W; [reflexivity|]. cbn [session]. destruct cs as [|c cs].
  - cbn [next fst snd step bind]. now apply IH.
  - inversion Hs as [|? ? Sc Hs']; subst. cbn [next fst snd]. destruct (edit_wf junk (s_tensor st0) c W Sc) as (t' & Et & W').
    destruct c; cbn in Sc; try contradiction; cbn [step edit] in *.
    + now apply IH.
    + rewrite Et. cbn [bind fst snd]. now apply IH.
    + injection Et as <-. now apply IH.
    + now apply IH.
Qed.

(** Two tensors; the second is transposed, written and transposed back: the file holds the transposed tensor. *)
Definition ex_one : tensor f32 := mkTensor 1 1 1 1 1 (Some [9]%Z).
Definition ex_two : tensor f32 := mkTensor 1 2 2 1 4 (Some [1; 2; 3; 4]%Z).
Example C72_witness : tensor_file [ex_one; ex_two] /\ Forall safe [Transpose; Write; Transpose] /\
  (exists hi, stream_tool (fun _ => 7%Z) 2 (Some (flat_map serialize [ex_one; ex_two])) 1 = Ok (Some hi) /\ length hi = 38 /\ last hi [] = serialize ex_one) /\
  exists final, tensor_tool (fun _ => 7%Z) 9 (flat_map serialize [ex_one; ex_two]) 1 [Transpose; Write; Transpose; Quit] = Ok (Some final) /\
    s_tensor final = ex_two /\ float_load (fun _ => 7%Z) false (s_file final) = Ok [mkTensor 1 2 2 1 4 (Some [1; 3; 2; 4]%Z)].
Proof.
  split; [|split; [repeat constructor|split]].
  - split; [discriminate|]. unfold f32_tensor, wf, sizes_fit. repeat constructor; cbn; try lia.
  - eexists. split; [vm_compute; reflexivity|]. split; vm_compute; reflexivity.
  - eexists. split; [vm_compute; reflexivity|]. split; vm_compute; reflexivity.
Qed.

(** The second tensor cut into patches of three by one pixels. *)
Example C72_extract_hypotheses : tensor_file [ex_one; ex_two] /\ contents ex_two (fun x y _ _ => Z.of_nat (1 + x + 2 * y)) /\
  exists final, tensor_tool (fun _ => 7%Z) 3 (flat_map serialize [ex_one; ex_two]) 1 [Extract 3 1 0; Write; Quit] = Ok (Some final) /\
    s_tensor final = mkTensor 4 3 1 1 12 (Some [2; 1; 2; 1; 2; 2; 4; 3; 4; 3; 4; 4]%Z).
Proof.
  split; [apply C72_witness|]. split.
  - intros x y m s (H1 & H2 & H3 & H4). cbn in H1, H2, H3, H4. assert (m = 0) by lia. assert (s = 0) by lia. subst. destruct x as [|[|]], y as [|[|]]; try lia; reflexivity.
  - eexists. split; vm_compute; reflexivity.
Qed.

Print Assumptions C72_keeps_first.
Print Assumptions C72_kept_load.
Print Assumptions C72_interrupted.
Print Assumptions C72_interrupted_refuted.
Print Assumptions C72_missing_file_refuted.
Print Assumptions C72_session.
Print Assumptions C72_extract.
Print Assumptions C72_write_back_refuted.
Print Assumptions C72_end_of_input_refuted.

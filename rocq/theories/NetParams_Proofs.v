(** Proofs about [NetParams_Model]. *)
From Verif Require Import Base BaseFacts Float32 Bytes_Model Tensor_Model Tensor_Spec Tensor_Proofs Stream_Model Stream_Spec Stream_Proofs NetParams_Model.

Definition storable (t : tensor f32) : Prop := f32_tensor t /\ sizes_fit t.

(** The stream before the parameters [ps] and after everything else. *)
Definition stream_of (ps : list (tensor f32)) : istream :=
  match ps with [] => mkIS [] true false | _ => st (flat_map serialize ps) end.

Lemma peek_stream ps : is_peek (st (flat_map serialize ps)) = stream_of ps.
Proof.
  destruct ps as [|t ps]; [reflexivity|]. unfold stream_of, is_peek. cbn [st good eofbit failbit negb andb rest flat_map].
  pose proof (serialize_length t) as L. destruct (serialize t); [cbn in L; lia|reflexivity].
Qed.

Lemma load_layer_spec junk : forall ps params,
  Forall wf ps -> Forall storable params ->
  load_layer junk ps (stream_of params) =
    Ok (firstn (length ps) params ++ skipn (length params) ps, stream_of (skipn (length ps) params)).
Proof.
  induction ps as [|t ps IH]; intros params Hw Hp; inversion Hw as [|? ? W1 W2]; subst.
  - cbn. now rewrite skipn_nil.
  - destruct params as [|q params]; cbn [load_layer].
    + reflexivity.
    + inversion Hp as [|? ? [F1 F2] P2]; subst.
      assert (E : negb (good (stream_of (q :: params))) || eofbit (stream_of (q :: params)) = false) by reflexivity.
      rewrite E. unfold stream_of at 1. cbn [flat_map]. rewrite deserialize_serialize by assumption. cbn [bind].
      rewrite peek_stream, IH by assumption. reflexivity.
Qed.

Lemma skipn_twice {A} a b (l : list A) : skipn a (skipn b l) = skipn (b + a) l.
Proof. revert l. induction b as [|b IH]; intros l; [reflexivity|]. destruct l; [now rewrite !skipn_nil|]. apply IH. Qed.

Lemma load_layers_spec junk : forall ls params,
  Forall (Forall wf) ls -> Forall storable params ->
  exists ls', load_layers junk ls (stream_of params) = Ok (ls', stream_of (skipn (length (concat ls)) params)) /\
    concat ls' = firstn (length (concat ls)) params ++ skipn (length params) (concat ls) /\
    map (@length _) ls' = map (@length _) ls.
Proof.
  induction ls as [|ps ls IH]; intros params Hw Hp; inversion Hw as [|? ? W1 W2]; subst.
  - exists []. cbn. rewrite skipn_nil. auto.
  - cbn [load_layers]. rewrite load_layer_spec by assumption. cbn [bind].
    destruct (IH (skipn (length ps) params)) as (ls' & E & C & L); [exact W2| |].
    { rewrite <- (firstn_skipn (length ps) params) in Hp. now apply Forall_app in Hp as [_ ?]. }
    rewrite E. cbn [bind]. eexists. split; [|split].
    + rewrite skipn_twice. cbn [concat]. rewrite app_length. reflexivity.
    + cbn [concat]. rewrite C, app_length. rewrite skipn_length.
      rewrite skipn_app. rewrite !app_assoc. f_equal.
      rewrite <- app_assoc.
      destruct (Nat.le_gt_cases (length params) (length ps)) as [H|H].
      * rewrite (skipn_all2 params) by exact H. rewrite firstn_nil, app_nil_r.
        rewrite (firstn_all2 params) by exact H. rewrite (firstn_all2 params) by lia. reflexivity.
      * rewrite (skipn_all2 ps) by lia. rewrite app_nil_r. cbn [app].
        rewrite <- (firstn_skipn (length ps) (firstn (length ps + length (concat ls)) params)).
        rewrite firstn_firstn, Nat.min_l by lia. f_equal.
        rewrite firstn_skipn_comm. reflexivity.
    + cbn [map]. rewrite L. f_equal. rewrite app_length, firstn_length, skipn_length. lia.
Qed.

Lemma length_concat_map {A} (a b : list (list A)) : map (@length _) a = map (@length _) b -> length (concat a) = length (concat b).
Proof.
  revert b. induction a as [|x a IH]; intros [|y b] H; try discriminate; [reflexivity|].
  injection H as H1 H2. cbn [concat]. rewrite !app_length, H1, (IH b H2). reflexivity.
Qed.

(** Lists of lists with the same lengths and the same concatenation are equal. *)
Lemma concat_inj {A} (a b : list (list A)) : map (@length _) a = map (@length _) b -> concat a = concat b -> a = b.
Proof.
  revert b. induction a as [|x a IH]; intros [|y b] H E; try discriminate; [reflexivity|].
  injection H as H1 H2. cbn [concat] in E.
  assert (Hx : x = y).
  { apply (f_equal (firstn (length x))) in E. rewrite firstn_app, firstn_all, Nat.sub_diag in E. cbn [firstn] in E.
    rewrite app_nil_r, H1, firstn_app, firstn_all, Nat.sub_diag in E. cbn [firstn] in E. now rewrite app_nil_r in E. }
  subst y. f_equal. apply app_inv_head in E. now apply IH.
Qed.

Lemma serialize_parameters_concat ls : serialize_parameters ls = flat_map serialize (concat ls).
Proof.
  unfold serialize_parameters. induction ls as [|ps ls IH]; [reflexivity|]. cbn [flat_map concat].
  now rewrite IH, flat_map_app.
Qed.

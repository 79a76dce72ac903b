(** C20: saved parameters are restored exactly. *)
From Verif Require Import Base BaseFacts Float32 Bytes_Model Tensor_Model Tensor_Spec Tensor_Proofs Stream_Model Stream_Spec Stream_Proofs
  NetParams_Model NetParams_Proofs.

(** Which layer is the last one to be restored: all of them by default. *)
Definition last_restored (last_layer layers : nat) : nat :=
  if (last_layer =? 0) || (layers <=? last_layer) then layers - 1 else last_layer.

(** Loading a file that holds the parameters [params] (at least one) into any network:
    the restored layers take the parameters of the file in order, as far as they go;
    parameters the file does not reach and layers behind the last one asked for keep their
    contents; no layer gains or loses a parameter. *)
Theorem C20_load junk cur params last_layer :
  cur <> [] -> params <> [] -> Forall (Forall wf) cur -> Forall storable params ->
  exists loaded s, deserialize_parameters junk cur last_layer (open_file (flat_map serialize params)) = Ok (loaded, s) /\
    map (@length _) loaded = map (@length _) cur /\
    let last := S (last_restored last_layer (length cur)) in
    let covered := concat (firstn last cur) in
    concat (firstn last loaded) = firstn (length covered) params ++ skipn (length params) covered /\
    skipn last loaded = skipn last cur.
Proof.
  intros Hc Hp Hw Hs. unfold deserialize_parameters. destruct cur as [|c0 cs] eqn:Ecur; [congruence|]. rewrite <- Ecur in *.
  fold (last_restored last_layer (length cur)). set (last := S (last_restored last_layer (length cur))).
  assert (Es : open_file (flat_map serialize params) = stream_of params) by (destruct params; [congruence|reflexivity]).
  assert (Hw' : Forall (Forall wf) (firstn last cur)).
  { rewrite <- (firstn_skipn last cur) in Hw. now apply Forall_app in Hw as [? _]. }
  destruct (load_layers_spec junk _ params Hw' Hs) as (ls' & E & C & L).
  rewrite Es, E. cbn [bind]. eexists. eexists. split; [reflexivity|].
  assert (Ln : length ls' = length (firstn last cur)) by (rewrite <- (map_length (@length _)), L; apply map_length).
  assert (Hlast : last <= length cur).
  { subst last. unfold last_restored. rewrite Ecur. cbn [length]. destruct (last_layer =? 0); cbn [orb]; [lia|].
    destruct (Nat.leb_spec (S (length cs)) last_layer); lia. }
  rewrite firstn_length, Nat.min_l in Ln by exact Hlast.
  split; [|split].
  - rewrite map_app, L, <- map_app, firstn_skipn. reflexivity.
  - rewrite firstn_app, Ln, Nat.sub_diag, firstn_O, app_nil_r. rewrite firstn_all2 by lia. exact C.
  - rewrite skipn_app, Ln, Nat.sub_diag. cbn [skipn]. rewrite (skipn_all2 ls') by lia. reflexivity.
Qed.

Lemma load_layers_none junk : forall ls s, concat ls = [] -> load_layers junk ls s = Ok (ls, s).
Proof.
  induction ls as [|ps ls IH]; intros s H; [reflexivity|]. cbn [concat] in H. apply app_eq_nil in H as [-> H].
  cbn [load_layers load_layer bind]. now rewrite (IH s H).
Qed.

(** Saving a network and loading the file into any network whose layers have the same
    numbers of parameters gives exactly the saved parameters, whatever the sizes and
    contents before. *)
Theorem C20_restore junk saved cur :
  saved <> [] -> map (@length _) saved = map (@length _) cur ->
  Forall (Forall wf) cur -> Forall (Forall storable) saved ->
  exists s, deserialize_parameters junk cur 0 (open_file (serialize_parameters saved)) = Ok (saved, s).
Proof.
  intros Hn Hl Hw Hs. rewrite serialize_parameters_concat.
  assert (Hc : cur <> []) by (intros ->; apply map_eq_nil in Hl; contradiction).
  assert (Elast : S (last_restored 0 (length cur)) = length cur).
  { unfold last_restored. destruct cur; [congruence|]. cbn [Nat.eqb orb length]. lia. }
  destruct (concat saved) as [|p0 ps] eqn:Ep.
  - unfold deserialize_parameters. destruct cur as [|c0 cs] eqn:Ecur; [congruence|]. rewrite <- Ecur in *.
    cbn [Nat.eqb orb]. replace (S (length cur - 1)) with (length cur) by (rewrite Ecur; cbn; lia).
    rewrite firstn_all, skipn_all. rewrite load_layers_none.
    + cbn [bind]. rewrite app_nil_r. eexists. repeat f_equal. apply concat_inj; [now symmetry|].
      rewrite Ep. apply length_zero_iff_nil. rewrite <- (length_concat_map _ _ Hl), Ep. reflexivity.
    + apply length_zero_iff_nil. rewrite <- (length_concat_map _ _ Hl), Ep. reflexivity.
  - destruct (C20_load junk cur (concat saved) 0 Hc) as (loaded & s & E & L & C & _); try assumption.
    + rewrite Ep. discriminate.
    + clear -Hs. induction Hs; [constructor|]. cbn. now apply Forall_app.
    + rewrite <- Ep. exists s. rewrite E. repeat f_equal. apply concat_inj; [congruence|].
      rewrite Elast in C. rewrite firstn_all in C.
      assert (Ll : length loaded = length cur) by (rewrite <- (map_length (@length _) loaded), L; apply map_length).
      rewrite <- Ll, firstn_all in C. rewrite C. rewrite <- (length_concat_map _ _ Hl), firstn_all.
      rewrite (skipn_all2 (concat cur)), app_nil_r; [reflexivity|]. rewrite <- (length_concat_map _ _ Hl). lia.
Qed.

(** A file that holds only the first [k] layers (at least one parameter) restores exactly
    those and leaves the others alone. *)
Theorem C20_restore_prefix junk saved cur k :
  k <= length saved -> concat (firstn k saved) <> [] -> map (@length _) saved = map (@length _) cur ->
  Forall (Forall wf) cur -> Forall (Forall storable) saved ->
  exists s, deserialize_parameters junk cur 0 (open_file (serialize_parameters (firstn k saved)))
    = Ok (firstn k saved ++ skipn k cur, s).
Proof.
  intros Hk Hp Hl Hw Hs. rewrite serialize_parameters_concat.
  assert (Hlen : length saved = length cur) by (rewrite <- (map_length (@length _) saved), Hl; apply map_length).
  assert (Hc : cur <> []).
  { intros ->. cbn in Hl. apply map_eq_nil in Hl. subst saved. rewrite firstn_nil in Hp. now apply Hp. }
  assert (Elast : S (last_restored 0 (length cur)) = length cur).
  { unfold last_restored. destruct cur; [congruence|]. cbn [Nat.eqb orb length]. lia. }
  destruct (C20_load junk cur (concat (firstn k saved)) 0 Hc Hp Hw) as (loaded & s & E & L & C & _).
  { rewrite <- (firstn_skipn k saved) in Hs. apply Forall_app in Hs as [Hs _].
    clear -Hs. induction Hs; [constructor|]. cbn. now apply Forall_app. }
  exists s. rewrite E. repeat f_equal.
  assert (Hlk : map (@length _) (firstn k saved) = map (@length _) (firstn k cur)) by now rewrite <- !firstn_map, Hl.
  apply concat_inj.
  - rewrite L, map_app, Hlk, <- map_app, firstn_skipn. reflexivity.
  - rewrite Elast in C. rewrite firstn_all in C.
    assert (Ll : length loaded = length cur) by (rewrite <- (map_length (@length _) loaded), L; apply map_length).
    rewrite <- Ll, firstn_all in C. rewrite C, concat_app.
    rewrite (length_concat_map _ _ Hlk). rewrite <- (firstn_skipn k cur) at 1 3. rewrite concat_app, app_length. f_equal.
    + rewrite firstn_all2; [reflexivity|]. rewrite (length_concat_map _ _ Hlk). lia.
    + now rewrite skipn_app, skipn_all, Nat.sub_diag.
Qed.

(** Asking for the layers up to [last_layer] only leaves the later ones alone. *)
Theorem C20_restore_up_to junk saved cur last_layer :
  0 < last_layer < length cur -> concat saved <> [] -> map (@length _) saved = map (@length _) cur ->
  Forall (Forall wf) cur -> Forall (Forall storable) saved ->
  exists s, deserialize_parameters junk cur last_layer (open_file (serialize_parameters saved))
    = Ok (firstn (S last_layer) saved ++ skipn (S last_layer) cur, s).
Proof.
  intros Hk Hp Hl Hw Hs. rewrite serialize_parameters_concat.
  assert (Hc : cur <> []) by (intros ->; cbn in Hk; lia).
  assert (Elast : last_restored last_layer (length cur) = last_layer).
  { unfold last_restored. destruct (Nat.eqb_spec last_layer 0); [lia|]. destruct (Nat.leb_spec (length cur) last_layer); [lia|reflexivity]. }
  destruct (C20_load junk cur (concat saved) last_layer Hc Hp Hw) as (loaded & s & E & L & C & K).
  { clear -Hs. induction Hs; [constructor|]. cbn. now apply Forall_app. }
  exists s. rewrite E. repeat f_equal. rewrite Elast in *.
  rewrite <- (firstn_skipn (S last_layer) loaded). rewrite K. f_equal.
  assert (Hlk : map (@length _) (firstn (S last_layer) saved) = map (@length _) (firstn (S last_layer) cur)) by now rewrite <- !firstn_map, Hl.
  apply concat_inj.
  - now rewrite <- !firstn_map, L, Hl.
  - rewrite C. rewrite <- (length_concat_map _ _ Hlk). rewrite <- (firstn_skipn (S last_layer) saved) at 2 3.
    rewrite concat_app, firstn_app, firstn_all, Nat.sub_diag, firstn_O, app_nil_r, app_length.
    rewrite skipn_all2, app_nil_r; [reflexivity|]. rewrite <- (length_concat_map _ _ Hlk). lia.
Qed.

(** Loading an empty file does not leave the network alone: the first parameter is
    resized to nothing. *)
Theorem C20_empty_file_refuted : exists cur, Forall (Forall wf) cur /\ cur <> [] /\
  forall junk, exists loaded s, deserialize_parameters junk cur 0 (open_file []) = Ok (loaded, s) /\ loaded <> cur.
Proof.
  exists [[mkTensor 1 1 1 1 1 (Some [5%Z])]]. split; [|split; [discriminate|]].
  - repeat constructor.
  - intros junk. eexists. eexists. split; [reflexivity|]. discriminate.
Qed.

(** Examples: two layers with parameters and one without. *)
Definition ex_saved : list (list (tensor f32)) :=
  [[mkTensor 1 2 1 1 2 (Some [1065353216%Z; 7%Z]); mkTensor 1 1 1 1 1 (Some [3%Z])]; []; [mkTensor 2 1 1 1 2 (Some [8%Z; 9%Z])]].
Definition ex_cur : list (list (tensor f32)) :=
  [[mkTensor 1 2 1 1 2 (Some [0%Z; 0%Z]); mkTensor 1 1 1 1 1 (Some [0%Z])]; []; [mkTensor 2 1 1 1 2 (Some [0%Z; 0%Z])]].
Example ex_params_ok : ex_saved <> [] /\ map (@length _) ex_saved = map (@length _) ex_cur /\
  Forall (Forall wf) ex_cur /\ Forall (Forall storable) ex_saved /\ concat (firstn 2 ex_saved) <> [].
Proof.
  split; [discriminate|]. split; [reflexivity|]. split; [|split; [|discriminate]].
  - repeat constructor; cbn; lia.
  - repeat constructor; cbn; try lia; unfold f32_range; lia.
Qed.
Example ex_params_restored :
  deserialize_parameters (fun _ => 1%Z) ex_cur 0 (open_file (serialize_parameters ex_saved)) = Ok (ex_saved, mkIS [] true false).
Proof. vm_compute. reflexivity. Qed.

Print Assumptions C20_load.
Print Assumptions C20_restore.
Print Assumptions C20_restore_prefix.
Print Assumptions C20_restore_up_to.
Print Assumptions C20_empty_file_refuted.

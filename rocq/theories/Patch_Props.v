(** C32: patch datasets. *)
From Verif Require Import Base BaseFacts Float32 Tensor_Model Tensor_Spec Tensor_Proofs Stream_Model DatasetInput_Model
  DatasetInput_Spec Dataset_Model Dataset_Spec Dataset_Proofs Patch_Model Patch_Spec Patch_Proofs.

(** Image [t] of a stream is its tensor number 2 t, and its labels are the next tensor. *)
Theorem C32_pairs {A} (l : list A) t img lab : nth_error (split_pairs l) t = Some (img, lab) <-> nth_error l (2 * t) = Some img /\ nth_error l (2 * t + 1) = Some lab.
Proof.
  revert t. assert (H : forall n (l : list A), length l <= n -> forall t, nth_error (split_pairs l) t = Some (img, lab) <-> nth_error l (2 * t) = Some img /\ nth_error l (2 * t + 1) = Some lab).
  { induction n as [|n IH]; intros [|a [|b l']] Hl t; cbn [split_pairs]; try (cbn in Hl; lia).
    1,2: destruct t; split; [discriminate|intros [H _]; discriminate H|discriminate|intros [H _]; cbn in H; discriminate H].
    - destruct t; split; [discriminate|intros [_ H]; discriminate H|discriminate|intros [H _]; cbn in H; replace (t + S (t + 0)) with (S (2 * t)) in H by lia; discriminate H].
    - destruct t as [|t]; [cbn; split; [intros [= <- <-]; auto|intros [[= <-] [= <-]]; auto]|].
      replace (2 * S t) with (S (S (2 * t))) by lia. cbn [nth_error Nat.add]. apply IH. cbn in Hl. lia. }
  exact (H (length l) l (le_n _)).
Qed.

Section C32.
Variable position : nat -> nat -> f32.
Variable error_function : nat -> nat -> nat -> nat -> f32.
Variable mul : f32 -> f32 -> f32.

(** The dataset that the constructor makes of two streams. *)
Definition made (training testing : list (tensor f32)) (weights : list f32) (px py : nat) (d : patch_dataset) : Prop :=
  (exists classes names colors, new_patch_dataset training testing classes names colors weights px py = Ok d) /\
  0 < px /\ 0 < py /\
  (forall p, In p (split_pairs training ++ split_pairs testing) -> pair_ok px py (pd_input_maps d) (pd_label_maps d) p) /\
  (Z.of_nat (length (patches_from px py 0 (split_pairs training ++ split_pairs testing))) < 2 ^ 32)%Z /\
  pd_label_maps d <= length weights.

Lemma made_unfold training testing weights px py d : made training testing weights px py d ->
  let pairs := split_pairs training ++ split_pairs testing in
  pd_px d = px /\ pd_py d = py /\ pd_class_weights d = weights /\
  pd_images d = map fst pairs /\ pd_labels d = map snd pairs /\ pd_last d = running_sums 0 (map (inner_count px py) (map fst pairs)) /\
  pd_count_training d = Z.of_nat (total px py (split_pairs training)) /\ pd_count_testing d = Z.of_nat (total px py (split_pairs testing)) /\
  (Z.of_nat (total px py pairs) < 2 ^ 32)%Z.
Proof.
  intros ((classes & names & colors & E) & Px & Py & Hok & Hb & Hw) pairs. rewrite patches_length in Hb. unfold new_patch_dataset in E.
  destruct (_ || _); [discriminate|]. destruct (Nat.odd _); [discriminate|]. destruct (Nat.odd _); [discriminate|].
  assert (Hf : forall p, In p pairs -> fits px py p).
  { intros p Hp. destruct (Hok p Hp) as (_ & _ & _ & _ & _ & _ & _ & _ & A & B & C & F). repeat split; auto. }
  rewrite total_app in Hb. injection E as <-. cbn [pd_px pd_py pd_class_weights pd_images pd_labels pd_last pd_count_training pd_count_testing].
  repeat (split; [reflexivity|]).
  split; [|split; [|unfold pairs; rewrite total_app; exact Hb]].
  - unfold sum_u32. apply (sum_nat px py (split_pairs training) 0); [intros p Hp; apply Hf, in_or_app; now left|]. cbn [Nat.add]. lia.
  - unfold sum_u32. apply (sum_nat px py (split_pairs testing) 0); [intros p Hp; apply Hf, in_or_app; now right|]. cbn [Nat.add]. lia.
Qed.

(** The patch list of a list of pairs: every place where a patch fits, exactly once. *)
Theorem C32_enumeration px py pairs :
  NoDup (patches_from px py 0 pairs) /\
  forall t col row, In (t, col, row) (patches_from px py 0 pairs) <->
    exists img lab, nth_error pairs t = Some (img, lab) /\ col < width img + 1 - px /\ row < height img + 1 - py.
Proof.
  split; [apply patches_nodup|]. intros t col row. rewrite in_patches. rewrite Nat.sub_0_r. split.
  - intros ([img lab] & _ & H). exists img, lab. exact H.
  - intros (img & lab & H). exists (img, lab). split; [apply Nat.le_0_l|exact H].
Qed.

(** The sample counts are the numbers of training patches and of test patches. *)
Theorem C32_counts training testing weights px py d :
  made training testing weights px py d ->
  pd_count_training d = Z.of_nat (length (patches_from px py 0 (split_pairs training))) /\
  pd_count_testing d = Z.of_nat (length (patches_from px py 0 (split_pairs testing))).
Proof. intros H. rewrite !patches_length. pose proof (made_unfold _ _ _ _ _ _ H) as (_ & _ & _ & _ & _ & _ & E1 & E2 & _). auto. Qed.

(** Training sample [i] is the i-th training patch; indices beyond the count are refused
    without touching the outputs. *)
Theorem C32_training_sample training testing weights px py d b o slot i :
  made training testing weights px py d -> patch_outputs d b o -> slot < b ->
  match nth_error (patches_from px py 0 (split_pairs training)) i with
  | Some (t, col, row) => exists img lab o', nth_error (split_pairs training) t = Some (img, lab) /\
      patch_training_sample position error_function mul d o slot (Z.of_nat i) = Ok (o', true) /\
      patch_outputs d b o' /\ patch_loaded position error_function mul d o o' slot img lab col row
  | None => patch_training_sample position error_function mul d o slot (Z.of_nat i) = Ok (o, false)
  end.
Proof.
  intros Hm Ho Hs. pose proof (made_unfold _ _ _ _ _ _ Hm) as (E1 & E2 & E3 & E4 & E5 & E6 & E7 & E8 & E9).
  destruct Hm as (_ & Px & Py & Hok & _ & Hw). unfold patch_training_sample. rewrite E7.
  destruct (Nat.lt_ge_cases i (total px py (split_pairs training))) as [L|L].
  - destruct (get_patch_spec position error_function mul d (split_pairs training ++ split_pairs testing) b o slot i)
      as (t & col & row & img & lab & o' & H1 & H2 & H3 & H4 & H5); rewrite ?E1, ?E2, ?E3; auto.
    { rewrite total_app. lia. }
    rewrite E1, E2 in H1. rewrite patches_app in H1. rewrite nth_error_app1 in H1 by (rewrite patches_length; exact L). rewrite H1.
    exists img, lab, o'. split.
    + apply nth_error_In in H1. apply in_patches in H1 as (q & _ & Hq & _). rewrite Nat.sub_0_r in Hq.
      rewrite nth_error_app1 in H2; [exact H2|]. apply nth_error_Some. congruence.
    + destruct (Z.ltb_spec (Z.of_nat i) (Z.of_nat (total px py (split_pairs training)))); [auto|lia].
  - replace (nth_error _ i) with (@None (nat * nat * nat)) by (symmetry; apply nth_error_None; rewrite patches_length; lia).
    destruct (Z.ltb_spec (Z.of_nat i) (Z.of_nat (total px py (split_pairs training)))); [lia|auto].
Qed.

(** Test samples: what the property asks for holds when both sets have the same number of
    patches... *)
Theorem C32_testing_sample_equal_counts training testing weights px py d b o slot i :
  made training testing weights px py d -> pd_count_testing d = pd_count_training d -> patch_outputs d b o -> slot < b ->
  match nth_error (patches_from px py 0 (split_pairs testing)) i with
  | Some (t, col, row) => exists img lab o', nth_error (split_pairs testing) t = Some (img, lab) /\
      patch_testing_sample position error_function mul d o slot (Z.of_nat i) = Ok (o', true) /\
      patch_outputs d b o' /\ patch_loaded position error_function mul d o o' slot img lab col row
  | None => patch_testing_sample position error_function mul d o slot (Z.of_nat i) = Ok (o, false)
  end.
Proof.
  intros Hm Heq Ho Hs. pose proof (made_unfold _ _ _ _ _ _ Hm) as (E1 & E2 & E3 & E4 & E5 & E6 & E7 & E8 & E9).
  destruct Hm as (_ & Px & Py & Hok & _ & Hw). unfold patch_testing_sample.
  destruct (Nat.lt_ge_cases i (total px py (split_pairs testing))) as [L|L].
  - assert (Hi : u32 (Z.of_nat i + pd_count_testing d) = Z.of_nat (total px py (split_pairs training) + i)).
    { rewrite total_app in E9. unfold u32. rewrite Z.mod_small; lia. }
    rewrite Hi.
    destruct (get_patch_spec position error_function mul d (split_pairs training ++ split_pairs testing) b o slot (total px py (split_pairs training) + i))
      as (t & col & row & img & lab & o' & H1 & H2 & H3 & H4 & H5); rewrite ?E1, ?E2, ?E3; auto.
    { rewrite total_app. lia. }
    rewrite E1, E2 in H1. rewrite patches_app in H1. rewrite nth_error_app2 in H1 by (rewrite patches_length; lia).
    rewrite patches_length in H1. replace (total px py (split_pairs training) + i - total px py (split_pairs training)) with i in H1 by lia.
    set (k := length (split_pairs training)) in *.
    assert (Hshift : forall pairs a i t c r, nth_error (patches_from px py (a + k) pairs) i = Some (t, c, r) ->
              k <= t /\ nth_error (patches_from px py a pairs) i = Some (t - k, c, r)).
    { clear. intros pairs. induction pairs as [|p ps IH]; intros a i t c r; cbn [patches_from]; [destruct i; discriminate|]. intros H.
      destruct (Nat.lt_ge_cases i (length (positions px py (fst p)))) as [L|L].
      - rewrite nth_error_app1 in H |- * by (rewrite map_length; lia). rewrite nth_error_map in *. destruct (nth_error (positions px py (fst p)) i) as [q|]; [|discriminate].
        cbn [option_map] in *. injection H as <- <- <-. split; [lia|]. f_equal. f_equal. f_equal. lia.
      - rewrite nth_error_app2 in H |- * by (rewrite map_length; lia). rewrite map_length in *. apply (IH (S a)). exact H. }
    destruct (Hshift _ 0 _ _ _ _ H1) as [Hk H1']. rewrite H1'.
    exists img, lab, o'. split.
    + rewrite nth_error_app2 in H2 by exact Hk. exact H2.
    + rewrite E8. destruct (Z.ltb_spec (Z.of_nat i) (Z.of_nat (total px py (split_pairs testing)))); [auto|lia].
  - replace (nth_error _ i) with (@None (nat * nat * nat)) by (symmetry; apply nth_error_None; rewrite patches_length; lia).
    rewrite E8. destruct (Z.ltb_spec (Z.of_nat i) (Z.of_nat (total px py (split_pairs testing)))); [lia|auto].
Qed.
End C32.

(** ... and fails otherwise: the offset added to the index is the number of test patches,
    not that of training patches. *)
Definition picture (w h v : nat) : tensor f32 := mkTensor 1 w h 1 (h * w) (Some (map (fun i => Z.of_nat (v + i)) (seq 0 (h * w)))).
Definition one_slot (px py : nat) : outputs f32 := mkOut (picture px py 100) (picture 1 1 200) (mkTensor 1 1 1 2 2 (Some [0%Z; 0%Z])) (picture 1 1 0).

(** Three training patches, one test patch with value 50: the test sample shows value 11,
    the second training patch. *)
Definition uneven : res patch_dataset := new_patch_dataset [picture 3 1 10; picture 3 1 0] [picture 1 1 50; picture 1 1 0] 1 1 1 [1%Z] 1 1.
Theorem C32_wrong_test_patch_refuted position error_function mul :
  exists d o', uneven = Ok d /\ made [picture 3 1 10; picture 3 1 0] [picture 1 1 50; picture 1 1 0] [1%Z] 1 1 d /\ patch_outputs d 1 (one_slot 1 1) /\
    patch_testing_sample position error_function mul d (one_slot 1 1) 0 0 = Ok (o', true) /\
    at_pos (picture 1 1 50) 0 0 0 0 = Some 50%Z /\ at_pos (o_data o') 0 0 0 0 = Some 11%Z.
Proof.
  unfold uneven. eexists. eexists. split; [vm_compute; reflexivity|]. split.
  - split; [exists 1, 1, 1; vm_compute; reflexivity|]. split; [lia|]. split; [lia|]. split.
    + intros p [<-|[<-|[]]]; vm_compute; repeat split; auto; lia.
    + split; [vm_compute; reflexivity|vm_compute; lia].
  - split; [vm_compute; repeat split; auto; lia|]. split; [vm_compute; reflexivity|]. split; vm_compute; reflexivity.
Qed.

(** More test than training patches (here: no training images): the search reads behind
    the end of the table of running sums. *)
Theorem C32_read_behind_table_refuted position error_function mul :
  exists d, new_patch_dataset [] [picture 2 2 50; picture 2 2 0] 1 1 1 [1%Z] 1 1 = Ok d /\
    made [] [picture 2 2 50; picture 2 2 0] [1%Z] 1 1 d /\ patch_outputs d 1 (one_slot 1 1) /\
    patch_testing_sample position error_function mul d (one_slot 1 1) 0 0 = UB.
Proof.
  eexists. split; [vm_compute; reflexivity|]. split.
  - split; [exists 1, 1, 1; vm_compute; reflexivity|]. split; [lia|]. split; [lia|]. split.
    + intros p [<-|[]]; vm_compute; repeat split; auto; lia.
    + split; [vm_compute; reflexivity|vm_compute; lia].
  - split; [vm_compute; repeat split; auto; lia|vm_compute; reflexivity].
Qed.

(** An image smaller than the patch: the width difference wraps and the dataset reports
    patches that do not exist (here about 2^32). *)
Theorem C32_small_image_refuted :
  exists d, new_patch_dataset [picture 1 3 10; picture 1 3 0] [] 1 1 1 [1%Z] 3 1 = Ok d /\
    patches_from 3 1 0 (split_pairs [picture 1 3 10; picture 1 3 0]) = [] /\ (pd_count_training d = 2 ^ 32 - 3)%Z.
Proof. eexists. split; [vm_compute; reflexivity|]. split; vm_compute; reflexivity. Qed.

(** Non-vacuity: a dataset with six 2 x 2 patches of a 4 x 3 training image and as many
    of the test image. *)
Definition even_streams := [picture 4 3 10; picture 4 3 0].
Example C32_example : exists d, made even_streams even_streams [1%Z] 2 2 d /\ patch_outputs d 1 (one_slot 2 2) /\
  patches_from 2 2 0 (split_pairs even_streams) = [(0, 0, 0); (0, 1, 0); (0, 2, 0); (0, 0, 1); (0, 1, 1); (0, 2, 1)] /\
  pd_count_training d = 6%Z /\ pd_count_testing d = pd_count_training d.
Proof.
  eexists. split.
  - split; [exists 1, 1, 1; vm_compute; reflexivity|]. split; [lia|]. split; [lia|]. split.
    + intros p [<-|[<-|[]]]; vm_compute; repeat split; auto; lia.
    + split; [vm_compute; reflexivity|vm_compute; lia].
  - split; [vm_compute; repeat split; auto; lia|]. repeat split; vm_compute; reflexivity.
Qed.

Print Assumptions C32_pairs.
Print Assumptions C32_enumeration.
Print Assumptions C32_counts.
Print Assumptions C32_training_sample.
Print Assumptions C32_testing_sample_equal_counts.
Print Assumptions C32_wrong_test_patch_refuted.
Print Assumptions C32_read_behind_table_refuted.
Print Assumptions C32_small_image_refuted.

(** C01 C02 C03 C05 C06 C08: tensors. *)
From Verif Require Import Base BaseFacts Float32 Tensor_Model Tensor_Spec Tensor_Proofs.

Section Generic.
Context {D : Type}.

(** ** C01 *)
Theorem C01_offset_in_range (t : tensor D) x y m s :
  wf t -> valid_pos t x y m s -> offset t x y m s < elements t.
Proof. intros [-> _]. apply offset_lt. Qed.

Theorem C01_offset_injective (t : tensor D) x y m s x' y' m' s' :
  valid_pos t x y m s -> valid_pos t x' y' m' s' ->
  offset t x y m s = offset t x' y' m' s' -> (x, y, m, s) = (x', y', m', s').
Proof. intros H H' E. destruct (offset_inj _ _ _ _ _ _ _ _ _ H H' E) as (-> & -> & -> & ->). reflexivity. Qed.

Theorem C01_offset_surjective (t : tensor D) e :
  wf t -> e < elements t -> exists x y m s, valid_pos t x y m s /\ offset t x y m s = e.
Proof. intros [-> _]. apply offset_surj. Qed.

(** Element numbers follow the order sample, map, line, pixel. *)
Theorem C01_offset_order (t : tensor D) x y m s x' y' m' s' :
  valid_pos t x y m s -> valid_pos t x' y' m' s' ->
  (offset t x y m s < offset t x' y' m' s' <->
   s < s' \/ (s = s' /\ (m < m' \/ (m = m' /\ (y < y' \/ (y = y' /\ x < x')))))).
Proof. apply offset_order. Qed.

(** ** C02 *)
Theorem C02_reshape_succeeds_iff (t : tensor D) s w h m :
  wf t -> (snd (reshape t s w h m) = true <-> data t <> None /\ s * w * h * m = elements t).
Proof. apply reshape_true. Qed.

Theorem C02_reshape_keeps_elements (t t' : tensor D) s w h m :
  reshape t s w h m = (t', true) ->
  samples t' = s /\ width t' = w /\ height t' = h /\ maps t' = m /\ data t' = data t.
Proof. apply reshape_keeps. Qed.

Theorem C02_reshape_failure_changes_nothing (t t' : tensor D) s w h m :
  reshape t s w h m = (t', false) -> t' = t.
Proof. intros H. pose proof (reshape_false t s w h m) as F. rewrite H in F. now apply F. Qed.

Theorem C02_resize_shape (junk : nat -> D) (t : tensor D) s w h m :
  wf t ->
  let t' := resize junk t s w h m in
  wf t' /\
  (s * m * w * h <> 0 -> samples t' = s /\ width t' = w /\ height t' = h /\ maps t' = m /\ data t' <> None) /\
  (s * m * w * h = 0 -> t' = empty_tensor).
Proof.
  intros Hwf t'. split; [now apply wf_resize|]. split.
  - apply resize_data.
  - now apply resize_zero.
Qed.

Theorem C02_resize_preserves_data (junk : nat -> D) (t : tensor D) s w h m :
  wf t -> data t <> None -> s * w * h * m = elements t -> data (resize junk t s w h m) = data t.
Proof.
  intros Hwf Hd He. destruct (reshape t s w h m) as [t' b] eqn:E.
  assert (b = true) as ->.
  { pose proof (proj2 (reshape_true t s w h m Hwf) (conj Hd He)) as H. now rewrite E in H. }
  rewrite (resize_reshape junk _ _ _ _ _ _ E). eapply reshape_keeps; eauto.
Qed.

(** Every history of calls leaves the tensor consistent. *)
Theorem C02_history_wf (junk : nat -> D) ops t :
  foldm (tensor_step junk) ops empty_tensor = Ok t -> wf t.
Proof. apply wf_history, wf_empty. Qed.

(** ** C03 *)
Theorem C03_transpose (junk : nat -> D) (t : tensor D) :
  wf t ->
  exists t', transpose junk t = Ok t' /\ wf t' /\
    samples t' = samples t /\ maps t' = maps t /\
    width t' = height t /\ height t' = width t /\
    (forall x y m s, at_pos t' x y m s = at_pos t y x m s).
Proof. apply transpose_spec. Qed.

Theorem C03_transpose_twice (junk junk' : nat -> D) (t t' : tensor D) :
  wf t -> transpose junk t = Ok t' -> transpose junk' t' = Ok t.
Proof.
  intros Hwf H. destruct (transpose_spec junk t Hwf) as (u & Hu & Hwu & _).
  apply transpose_involution; auto.
  destruct (transpose_spec junk' t Hwf) as (w & Hw & Hww & A & B & C & E & F).
  destruct (transpose_spec junk t Hwf) as (w' & Hw' & Hww' & A' & B' & C' & E' & F').
  rewrite Hw. rewrite H in Hw'. inversion Hw'; subst w'.
  f_equal. apply tensor_ext; auto.
  - repeat split; congruence.
  - intros. now rewrite F, F'.
Qed.

Theorem C03_transpose_without_memory (junk : nat -> D) (t : tensor D) :
  data t = None -> transpose junk t = Ok t.
Proof. unfold transpose. now intros ->. Qed.

(** ** C05 *)
Theorem C05_copy_sample (zero : D) src ss tgt ts :
  wf src -> wf tgt -> 0 < maps src ->
  let possible := maps src = maps tgt /\ width src <= width tgt /\ height src <= height tgt
                  /\ ss < samples src /\ ts < samples tgt in
  exists t' ok, copy_sample zero src ss tgt ts = Ok (t', ok) /\
    (ok = true <-> possible) /\ wf t' /\ same_shape t' tgt /\
    (ok = false -> t' = tgt) /\
    (ok = true ->
     forall x y m s, valid_pos tgt x y m s ->
      at_pos t' x y m s =
        if s =? ts then
          if (x <? width src) && (y <? height src) then at_pos src x y m ss else Some zero
        else at_pos tgt x y m s).
Proof.
  intros Hws Hwt Hm possible.
  destruct (copy_sample_spec zero src ss tgt ts Hws Hwt Hm) as (t' & H1 & H2 & H3 & H4 & H5).
  exists t', (copy_sample_possible src ss tgt ts).
  split; [exact H1|]. split; [|auto].
  unfold possible, copy_sample_possible.
  rewrite !andb_true_iff, Nat.eqb_eq, !Nat.leb_le, !Nat.ltb_lt. tauto.
Qed.

Theorem C05_copy_map (zero : D) src ss sm tgt ts tm :
  wf src -> wf tgt -> sm < maps src -> tm < maps tgt ->
  ss < samples src -> ts < samples tgt ->
  width src <= width tgt -> height src <= height tgt ->
  exists t', copy_map zero src ss sm tgt ts tm = Ok (t', true) /\ wf t' /\ same_shape t' tgt /\
    forall x y m s, valid_pos tgt x y m s ->
      at_pos t' x y m s =
        if (s =? ts) && (m =? tm) then
          if (x <? width src) && (y <? height src) then at_pos src x y sm ss else Some zero
        else at_pos tgt x y m s.
Proof. intros. now apply copy_map_spec. Qed.

Theorem C05_copy_map_failure (zero : D) src ss sm tgt ts tm :
  samples src <= ss \/ samples tgt <= ts \/ width tgt < width src \/ height tgt < height src ->
  copy_map zero src ss sm tgt ts tm = Ok (tgt, false).
Proof. intros H. apply copy_map_fail. unfold copy_ok. lia. Qed.

(** ** C08 *)
Theorem C08_clear_all (t : tensor D) v :
  wf t ->
  exists t', clear t v None = Ok t' /\ wf t' /\ same_shape t' t /\
    forall x y m s, valid_pos t x y m s -> at_pos t' x y m s = Some v.
Proof. apply clear_all_spec. Qed.

Theorem C08_clear_sample (t : tensor D) v s0 :
  wf t -> s0 < samples t ->
  exists t', clear t v (Some s0) = Ok t' /\ wf t' /\ same_shape t' t /\
    forall x y m s, valid_pos t x y m s ->
      at_pos t' x y m s = if s =? s0 then Some v else at_pos t x y m s.
Proof. apply clear_sample_spec. Qed.

End Generic.

(** ** C06: searches over float bit patterns *)
Theorem C06_pixel_maximum (t : tensor f32) x y sample :
  wf t -> x < width t -> y < height t -> sample < samples t ->
  exists r, pixel_maximum fgt f32_lowest t x y sample = Ok r /\
    forall val, (forall m, m < maps t -> at_pos t x y m sample = Some (val m)) ->
      first_largest (maps t) val f32_lowest r.
Proof.
  intros Hwf Hx Hy Hs.
  set (v0 := fun m => match at_pos t x y m sample with Some v => v | None => 0%Z end).
  assert (Hv0 : forall m, m < maps t -> at_pos t x y m sample = Some (v0 m)).
  { intros m Hm. destruct (at_pos_some t x y m sample Hwf) as [v Hv]; [repeat split; auto|].
    unfold v0. now rewrite Hv. }
  destruct (scan_max_spec (maps t) (fun c => get t x y c sample) v0 f32_lowest) as (r & Hr & Hf).
  { intros i Hi. apply at_pos_get. now apply Hv0. }
  exists r. split; [exact Hr|]. intros val Hval. eapply first_largest_ext; [|exact Hf].
  intros i Hi. specialize (Hval i Hi). rewrite Hv0 in Hval by auto. congruence.
Qed.

Theorem C06_maximum (t : tensor f32) l sample :
  wf t -> data t = Some l -> sample < samples t ->
  exists r, maximum fgt f32_lowest t sample = Ok r /\
    first_largest (width t * height t * maps t)
      (fun i => nth (sample * (width t * height t * maps t) + i) l 0%Z) f32_lowest r.
Proof.
  intros Hwf Hd Hs. unfold maximum, buffer. rewrite Hd. simpl.
  apply scan_max_spec. intros i Hi. apply load_ok. apply nth_error_nth'.
  destruct (wf_data_dims _ _ Hwf Hd) as [-> _]. destruct Hwf as [-> _].
  replace (samples t * maps t * height t * width t) with (samples t * (width t * height t * maps t)) by ring.
  now apply mix_lt.
Qed.

Theorem C06_abs_maximum (t : tensor f32) l :
  wf t -> data t = Some l ->
  exists r, abs_maximum f32_zero fgt f32_abs t = Ok r /\
    first_largest (elements t) (fun i => f32_abs (nth i l 0%Z)) f32_zero r.
Proof.
  intros Hwf Hd. unfold abs_maximum, buffer. rewrite Hd. simpl.
  apply scan_max_spec. intros i Hi.
  rewrite (load_ok l i (nth i l 0%Z)); [reflexivity|]. apply nth_error_nth'.
  destruct (wf_data_dims _ _ Hwf Hd) as [-> _]. auto.
Qed.

(** The answer is determined by the specification. *)
Theorem C06_answer_unique n val start r1 r2 :
  first_largest n val start r1 -> first_largest n val start r2 -> r1 = r2.
Proof. apply first_largest_unique. Qed.

(** ** Concrete cases *)
Local Open Scope nat_scope.
Definition ex_t : tensor nat := mkTensor 2 3 2 2 24 (Some (seq 100 24)).
Example ex_t_wf : wf ex_t.
Proof. unfold wf; simpl; repeat split; lia. Qed.
Example ex_offset : offset ex_t 2 1 1 1 = 23 /\ valid_pos ex_t 2 1 1 1.
Proof. vm_compute. repeat split; lia. Qed.
Example ex_reshape : snd (reshape ex_t 1 4 6 1) = true /\ snd (reshape ex_t 1 5 5 1) = false.
Proof. split; reflexivity. Qed.
Example ex_history :
  foldm (tensor_step (fun _ => 7)) [OpResize 1 2 3 1; OpClear 5 None; OpReshape 1 3 2 1; OpTranspose;
                                    OpClear 9 (Some 0); OpResize 1 0 3 1; OpResize 1 1 1 2] empty_tensor
  = Ok (mkTensor 1 1 1 2 2 (Some [7; 7])).
Proof. reflexivity. Qed.
Example ex_transpose :
  transpose (fun _ => 0) ex_t =
  Ok (mkTensor 2 2 3 2 24 (Some [100;103;101;104;102;105; 106;109;107;110;108;111;
                                 112;115;113;116;114;117; 118;121;119;122;120;123])).
Proof. reflexivity. Qed.
Example ex_copy_sample :
  copy_sample 0 (mkTensor 1 1 1 2 2 (Some [7; 8])) 0 ex_t 1 =
  Ok (mkTensor 2 3 2 2 24 (Some (seq 100 12 ++ [7;0;0;0;0;0;8;0;0;0;0;0])), true).
Proof. reflexivity. Qed.
Example ex_clear : clear ex_t 1 (Some 1) = Ok (mkTensor 2 3 2 2 24 (Some (seq 100 12 ++ repeat 1 12))).
Proof. reflexivity. Qed.
(** 1.0, NaN, 2.0, +inf, +inf, -inf at one pixel: the answer is 3. *)
Example ex_pixel_maximum :
  pixel_maximum fgt f32_lowest
    (mkTensor 1 1 1 6 6 (Some [1065353216; 2143289344; 1073741824; 2139095040; 2139095040; 4286578688]%Z)) 0 0 0 = Ok 3.
Proof. reflexivity. Qed.

Print Assumptions C01_offset_in_range.
Print Assumptions C01_offset_injective.
Print Assumptions C01_offset_surjective.
Print Assumptions C01_offset_order.
Print Assumptions C02_reshape_succeeds_iff.
Print Assumptions C02_reshape_keeps_elements.
Print Assumptions C02_reshape_failure_changes_nothing.
Print Assumptions C02_resize_shape.
Print Assumptions C02_resize_preserves_data.
Print Assumptions C02_history_wf.
Print Assumptions C03_transpose.
Print Assumptions C03_transpose_twice.
Print Assumptions C03_transpose_without_memory.
Print Assumptions C05_copy_sample.
Print Assumptions C05_copy_map.
Print Assumptions C05_copy_map_failure.
Print Assumptions C08_clear_all.
Print Assumptions C08_clear_sample.
Print Assumptions C06_pixel_maximum.
Print Assumptions C06_maximum.
Print Assumptions C06_abs_maximum.
Print Assumptions C06_answer_unique.

(** Proofs about [Tensor_Model]. *)
From Verif Require Import Base BaseFacts Float32 Tensor_Model Tensor_Spec.

(** ** Mixed radix arithmetic *)

Lemma mix_lt a b n m : a < n -> b < m -> a * m + b < n * m.
Proof. intros. nia. Qed.

Lemma mix_inj a a' b b' m : b < m -> b' < m -> a * m + b = a' * m + b' -> a = a' /\ b = b'.
Proof.
  intros Hb Hb' H.
  assert (a = a') by nia. subst. split; auto. lia.
Qed.

Lemma mix_surj e n m : e < n * m -> exists a b, a < n /\ b < m /\ e = a * m + b.
Proof.
  intros H. assert (m <> 0) by (intros ->; lia).
  exists (e / m), (e mod m). repeat split.
  - apply Nat.div_lt_upper_bound; auto. lia.
  - apply Nat.mod_upper_bound; auto.
  - rewrite Nat.mul_comm. apply Nat.div_mod; auto.
Qed.

Section Proofs.
Context {D : Type}.
Implicit Type t u : tensor D.

Lemma offset_mix t x y m s :
  offset t x y m s = ((s * maps t + m) * height t + y) * width t + x.
Proof. unfold offset. ring. Qed.

Lemma offset_lt t x y m s :
  valid_pos t x y m s -> offset t x y m s < samples t * maps t * height t * width t.
Proof.
  intros (Hx & Hy & Hm & Hs). rewrite offset_mix.
  repeat (apply mix_lt; auto).
Qed.

Lemma offset_inj t x y m s x' y' m' s' :
  valid_pos t x y m s -> valid_pos t x' y' m' s' ->
  offset t x y m s = offset t x' y' m' s' ->
  x = x' /\ y = y' /\ m = m' /\ s = s'.
Proof.
  intros (Hx & Hy & Hm & Hs) (Hx' & Hy' & Hm' & Hs') H.
  rewrite !offset_mix in H.
  apply mix_inj in H as [H ->]; auto.
  apply mix_inj in H as [H ->]; auto.
  apply mix_inj in H as [-> ->]; auto.
Qed.

Lemma offset_surj t e :
  e < samples t * maps t * height t * width t ->
  exists x y m s, valid_pos t x y m s /\ offset t x y m s = e.
Proof.
  intros H.
  apply mix_surj in H as (a & x & Ha & Hx & ->).
  apply mix_surj in Ha as (b & y & Hb & Hy & ->).
  apply mix_surj in Hb as (s & m & Hs & Hm & ->).
  exists x, y, m, s. split; [repeat split; auto|]. apply offset_mix.
Qed.

Lemma offset_order t x y m s x' y' m' s' :
  valid_pos t x y m s -> valid_pos t x' y' m' s' ->
  (offset t x y m s < offset t x' y' m' s' <->
   s < s' \/ (s = s' /\ (m < m' \/ (m = m' /\ (y < y' \/ (y = y' /\ x < x')))))).
Proof.
  intros (Hx & Hy & Hm & Hs) (Hx' & Hy' & Hm' & Hs'). rewrite !offset_mix.
  assert (R : forall a b a' b' n, b < n -> b' < n ->
              (a * n + b < a' * n + b' <-> a < a' \/ (a = a' /\ b < b'))).
  { clear. intros. nia. }
  rewrite R by auto. rewrite (R (s * maps t + m) y) by auto. rewrite (R s m) by auto.
  split; intros H.
  - destruct H as [[[H|[-> H]]|[H1 H]]|[H1 H]]; auto.
    + apply mix_inj in H1 as [-> ->]; auto 12.
    + apply mix_inj in H1 as [H1 ->]; auto. apply mix_inj in H1 as [-> ->]; auto 12.
  - destruct H as [H|[-> [H|[-> [H|[-> H]]]]]]; auto 12.
Qed.

(** ** Well-formedness *)

Lemma wf_empty : wf (@empty_tensor D).
Proof. repeat split. Qed.

Lemma wf_data_dims t l : wf t -> data t = Some l ->
  length l = elements t /\ 0 < samples t /\ 0 < width t /\ 0 < height t /\ 0 < maps t.
Proof.
  intros [He H] Hd. rewrite Hd in H. destruct H as [Hl Hp]. rewrite He in Hp.
  split; [auto|]. repeat split; nia.
Qed.

Lemma wf_pos_data t x y m s : wf t -> valid_pos t x y m s -> exists l, data t = Some l.
Proof.
  intros [_ H] (Hx & _). destruct (data t); [eauto|]. lia.
Qed.

Lemma valid_posb t x y m s :
  (x <? width t) && (y <? height t) && (m <? maps t) && (s <? samples t) = true <-> valid_pos t x y m s.
Proof.
  unfold valid_pos. rewrite !andb_true_iff, !Nat.ltb_lt. tauto.
Qed.

Lemma valid_pos_dec t x y m s : {valid_pos t x y m s} + {~ valid_pos t x y m s}.
Proof.
  destruct ((x <? width t) && (y <? height t) && (m <? maps t) && (s <? samples t)) eqn:E.
  - left. now apply valid_posb.
  - right. intros H. apply valid_posb in H. congruence.
Qed.

Lemma at_pos_valid t x y m s l :
  valid_pos t x y m s -> data t = Some l -> at_pos t x y m s = nth_error l (offset t x y m s).
Proof. intros H Hd. unfold at_pos. apply valid_posb in H. now rewrite H, Hd. Qed.

Lemma at_pos_invalid t x y m s : ~ valid_pos t x y m s -> at_pos t x y m s = None.
Proof.
  intros H. unfold at_pos. destruct (_ && _) eqn:E; auto. apply valid_posb in E. contradiction.
Qed.

Lemma at_pos_some t x y m s : wf t -> valid_pos t x y m s -> exists v, at_pos t x y m s = Some v.
Proof.
  intros Hwf Hv. destruct (wf_pos_data _ _ _ _ _ Hwf Hv) as [l Hd].
  rewrite (at_pos_valid _ _ _ _ _ _ Hv Hd). apply nth_error_lt.
  destruct (wf_data_dims _ _ Hwf Hd) as [-> _]. destruct Hwf as [-> _]. now apply offset_lt.
Qed.

Lemma at_pos_get t x y m s v : at_pos t x y m s = Some v -> get t x y m s = Ok v.
Proof.
  unfold at_pos, get, buffer. destruct (_ && _); [|discriminate].
  destruct (data t); [|discriminate]. simpl. apply load_ok.
Qed.

Lemma get_ok t x y m s : wf t -> valid_pos t x y m s ->
  exists v, get t x y m s = Ok v /\ at_pos t x y m s = Some v.
Proof.
  intros Hwf Hv. destruct (at_pos_some _ _ _ _ _ Hwf Hv) as [v H].
  exists v. split; [now apply at_pos_get|exact H].
Qed.

Lemma same_shape_refl t : same_shape t t.
Proof. repeat split. Qed.
Lemma same_shape_sym t u : same_shape t u -> same_shape u t.
Proof. intros (A & B & C & E). repeat split; auto. Qed.
Lemma same_shape_trans t u w : same_shape t u -> same_shape u w -> same_shape t w.
Proof. intros (A & B & C & E) (A' & B' & C' & E'). repeat split; congruence. Qed.

Lemma same_shape_valid t u x y m s : same_shape t u -> valid_pos t x y m s <-> valid_pos u x y m s.
Proof. intros (A & B & C & E). unfold valid_pos. rewrite A, B, C, E. tauto. Qed.

Lemma same_shape_offset t u x y m s : same_shape t u -> offset t x y m s = offset u x y m s.
Proof. intros (A & B & C & E). unfold offset. now rewrite B, C, E. Qed.

(** Two well-formed tensors with the same shape and values are the same. *)
Lemma tensor_ext t u :
  wf t -> wf u -> same_shape t u ->
  (forall x y m s, at_pos t x y m s = at_pos u x y m s) -> t = u.
Proof.
  intros Ht Hu Hs H.
  pose proof (proj1 Ht) as Et. pose proof (proj1 Hu) as Eu.
  pose proof Hs as (A & B & C & E).
  assert (Hd : data t = data u).
  { destruct (data t) as [l|] eqn:Dt; destruct (data u) as [k|] eqn:Du; auto.
    - f_equal. apply list_ext. intros i.
      destruct (wf_data_dims _ _ Ht Dt) as [Lt _]. destruct (wf_data_dims _ _ Hu Du) as [Lu _].
      destruct (Nat.lt_ge_cases i (elements t)) as [Hi|Hi].
      + rewrite Et in Hi. destruct (offset_surj _ _ Hi) as (x & y & m & s & Hv & <-).
        rewrite <- (at_pos_valid _ _ _ _ _ _ Hv Dt), H.
        rewrite (same_shape_offset _ _ _ _ _ _ Hs). apply at_pos_valid; auto.
        now apply (same_shape_valid _ _ _ _ _ _ Hs).
      + rewrite (proj2 (nth_error_None l i)) by lia.
        symmetry. apply nth_error_None. rewrite Lu, Eu, <- A, <- B, <- C, <- E. lia.
    - destruct (wf_data_dims _ _ Ht Dt) as (_ & P & _). destruct Hu as [_ Hu]. rewrite Du in Hu. lia.
    - destruct (wf_data_dims _ _ Hu Du) as (_ & P & _). destruct Ht as [_ Ht]. rewrite Dt in Ht. lia. }
  destruct t, u; simpl in *; subst. reflexivity.
Qed.

(** ** Blocks of stores into a tensor *)

(** [F] describes which positions are written and with what. *)
Lemma run_stores_frame t ops (F : nat -> nat -> nat -> nat -> option D) :
  wf t ->
  (forall a rv, In (a, rv) ops ->
     exists x y m s v, valid_pos t x y m s /\ a = offset t x y m s /\ rv = Ok v /\ F x y m s = Some v) ->
  (forall x y m s v, valid_pos t x y m s -> F x y m s = Some v -> In (offset t x y m s, Ok v) ops) ->
  exists t', run_stores t ops = Ok t' /\ wf t' /\ same_shape t' t /\
    forall x y m s, valid_pos t x y m s ->
      at_pos t' x y m s = match F x y m s with Some v => Some v | None => at_pos t x y m s end.
Proof.
  intros Hwf Hin Hcov.
  destruct ops as [|op ops'] eqn:Eops.
  { exists t. split; [reflexivity|]. split; [auto|]. split; [apply same_shape_refl|].
    intros x y m s Hv. destruct (F x y m s) as [v|] eqn:E; auto.
    destruct (Hcov _ _ _ _ _ Hv E). }
  rewrite <- Eops in *. 
  assert (Hrun : run_stores t ops = (l <- buffer t ;; l' <- exec ops l ;; Ok (with_data t l')))
    by (rewrite Eops; reflexivity).
  destruct op as [a0 rv0].
  assert (H0 : In (a0, rv0) ops) by (rewrite Eops; now left).
  destruct (Hin _ _ H0) as (x0 & y0 & m0 & s0 & v0 & Hv0 & _).
  destruct (wf_pos_data _ _ _ _ _ Hwf Hv0) as [l Hd].
  destruct (wf_data_dims _ _ Hwf Hd) as (Hl & _).
  assert (Hok : ops_ok (length l) ops).
  { intros a rv Ha. destruct (Hin _ _ Ha) as (x & y & m & s & v & Hv & -> & -> & _).
    split; [|eauto]. rewrite Hl, (proj1 Hwf). now apply offset_lt. }
  destruct (exec_total Hok) as (l' & He & Hl').
  exists (with_data t l'). rewrite Hrun. unfold buffer. rewrite Hd. simpl. rewrite He. simpl.
  split; [reflexivity|].
  split.
  { split; simpl; [apply Hwf|]. destruct Hwf as [_ Hwf]. rewrite Hd in Hwf. lia. }
  split; [repeat split|].
  intros x y m s Hv.
  assert (Hv' : valid_pos (with_data t l') x y m s) by exact Hv.
  rewrite (at_pos_valid (with_data t l') _ _ _ _ l' Hv' eq_refl).
  change (offset (with_data t l') x y m s) with (offset t x y m s).
  destruct (F x y m s) as [v|] eqn:E.
  - apply (exec_in He).
    + now apply Hcov.
    + intros v' Hv''. destruct (Hin _ _ Hv'') as (x1 & y1 & m1 & s1 & v1 & Hv1 & Ho & Hr & HF).
      apply offset_inj in Ho as (-> & -> & -> & ->); auto. congruence.
  - rewrite (at_pos_valid _ _ _ _ _ _ Hv Hd). apply (exec_notin He).
    intros rv Hr. destruct (Hin _ _ Hr) as (x1 & y1 & m1 & s1 & v1 & Hv1 & Ho & _ & HF).
    apply offset_inj in Ho as (-> & -> & -> & ->); auto. congruence.
Qed.

(** ** Reshape and Resize *)

Lemma wf_reshape t s w h m : wf t -> wf (fst (reshape t s w h m)).
Proof.
  intros Hwf. unfold reshape. destruct (data t) as [l|] eqn:Hd; [|exact Hwf].
  destruct (Nat.eqb_spec (elements t) (s * m * w * h)) as [E|E]; [|exact Hwf].
  destruct Hwf as [H1 H2]. rewrite Hd in H2.
  split; simpl; [ring|]. lia.
Qed.

Section WithJunk.
Variable junk : nat -> D.

Lemma wf_resize t s w h m : wf t -> wf (resize junk t s w h m).
Proof.
  intros Hwf. unfold resize. pose proof (wf_reshape t s w h m Hwf) as Hr.
  destruct (reshape t s w h m) as [t1 [|]]; simpl in Hr; auto.
  destruct (Nat.eqb_spec (s * m * w * h) 0) as [E|E].
  - destruct (data t) eqn:Hd; [apply wf_empty|exact Hwf].
  - split; simpl; [ring|]. rewrite map_length, seq_length. lia.
Qed.

Lemma resize_data t s w h m :
  s * m * w * h <> 0 ->
  let t' := resize junk t s w h m in
  samples t' = s /\ width t' = w /\ height t' = h /\ maps t' = m /\ data t' <> None.
Proof.
  intros Hn t'. subst t'. unfold resize, reshape.
  apply Nat.eqb_neq in Hn.
  destruct (data t) as [l|] eqn:Hd.
  - destruct (elements t =? s * m * w * h); simpl; [repeat split; discriminate|].
    rewrite Hn. simpl. repeat split; discriminate.
  - rewrite Hn. simpl. repeat split; discriminate.
Qed.

Lemma resize_zero t s w h m :
  wf t -> s * m * w * h = 0 -> resize junk t s w h m = empty_tensor.
Proof.
  intros [He Hwf] Hn. unfold resize, reshape.
  destruct (data t) as [l|] eqn:Hd.
  - destruct (Nat.eqb_spec (elements t) (s * m * w * h)) as [E|E]; [lia|].
    rewrite Hn. reflexivity.
  - rewrite Hn. simpl. destruct Hwf as (A & B & C & E).
    destruct t as [a b c d e f]; simpl in *; subst.
    reflexivity.
Qed.

Lemma reshape_true t s w h m :
  wf t ->
  snd (reshape t s w h m) = true <-> data t <> None /\ s * w * h * m = elements t.
Proof.
  intros Hwf. unfold reshape. destruct (data t); simpl.
  - destruct (Nat.eqb_spec (elements t) (s * m * w * h)); simpl.
    + split; auto. intros _. split; [discriminate|]. rewrite e; ring.
    + split; [discriminate|]. intros [_ H]. exfalso. apply n. rewrite <- H; ring.
  - split; [discriminate|]. intros [H _]. congruence.
Qed.

Lemma reshape_false t s w h m : snd (reshape t s w h m) = false -> fst (reshape t s w h m) = t.
Proof.
  unfold reshape. destruct (data t); auto. destruct (_ =? _); simpl; [discriminate|auto].
Qed.

Lemma reshape_keeps t s w h m t' :
  reshape t s w h m = (t', true) ->
  samples t' = s /\ width t' = w /\ height t' = h /\ maps t' = m /\ data t' = data t.
Proof.
  unfold reshape. destruct (data t) eqn:Hd; [|discriminate].
  destruct (_ =? _); [|discriminate]. intros E. inversion E; subst. simpl. auto.
Qed.

Lemma resize_reshape t s w h m t' :
  reshape t s w h m = (t', true) -> resize junk t s w h m = t'.
Proof. unfold resize. now intros ->. Qed.

(** ** Copying *)

(** Runs of stores over all elements in ascending order. *)
Lemma copy_ctor_spec t : wf t -> copy_ctor junk t = Ok t.
Proof.
  intros Hwf. unfold copy_ctor.
  destruct (data t) as [l|] eqn:Hd.
  - destruct (wf_data_dims _ _ Hwf Hd) as (Hl & P1 & P2 & P3 & P4).
    pose proof (proj1 Hwf) as He.
    set (c := resize junk empty_tensor (samples t) (width t) (height t) (maps t)).
    assert (Hc : wf c) by (apply wf_resize, wf_empty).
    destruct (resize_data empty_tensor (samples t) (width t) (height t) (maps t)) as (A & B & C & E & F).
    { nia. }
    fold c in A, B, C, E, F.
    assert (Hs : same_shape c t) by (repeat split; auto).
    assert (Hbuf : buffer t = Ok l) by (unfold buffer; now rewrite Hd).
    rewrite Hbuf. simpl.
    destruct (run_stores_frame c (for_ (elements t) (fun e => [(e, load l e)]))
                (fun x y m s => at_pos t x y m s)) as (t' & Hr & Hwf' & Hs' & Hat).
    + auto.
    + intros a rv Hin. apply in_for in Hin as (i & Hi & [Heq|[]]). inversion Heq; subst; clear Heq.
      rewrite He in Hi. destruct (offset_surj _ _ Hi) as (x & y & m & s & Hv & <-).
      destruct (at_pos_some _ _ _ _ _ Hwf Hv) as [v Hat]. exists x, y, m, s, v.
      split; [now apply (same_shape_valid _ _ _ _ _ _ Hs)|].
      split; [symmetry; now apply same_shape_offset|]. split; [|exact Hat].
      apply load_ok. rewrite <- Hat. symmetry. now apply at_pos_valid.
    + intros x y m s v Hv Hat. apply (same_shape_valid _ _ _ _ _ _ Hs) in Hv.
      apply in_for. exists (offset c x y m s). rewrite (same_shape_offset _ _ _ _ _ _ Hs).
      split; [rewrite He; now apply offset_lt|]. left. f_equal. apply load_ok.
      rewrite <- Hat. symmetry. now apply at_pos_valid.
    + rewrite Hr. f_equal. apply tensor_ext; auto.
      { eapply same_shape_trans; eauto. }
      intros x y m s. destruct (valid_pos_dec t x y m s) as [Hv|Hv].
      * rewrite Hat by (now apply (same_shape_valid _ _ _ _ _ _ Hs)).
        destruct (at_pos_some _ _ _ _ _ Hwf Hv) as [v ->]. reflexivity.
      * rewrite (at_pos_invalid t) by auto. apply at_pos_invalid. intros H. apply Hv.
        eapply same_shape_valid; [|exact H]. apply same_shape_sym. eapply same_shape_trans; eauto.
  - destruct Hwf as [He Hwf]. rewrite Hd in Hwf. destruct Hwf as (A & B & C & E).
    destruct t as [a b c d e f]; simpl in *; subst. reflexivity.
Qed.

Lemma transpose_spec t :
  wf t ->
  exists t', transpose junk t = Ok t' /\ wf t' /\
    samples t' = samples t /\ maps t' = maps t /\
    width t' = height t /\ height t' = width t /\
    (forall x y m s, at_pos t' x y m s = at_pos t y x m s).
Proof.
  intros Hwf. unfold transpose. destruct (data t) as [l|] eqn:Hd.
  2:{ exists t. split; [reflexivity|]. split; [auto|].
      pose proof Hwf as [He H]. rewrite Hd in H. destruct H as (A & B & C & E).
      rewrite A, B, C, E. repeat split; auto. intros x y m s.
      rewrite !at_pos_invalid; auto; unfold valid_pos; lia. }
  rewrite copy_ctor_spec by auto. simpl.
  destruct (reshape t (samples t) (height t) (width t) (maps t)) as [t1 ok] eqn:Er.
  assert (ok = true).
  { pose proof (proj2 (reshape_true t (samples t) (height t) (width t) (maps t) Hwf)) as H.
    rewrite Er in H. simpl in H. apply H. split; [congruence|]. rewrite (proj1 Hwf). ring. }
  subst ok.
  destruct (reshape_keeps _ _ _ _ _ _ Er) as (A & B & C & E & F).
  assert (Hwf1 : wf t1).
  { pose proof (wf_reshape t (samples t) (height t) (width t) (maps t) Hwf) as H. now rewrite Er in H. }
  assert (Hval : forall x y m s, valid_pos t1 x y m s <-> valid_pos t y x m s).
  { intros. unfold valid_pos. rewrite A, B, C, E. tauto. }
  match goal with |- context [run_stores t1 ?o] =>
    destruct (run_stores_frame t1 o (fun x y m s => at_pos t y x m s)) as (t' & Hr & Hwf' & Hs' & Hat)
  end.
  - auto.
  - intros a rv Hin.
    apply in_for in Hin as (s & Hs & Hin). apply in_for in Hin as (m & Hm & Hin).
    apply in_for in Hin as (x & Hx & Hin). apply in_for in Hin as (y & Hy & [Heq|[]]).
    inversion Heq; subst; clear Heq.
    assert (Hv : valid_pos t1 x y m s) by (repeat split; auto).
    destruct (get_ok t y x m s Hwf) as (v & Hg & Hat); [now apply Hval|].
    exists x, y, m, s, v. auto.
  - intros x y m s v Hv Hat. pose proof Hv as (Hx & Hy & Hm & Hs).
    apply in_for. exists s; split; auto. apply in_for. exists m; split; auto.
    apply in_for. exists x; split; auto. apply in_for. exists y; split; auto.
    left. f_equal. now apply at_pos_get.
  - rewrite Hr. exists t'. split; [reflexivity|]. split; [auto|].
    destruct Hs' as (A' & B' & C' & E').
    repeat split; try congruence.
    intros x y m s. destruct (valid_pos_dec t1 x y m s) as [Hv|Hv].
    + rewrite Hat by auto. apply Hval in Hv.
      destruct (at_pos_some _ _ _ _ _ Hwf Hv) as [v ->]. reflexivity.
    + rewrite (at_pos_invalid t) by (rewrite <- Hval; auto). apply at_pos_invalid.
      intros H. apply Hv. eapply same_shape_valid; [|exact H]. repeat split; auto.
Qed.

Lemma transpose_involution t t' : wf t -> transpose junk t = Ok t' -> transpose junk t' = Ok t.
Proof.
  intros Hwf H. destruct (transpose_spec t Hwf) as (u & Hu & Hwfu & A & B & C & E & F).
  rewrite H in Hu. inversion Hu; subst u.
  destruct (transpose_spec t' Hwfu) as (w & Hw & Hwfw & A' & B' & C' & E' & F').
  rewrite Hw. f_equal. apply tensor_ext; auto.
  - repeat split; congruence.
  - intros. rewrite F', F. reflexivity.
Qed.

End WithJunk.

(** ** Clear *)

Lemma clear_all_spec t v :
  wf t ->
  exists t', clear t v None = Ok t' /\ wf t' /\ same_shape t' t /\
    forall x y m s, valid_pos t x y m s -> at_pos t' x y m s = Some v.
Proof.
  intros Hwf. unfold clear. pose proof (proj1 Hwf) as He.
  destruct (run_stores_frame t (for_ (elements t) (fun e => [(e, Ok v)])) (fun _ _ _ _ => Some v))
    as (t' & Hr & Hwf' & Hs & Hat); auto.
  - intros a rv Hin. apply in_for in Hin as (i & Hi & [Heq|[]]). inversion Heq; subst.
    rewrite He in Hi. destruct (offset_surj _ _ Hi) as (x & y & m & s & Hv & <-).
    exists x, y, m, s, v. auto.
  - intros x y m s v' Hv Heq. inversion Heq; subst.
    apply in_for. exists (offset t x y m s). split; [rewrite He; now apply offset_lt|now left].
  - exists t'. auto.
Qed.

Lemma sample_range t x y m s s' :
  valid_pos t x y m s' ->
  (width t * height t * maps t * s <= offset t x y m s' < width t * height t * maps t * (s + 1)
   <-> s' = s).
Proof.
  intros (Hx & Hy & Hm & Hs). rewrite offset_mix.
  replace (((s' * maps t + m) * height t + y) * width t + x)
    with (s' * (maps t * height t * width t) + ((m * height t + y) * width t + x)) by ring.
  assert (Hlt : (m * height t + y) * width t + x < maps t * height t * width t).
  { repeat (apply mix_lt; auto). }
  replace (width t * height t * maps t * s) with (s * (maps t * height t * width t)) by ring.
  replace (width t * height t * maps t * (s + 1)) with ((s+1) * (maps t * height t * width t)) by ring.
  split; intros H; [|subst; nia].
  nia.
Qed.

Lemma clear_sample_spec t v s0 :
  wf t -> s0 < samples t ->
  exists t', clear t v (Some s0) = Ok t' /\ wf t' /\ same_shape t' t /\
    forall x y m s, valid_pos t x y m s ->
      at_pos t' x y m s = if s =? s0 then Some v else at_pos t x y m s.
Proof.
  intros Hwf Hs0. unfold clear. pose proof (proj1 Hwf) as He.
  match goal with |- context [run_stores t ?o] =>
    destruct (run_stores_frame t o (fun _ _ _ s => if s =? s0 then Some v else None))
      as (t' & Hr & Hwf' & Hs & Hat)
  end.
  - auto.
  - intros a rv Hin. apply in_for_from in Hin as (i & Hi & [Heq|[]]). inversion Heq; subst.
    assert (Hb : a < samples t * maps t * height t * width t).
    { assert (width t * height t * maps t * (s0 + 1) <= samples t * maps t * height t * width t).
      { replace (samples t * maps t * height t * width t)
          with (width t * height t * maps t * samples t) by ring.
        apply Nat.mul_le_mono_l. lia. }
      lia. }
    destruct (offset_surj _ _ Hb) as (x & y & m & s & Hv & <-).
    apply (sample_range _ _ _ _ _ _ Hv) in Hi. subst s.
    exists x, y, m, s0, v. rewrite Nat.eqb_refl. auto.
  - intros x y m s v' Hv Heq. destruct (Nat.eqb_spec s s0); [|discriminate].
    inversion Heq; subst. apply in_for_from. exists (offset t x y m s0).
    split; [now apply (sample_range _ _ _ _ _ _ Hv)|now left].
  - exists t'. split; [auto|]. split; [auto|]. split; [auto|].
    intros x y m s Hv. rewrite (Hat _ _ _ _ Hv). now destruct (s =? s0).
Qed.

(** ** CopyMap, CopySample *)

Section WithZero.
Variable zero : D.

Definition copy_ok (src tgt : tensor D) : Prop :=
  width src <= width tgt /\ height src <= height tgt.

Lemma copy_map_spec src ss sm tgt ts tm :
  wf src -> wf tgt -> sm < maps src -> tm < maps tgt ->
  ss < samples src -> ts < samples tgt -> copy_ok src tgt ->
  exists t', copy_map zero src ss sm tgt ts tm = Ok (t', true) /\ wf t' /\ same_shape t' tgt /\
    forall x y m s, valid_pos tgt x y m s ->
      at_pos t' x y m s =
        if (s =? ts) && (m =? tm) then
          if (x <? width src) && (y <? height src) then at_pos src x y sm ss else Some zero
        else at_pos tgt x y m s.
Proof.
  intros Hws Hwt Hsm Htm Hss Hts [Hw Hh].
  set (F := fun x y m s =>
     if (s =? ts) && (m =? tm) then
       if (x <? width src) && (y <? height src) then at_pos src x y sm ss else Some zero
     else None).
  assert (Hfin : forall ops,
    (exists t', run_stores tgt ops = Ok t' /\ wf t' /\ same_shape t' tgt /\
      forall x y m s, valid_pos tgt x y m s ->
        at_pos t' x y m s = match F x y m s with Some v => Some v | None => at_pos tgt x y m s end) ->
    exists t', (t' <- run_stores tgt ops ;; Ok (t', true)) = Ok (t', true) /\ wf t' /\ same_shape t' tgt /\
    forall x y m s, valid_pos tgt x y m s ->
      at_pos t' x y m s =
        if (s =? ts) && (m =? tm) then
          if (x <? width src) && (y <? height src) then at_pos src x y sm ss else Some zero
        else at_pos tgt x y m s).
  { intros ops (t' & Hr & Hwf' & Hs' & Hat). exists t'. rewrite Hr. simpl.
    split; [reflexivity|]. split; [auto|]. split; [auto|].
    intros x y m s Hv. rewrite Hat by auto. unfold F.
    destruct ((s =? ts) && (m =? tm)); auto.
    destruct ((x <? width src) && (y <? height src)) eqn:E; auto.
    apply andb_true_iff in E as [E1 E2]. apply Nat.ltb_lt in E1, E2.
    destruct (at_pos_some src x y sm ss Hws) as [v ->]; [repeat split; auto|reflexivity]. }
  unfold copy_map.
  replace (samples src <=? ss) with false by (symmetry; apply Nat.leb_gt; auto).
  replace (samples tgt <=? ts) with false by (symmetry; apply Nat.leb_gt; auto).
  simpl.
  assert (HF0 : forall x y, F x y tm ts = if (x <? width src) && (y <? height src) then at_pos src x y sm ss else Some zero).
  { intros. unfold F. now rewrite !Nat.eqb_refl. }
  destruct (negb (width src =? width tgt) || negb (height src =? height tgt)) eqn:Eq.
  - replace (width tgt <? width src) with false by (symmetry; apply Nat.ltb_ge; auto).
    replace (height tgt <? height src) with false by (symmetry; apply Nat.ltb_ge; auto).
    simpl. apply Hfin. apply run_stores_frame; auto.
    + intros a rv Hin. apply in_app_or in Hin as [Hin|Hin].
      * apply in_for in Hin as (y & Hy & Hin). apply in_app_or in Hin as [Hin|Hin].
        -- apply in_for in Hin as (x & Hx & [Heq|[]]). inversion Heq; subst; clear Heq.
           destruct (get_ok src x y sm ss Hws) as (v & Hg & Hat); [repeat split; auto|].
           exists x, y, tm, ts, v. split; [repeat split; auto; lia|]. rewrite Hg.
           split; [auto|]. split; [auto|]. rewrite HF0.
           apply Nat.ltb_lt in Hx, Hy. now rewrite Hx, Hy.
        -- apply in_for_from in Hin as (x & Hx & [Heq|[]]). inversion Heq; subst; clear Heq.
           exists x, y, tm, ts, zero. split; [repeat split; auto; lia|].
           split; [auto|]. split; [auto|]. rewrite HF0.
           replace (x <? width src) with false by (symmetry; apply Nat.ltb_ge; lia). reflexivity.
      * apply in_for_from in Hin as (y & Hy & Hin).
        apply in_for in Hin as (x & Hx & [Heq|[]]). inversion Heq; subst; clear Heq.
        exists x, y, tm, ts, zero. split; [repeat split; auto; lia|].
        split; [auto|]. split; [auto|]. rewrite HF0.
        replace (y <? height src) with false by (symmetry; apply Nat.ltb_ge; lia).
        now rewrite andb_false_r.
    + intros x y m s v (Hx & Hy & Hm & Hs) HF. unfold F in HF.
      destruct ((s =? ts) && (m =? tm)) eqn:E; [|discriminate].
      apply andb_true_iff in E as [E1 E2]. apply Nat.eqb_eq in E1, E2. subst s m.
      apply in_or_app.
      destruct (Nat.ltb_spec y (height src)) as [Hy'|Hy'].
      * left. apply in_for. exists y. split; auto. apply in_or_app.
        destruct (Nat.ltb_spec x (width src)) as [Hx'|Hx']; simpl in HF.
        -- left. apply in_for. exists x; split; auto. left. f_equal. now apply at_pos_get.
        -- right. apply in_for_from. exists x; split; auto. left. inversion HF. reflexivity.
      * rewrite andb_false_r in HF. inversion HF; subst.
        right. apply in_for_from. exists y; split; auto. apply in_for. exists x; split; auto.
        now left.
  - apply orb_false_iff in Eq as [E1 E2]. apply negb_false_iff in E1, E2.
    apply Nat.eqb_eq in E1, E2.
    destruct (data src) as [l|] eqn:Hd.
    2:{ exfalso. destruct Hws as [_ H]. rewrite Hd in H. lia. }
    assert (Hbuf : buffer src = Ok l) by (unfold buffer; now rewrite Hd).
    rewrite Hbuf. simpl.
    assert (Hoff : forall t x y m s, offset t 0 0 m s + (y * width t + x) = offset (D:=D) t x y m s).
    { intros. unfold offset. ring. }
    apply Hfin. apply run_stores_frame; auto.
    + intros a rv Hin. apply in_for in Hin as (i & Hi & [Heq|[]]). inversion Heq; subst; clear Heq.
      rewrite Nat.mul_comm in Hi. apply mix_surj in Hi as (y & x & Hy & Hx & ->).
      assert (Hvs : valid_pos src x y sm ss) by (repeat split; auto).
      destruct (at_pos_some src x y sm ss Hws) as [v Hv]; auto.
      exists x, y, tm, ts, v. split; [repeat split; auto; lia|].
      split; [rewrite E1; apply Hoff|]. split.
      * apply load_ok. rewrite Hoff. rewrite <- Hv. symmetry. now apply at_pos_valid.
      * rewrite HF0. apply Nat.ltb_lt in Hx, Hy. now rewrite Hx, Hy.
    + intros x y m s v (Hx & Hy & Hm & Hs) HF. unfold F in HF.
      destruct ((s =? ts) && (m =? tm)) eqn:E; [|discriminate].
      apply andb_true_iff in E as [E3 E4]. apply Nat.eqb_eq in E3, E4. subst s m.
      rewrite <- E1 in Hx. rewrite <- E2 in Hy.
      assert (Hvs : valid_pos src x y sm ss) by (repeat split; auto).
      pose proof Hx as Hxb. pose proof Hy as Hyb. apply Nat.ltb_lt in Hxb, Hyb.
      rewrite Hxb, Hyb in HF. simpl in HF.
      apply in_for. exists (y * width src + x). split.
      { rewrite (Nat.mul_comm (width src)). now apply mix_lt. }
      left. f_equal.
      * rewrite E1. apply Hoff.
      * apply load_ok. rewrite Hoff. rewrite <- HF. symmetry. now apply at_pos_valid.
Qed.

Lemma copy_map_fail src ss sm tgt ts tm :
  samples src <= ss \/ samples tgt <= ts \/ ~ copy_ok src tgt ->
  copy_map zero src ss sm tgt ts tm = Ok (tgt, false).
Proof.
  intros H. unfold copy_map, copy_ok in *.
  destruct (Nat.leb_spec (samples src) ss); simpl; auto.
  destruct (Nat.leb_spec (samples tgt) ts); simpl; auto.
  assert (Hn : width tgt < width src \/ height tgt < height src) by lia.
  destruct (Nat.eqb_spec (width src) (width tgt)); destruct (Nat.eqb_spec (height src) (height tgt)); simpl; try lia;
  destruct (Nat.ltb_spec (width tgt) (width src)); destruct (Nat.ltb_spec (height tgt) (height src)); simpl; auto; lia.
Qed.

Lemma copy_sample_fold_ok src ss ts tgt0 :
  wf src -> wf tgt0 -> maps src = maps tgt0 ->
  ss < samples src -> ts < samples tgt0 -> copy_ok src tgt0 ->
  forall n, n <= maps src ->
  exists t', foldm (fun '(t, result) map =>
             r <- copy_map zero src ss map t ts map ;;
             let '(t', ok) := r in Ok (t', result && ok))
          (seq 0 n) (tgt0, true) = Ok (t', true) /\ wf t' /\ same_shape t' tgt0 /\
    forall x y m s, valid_pos tgt0 x y m s ->
      at_pos t' x y m s =
        if (s =? ts) && (m <? n) then
          if (x <? width src) && (y <? height src) then at_pos src x y m ss else Some zero
        else at_pos tgt0 x y m s.
Proof.
  intros Hws Hwt Hm Hss Hts Hok n. induction n as [|n IH]; intros Hn.
  - exists tgt0. split; [reflexivity|]. split; [auto|]. split; [apply same_shape_refl|].
    intros. now rewrite andb_false_r.
  - destruct IH as (t1 & H1 & Hwf1 & Hs1 & Hat1); [lia|].
    rewrite seq_S, foldm_app, H1. simpl.
    destruct Hs1 as (A & B & C & E).
    destruct (copy_map_spec src ss n t1 ts n) as (t2 & H2 & Hwf2 & Hs2 & Hat2); auto; try lia.
    { unfold copy_ok in *. lia. }
    rewrite H2. simpl. exists t2. split; [reflexivity|]. split; [auto|].
    split; [eapply same_shape_trans; [exact Hs2|repeat split; auto]|].
    intros x y m s Hv.
    assert (Hv1 : valid_pos t1 x y m s) by (eapply same_shape_valid; [|exact Hv]; repeat split; auto).
    rewrite (Hat2 _ _ _ _ Hv1), (Hat1 _ _ _ _ Hv).
    destruct (Nat.eqb_spec s ts); simpl; auto.
    destruct (Nat.eqb_spec m n) as [->|Hne].
    + replace (n <? S n) with true by (symmetry; apply Nat.ltb_lt; lia). reflexivity.
    + destruct (Nat.ltb_spec m n); destruct (Nat.ltb_spec m (S n)); auto; lia.
Qed.

Lemma copy_sample_fold_fail src ss ts tgt0 :
  samples src <= ss \/ samples tgt0 <= ts ->
  forall n b, foldm (fun '(t, result) map =>
             r <- copy_map zero src ss map t ts map ;;
             let '(t', ok) := r in Ok (t', result && ok))
          (seq 0 n) (tgt0, b) = Ok (tgt0, if n =? 0 then b else false).
Proof.
  intros H n. induction n as [|n IH]; intros b; [reflexivity|].
  rewrite seq_S, foldm_app, IH. simpl.
  rewrite copy_map_fail by tauto. simpl. now rewrite andb_false_r.
Qed.

Definition copy_sample_possible (src : tensor D) ss (tgt : tensor D) ts : bool :=
  (maps src =? maps tgt) && (width src <=? width tgt) && (height src <=? height tgt)
  && (ss <? samples src) && (ts <? samples tgt).

Lemma copy_sample_spec src ss tgt ts :
  wf src -> wf tgt -> 0 < maps src ->
  exists t', copy_sample zero src ss tgt ts = Ok (t', copy_sample_possible src ss tgt ts) /\
    wf t' /\ same_shape t' tgt /\
    (copy_sample_possible src ss tgt ts = false -> t' = tgt) /\
    (copy_sample_possible src ss tgt ts = true ->
     forall x y m s, valid_pos tgt x y m s ->
      at_pos t' x y m s =
        if s =? ts then
          if (x <? width src) && (y <? height src) then at_pos src x y m ss else Some zero
        else at_pos tgt x y m s).
Proof.
  intros Hws Hwt Hpos. unfold copy_sample, copy_sample_possible.
  destruct (Nat.eqb_spec (maps src) (maps tgt)) as [Em|Em]; simpl.
  2:{ exists tgt. split; [reflexivity|]. split; [auto|]. split; [apply same_shape_refl|].
      split; auto. discriminate. }
  match goal with |- context [if ?c then Ok (tgt, false) else _] => destruct c eqn:Ec end.
  { exists tgt.
    replace ((width src <=? width tgt) && (height src <=? height tgt)) with false.
    - simpl. split; [reflexivity|]. split; [auto|]. split; [apply same_shape_refl|].
      split; [auto|]. discriminate.
    - apply andb_true_iff in Ec as [_ Ec]. apply orb_true_iff in Ec.
      rewrite !Nat.ltb_lt in Ec. symmetry. apply andb_false_iff. rewrite !Nat.leb_gt. tauto. }
  assert (Hok : copy_ok src tgt).
  { unfold copy_ok. apply andb_false_iff in Ec.
    rewrite !orb_false_iff, !negb_false_iff, !Nat.eqb_eq, !Nat.ltb_ge in Ec. lia. }
  destruct Hok as [Hw Hh]. pose proof Hw as Hwb. pose proof Hh as Hhb.
  apply Nat.leb_le in Hwb, Hhb. rewrite Hwb, Hhb. simpl.
  destruct (Nat.ltb_spec ss (samples src)) as [Hss|Hss]; [destruct (Nat.ltb_spec ts (samples tgt)) as [Hts|Hts]|]; simpl.
  - destruct (copy_sample_fold_ok src ss ts tgt Hws Hwt Em Hss Hts (conj Hw Hh) (maps src) (le_n _))
      as (t' & Hf & Hwf' & Hs' & Hat).
    exists t'. split; [exact Hf|]. split; [auto|]. split; [auto|]. split; [discriminate|].
    intros _ x y m s Hv. rewrite Hat by auto.
    replace (m <? maps src) with true; [now rewrite andb_true_r|].
    symmetry. apply Nat.ltb_lt. rewrite Em. apply Hv.
  - rewrite copy_sample_fold_fail by auto. exists tgt.
    replace (maps src =? 0) with false by (symmetry; apply Nat.eqb_neq; lia).
    split; [reflexivity|]. split; [auto|]. split; [apply same_shape_refl|]. split; [auto|discriminate].
  - rewrite copy_sample_fold_fail by auto. exists tgt.
    replace (maps src =? 0) with false by (symmetry; apply Nat.eqb_neq; lia).
    split; [reflexivity|]. split; [auto|]. split; [apply same_shape_refl|]. split; [auto|discriminate].
Qed.

End WithZero.
End Proofs.

(** ** Searches *)

Lemma scan_max_spec n (value : nat -> res f32) (val : nat -> f32) start :
  (forall i, i < n -> value i = Ok (val i)) ->
  exists r, scan_max fgt n value start = Ok r /\ first_largest n val start r.
Proof.
  intros Hv. unfold scan_max.
  assert (H : exists st,
    foldm (fun '(max_x, max_y) x =>
                 v <- value x ;;
                 Ok (if fgt v max_y then (x, v) else (max_x, max_y)))
              (seq 0 n) (0, start) = Ok st /\ first_largest n val start (fst st) /\
      ((forall i, i < n -> fgt (val i) start = false) /\ snd st = start \/
       snd st = val (fst st) /\ fst st < n /\ fgt (val (fst st)) start = true)).
  { induction n as [|n IH].
    - exists (0, start). split; [reflexivity|]. split; [left; split; [reflexivity|intros; lia]|].
      left. split; [intros; lia|reflexivity].
    - destruct IH as ([mx my] & Hf & Hfl & Hst); [intros; apply Hv; lia|].
      rewrite seq_S, foldm_app, Hf. simpl. rewrite Hv by lia. simpl in *.
      destruct (fgt (val n) my) eqn:E.
      + exists (n, val n). split; [reflexivity|]. simpl.
        assert (Hgs : fgt (val n) start = true).
        { destruct Hst as [[_ ->]|(-> & _ & Hs)]; [exact E|]. eapply fgt_trans; eauto. }
        assert (Hnot : forall i, i < n -> fgt (val i) my = false).
        { destruct Hst as [[Ha ->]|(-> & Hlt & Hs)]; [exact Ha|].
          destruct Hfl as [[-> Ha]|(_ & _ & Ha & _)]; [|exact Ha].
          rewrite Ha in Hs by lia. discriminate. }
        split; [|right; auto].
        right. split; [lia|]. split; [exact Hgs|]. split.
        * intros i Hi. destruct (Nat.eq_dec i n) as [->|]; [apply fgt_irrefl|].
          destruct (fgt (val i) (val n)) eqn:E2; auto.
          rewrite <- (Hnot i) by lia. symmetry. eapply fgt_trans; eauto.
        * intros i Hi. eapply fgt_not_above; [apply Hnot; lia|exact E].
      + exists (mx, my). split; [reflexivity|]. simpl.
        destruct Hst as [[Ha ->]|(-> & Hlt & Hs)].
        * assert (Ha' : forall i, i < S n -> fgt (val i) start = false).
          { intros i Hi. destruct (Nat.eq_dec i n) as [->|]; auto. apply Ha; lia. }
          split; [|left; auto]. left. split; [|exact Ha'].
          destruct Hfl as [[-> _]|(Hl & Hg & _)]; auto. rewrite Ha in Hg by lia. discriminate.
        * split; [|right; repeat split; auto; lia].
          destruct Hfl as [[-> Ha]|(_ & _ & Ha & Hb)].
          { rewrite Ha in Hs by lia. discriminate. }
          right. split; [lia|]. split; [exact Hs|]. split; [|exact Hb].
          intros i Hi. destruct (Nat.eq_dec i n) as [->|]; auto. apply Ha; lia. }
  destruct H as (st & Hf & Hfl & _). rewrite Hf. simpl. eauto.
Qed.

Lemma first_largest_ext n v1 v2 start r :
  (forall i, i < n -> v1 i = v2 i) -> first_largest n v1 start r -> first_largest n v2 start r.
Proof.
  intros E [[-> H]|(H1 & H2 & H3 & H4)].
  - left. split; auto. intros i Hi. rewrite <- E by auto. auto.
  - right. rewrite <- E by auto. repeat split; auto.
    + intros i Hi. rewrite <- E by auto. auto.
    + intros i Hi. rewrite <- E by lia. auto.
Qed.

Lemma first_largest_unique n v start r1 r2 :
  first_largest n v start r1 -> first_largest n v start r2 -> r1 = r2.
Proof.
  assert (Hge : forall a b s, fgt a s = true -> fgt b s = true -> fgt b a = false -> fge a b = true).
  { unfold fge, fgt, feq. intros a b s. rewrite !andb_true_iff, !Z.ltb_lt, !negb_true_iff.
    intros [[Ha Hs] H1] [[Hb _] H2]. rewrite Ha, Hb. simpl. rewrite Z.ltb_ge. intros H.
    apply orb_true_iff. rewrite Z.ltb_lt, Z.eqb_eq. lia. }
  intros [[-> H]|(A & B & C & E)] [[-> H']|(A' & B' & C' & E')]; auto.
  - rewrite H in B' by auto. discriminate.
  - rewrite H' in B by auto. discriminate.
  - destruct (Nat.lt_trichotomy r1 r2) as [Hl|[->|Hl]]; auto.
    + pose proof (E' _ Hl) as F. rewrite (Hge _ _ start B B' (C _ A')) in F. discriminate.
    + pose proof (E _ Hl) as F. rewrite (Hge _ _ start B' B (C' _ A)) in F. discriminate.
Qed.

(** ** Histories *)

Lemma wf_step {D} (junk : nat -> D) t o t' : wf t -> tensor_step junk t o = Ok t' -> wf t'.
Proof.
  intros Hwf H. destruct o as [s w h m|s w h m|v [s|]|]; cbn [tensor_step] in H.
  - inversion H. now apply wf_reshape.
  - inversion H. now apply wf_resize.
  - unfold clear in H. remember (for_from _ _ _) as ops. clear Heqops.
    unfold run_stores in H. destruct ops; [inversion H; subst; auto|].
    unfold buffer in H. destruct (data t) as [l|] eqn:Hd; [|discriminate]. simpl in H.
    destruct (exec (p :: ops) l) as [l'| |] eqn:He; simpl in H; try discriminate.
    inversion H; subst. apply exec_length in He.
    destruct Hwf as [H1 H2]. rewrite Hd in H2. split; simpl; auto. lia.
  - destruct (clear_all_spec t v Hwf) as (u & Hu & Hw & _). congruence.
  - destruct (transpose_spec junk t Hwf) as (u & Hu & Hw & _). congruence.
Qed.

Lemma wf_history {D} (junk : nat -> D) ops : forall t t',
  wf t -> foldm (tensor_step junk) ops t = Ok t' -> wf t'.
Proof.
  induction ops as [|o ops IH]; intros t t' Hwf H; simpl in H.
  - inversion H; subst; auto.
  - destruct (tensor_step junk t o) as [u| |] eqn:E; simpl in H; try discriminate.
    eapply IH; [|exact H]. eapply wf_step; eauto.
Qed.

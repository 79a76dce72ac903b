(** Proofs about the numerical operations. *)
From Coq Require Import Ring_theory Ring.
From Verif Require Import Base BaseFacts LoopFacts Tensor_Model Tensor_Spec Tensor_Proofs Num Math_Model Math_Spec.

(** * Memory cells *)

Section Cells.
Context {D : Type}.
Implicit Types t : tensor D.

Lemma at_pos_raw t x y m s : valid_pos t x y m s -> at_pos t x y m s = raw t (offset t x y m s).
Proof.
  intros Hv. unfold at_pos, raw. now rewrite (proj2 (valid_posb t x y m s) Hv).
Qed.

Lemma raw_lt t a : wf t -> a < elements t -> exists v, raw t a = Some v.
Proof.
  intros Hwf Ha. unfold raw. destruct Hwf as [He Hd]. destruct (data t) as [l|].
  - apply nth_error_lt. lia.
  - destruct Hd as (A & B & C & E). rewrite He, A in Ha. cbn in Ha. lia.
Qed.

Lemma raw_some t a v : wf t -> raw t a = Some v -> a < elements t.
Proof.
  unfold raw. intros [He Hd] H. destruct (data t) as [l|]; [|discriminate].
  assert (a < length l) by (apply nth_error_Some; congruence). lia.
Qed.

Lemma elements_dims t : wf t -> elements t = samples t * (maps t * width t * height t).
Proof. intros [He _]. rewrite He. ring. Qed.

Lemma offset_sample t sm : offset t 0 0 0 sm = sm * (maps t * width t * height t).
Proof. unfold offset. rewrite !Nat.mul_0_l, !Nat.add_0_r. ring. Qed.

Lemma sample_elt_raw t sm e v : raw t (sm * (maps t * width t * height t) + e) = Some v -> sample_elt t sm e = Ok v.
Proof.
  unfold raw, sample_elt, buffer. rewrite offset_sample. destruct (data t) as [l|]; [|discriminate].
  intros H. cbn. now apply load_ok.
Qed.

Lemma run_with_raw comb t ops :
  wf t ->
  (forall a rv, In (a, rv) ops -> a < elements t /\ exists v, rv = Ok v) ->
  exists t', run_with comb t ops = Ok t' /\ wf t' /\ same_shape t' t /\ elements t' = elements t /\
    forall a, raw t' a = option_map (fun old => fold_left comb (vals_at a ops) old) (raw t a).
Proof.
  intros Hwf Hin. destruct ops as [|op ops'] eqn:Eo.
  { exists t. split; [reflexivity|]. split; [exact Hwf|]. split; [apply same_shape_refl|]. split; [reflexivity|].
    intros a. cbn. now destruct (raw t a). }
  rewrite <- Eo in *. assert (Er : run_with comb t ops = (l <- buffer t ;; l' <- exec_with comb ops l ;; Ok (with_data t l')))
    by (rewrite Eo; reflexivity).
  destruct op as [a0 rv0]. assert (H0 : In (a0, rv0) ops) by (rewrite Eo; now left).
  destruct (Hin _ _ H0) as [Ha0 _]. pose proof Hwf as [He Hd]. unfold buffer in Er.
  destruct (data t) as [l|] eqn:Ed.
  2:{ destruct Hd as (A & B & C & E). rewrite He, A in Ha0. cbn in Ha0. lia. }
  destruct Hd as [Hl Hp]. cbn [bind] in Er.
  assert (Hok : ops_ok (length l) ops). { intros a rv Ho. rewrite Hl. now apply Hin. }
  destruct (exec_with_total comb Hok) as (l' & Ex & Hl'). rewrite Ex in Er. cbn [bind] in Er.
  exists (with_data t l'). split; [exact Er|]. split; [split; [exact He|cbn; lia]|].
  split; [repeat split|]. split; [reflexivity|].
  intros a. unfold raw. cbn [with_data data]. rewrite Ed. apply (exec_with_nth Ex).
Qed.

Lemma contents_exists (d : D) t : wf t -> exists f, contents t f.
Proof.
  intros Hwf. exists (fun x y m s => match at_pos t x y m s with Some v => v | None => d end).
  intros x y m s Hv. destruct (at_pos_some _ _ _ _ _ Hwf Hv) as [v ->]. reflexivity.
Qed.

Lemma contents_get t f x y m s : contents t f -> valid_pos t x y m s -> get t x y m s = Ok (f x y m s).
Proof. intros H Hv. apply at_pos_get. now apply H. Qed.

(** Stores that fill every position. *)
Lemma run_stores_fill t ops (f : nat -> nat -> nat -> nat -> D) :
  wf t ->
  (forall a rv, In (a, rv) ops ->
     exists x y m s, valid_pos t x y m s /\ a = offset t x y m s /\ rv = Ok (f x y m s)) ->
  (forall x y m s, valid_pos t x y m s -> In (offset t x y m s, Ok (f x y m s)) ops) ->
  exists t', run_stores t ops = Ok t' /\ wf t' /\ same_shape t' t /\ contents t' f.
Proof.
  intros Hwf Hin Hcov.
  destruct (run_stores_frame t ops (fun x y m s => Some (f x y m s)) Hwf) as (t' & E & Hwf' & Hs & Hat).
  - intros a rv Ho. destruct (Hin _ _ Ho) as (x & y & m & s & Hv & Ha & Hr). exists x, y, m, s, (f x y m s). auto.
  - intros x y m s v Hv [= <-]. auto.
  - exists t'. split; [exact E|]. split; [exact Hwf'|]. split; [exact Hs|].
    intros x y m s Hv. apply (Hat x y m s). now apply (same_shape_valid _ _ _ _ _ _ Hs).
Qed.
End Cells.

(** Combining several values per position. *)
Lemma run_with_pos {D} comb (t : tensor D) ops (G : nat -> nat -> nat -> nat -> list D) :
  wf t ->
  (forall a rv, In (a, rv) ops -> a < elements t /\ exists v, rv = Ok v) ->
  (forall x y m s, valid_pos t x y m s -> vals_at (offset t x y m s) ops = G x y m s) ->
  exists t', run_with comb t ops = Ok t' /\ wf t' /\ same_shape t' t /\
    forall x y m s, valid_pos t x y m s ->
      at_pos t' x y m s = option_map (fun old => fold_left comb (G x y m s) old) (at_pos t x y m s).
Proof.
  intros Hwf Hin HG. destruct (run_with_raw comb t ops Hwf Hin) as (t' & E & Hwf' & Hs & He & Hr).
  exists t'. split; [exact E|]. split; [exact Hwf'|]. split; [exact Hs|]. intros x y m s Hv.
  rewrite at_pos_raw by now apply (same_shape_valid _ _ _ _ _ _ Hs).
  rewrite (same_shape_offset _ _ _ _ _ _ Hs), Hr, HG by exact Hv. now rewrite <- at_pos_raw.
Qed.

(** * Sums *)

Lemma nsum_ext {D} (K : num D) n f g : (forall i, i < n -> f i = g i) -> nsum K n f = nsum K n g.
Proof. induction n as [|n IH]; intros H; [reflexivity|]. cbn [nsum]. rewrite IH, H by auto. reflexivity. Qed.

(** A counted loop that adds [f i] in iteration [i]. *)
Lemma foldm_nsum {D} (K : num D) n (step : D -> nat -> res D) f :
  (forall s i, i < n -> step s i = Ok (nadd K s (f i))) -> foldm step (seq 0 n) (n0 K) = Ok (nsum K n f).
Proof.
  intros H. induction n as [|n IH]; [reflexivity|]. rewrite seq_S, foldm_app, IH by auto. cbn [bind Nat.add foldm].
  rewrite H by lia. reflexivity.
Qed.

(** * GEMM *)

Section Gemm.
Context {D : Type}.
Variable K : num D.

Lemma gemm_sum_spec transA transB k A smA ldA B smB ldB m n i j (a b : nat -> nat -> D) :
  stored transA A smA ldA m k a -> stored transB B smB ldB k n b -> i < m -> j < n ->
  gemm_sum K transA transB k A smA ldA B smB ldB i j = Ok (nsum K k (fun l => nmul K (a i l) (b l j))).
Proof.
  intros HA HB Hi Hj. unfold gemm_sum. apply foldm_nsum. intros s l Hl.
  rewrite (sample_elt_raw _ _ _ _ (HA i l Hi Hl)). cbn [bind].
  assert (EB : sample_elt B smB (if transB then j * ldB + l else l * ldB + j) = Ok (b l j)).
  { apply sample_elt_raw. apply (HB l j Hl Hj). }
  now rewrite EB.
Qed.

Lemma block_inj ld i j i' j' n : j < n -> j' < n -> n <= ld -> ld * i + j = ld * i' + j' -> i = i' /\ j = j'.
Proof. intros. apply (mix_inj i i' j j' ld); lia. Qed.

Lemma gemm_spec transA transB m n k alpha beta A smA ldA B smB ldB C smC ldC (a b c : nat -> nat -> D) :
  wf C -> n <= ldC ->
  stored transA A smA ldA m k a -> stored transB B smB ldB k n b -> stored false C smC ldC m n c ->
  exists C', gemm K true transA transB m n k alpha A smA ldA B smB ldB beta C smC ldC = Ok C' /\
    wf C' /\ same_shape C' C /\
    stored false C' smC ldC m n
      (fun i j => scale_add K alpha beta (c i j) (nsum K k (fun l => nmul K (a i l) (b l j)))) /\
    (forall e, (forall i j, i < m -> j < n -> e <> smC * (maps C * width C * height C) + (i * ldC + j)) -> raw C' e = raw C e).
Proof.
  intros Hwf Hld HA HB HC. unfold gemm. cbn [negb].
  set (ops := for_ m _).
  assert (Hin : forall a0 rv, In (a0, rv) ops <-> exists i j, i < m /\ j < n /\
    a0 = smC * (maps C * width C * height C) + (ldC * i + j) /\
    rv = Ok (nsum K k (fun l => nmul K (a i l) (b l j)))).
  { intros a0 rv. unfold ops, gemm_row. rewrite in_for. split.
    - intros (i & Hi & Ho). apply in_for in Ho as (j & Hj & [Eq|[]]). inversion Eq; subst; clear Eq.
      exists i, j. rewrite offset_sample. repeat split; auto. now apply gemm_sum_spec with (m := m) (n := n).
    - intros (i & j & Hi & Hj & -> & ->). exists i. split; [exact Hi|]. apply in_for. exists j. split; [exact Hj|].
      left. rewrite offset_sample. f_equal. now apply gemm_sum_spec with (m := m) (n := n). }
  destruct (run_with_raw (scale_add K alpha beta) C ops Hwf) as (C' & E & Hwf' & Hs & He & Hr).
  { intros a0 rv Ho. apply Hin in Ho as (i & j & Hi & Hj & -> & ->). split; [|eauto].
    apply (raw_some _ _ (c i j) Hwf). rewrite (Nat.mul_comm ldC). apply (HC i j Hi Hj). }
  exists C'. split; [exact E|]. split; [exact Hwf'|]. split; [exact Hs|]. split.
  - intros i j Hi Hj. cbn [negb]. destruct Hs as (S1 & S2 & S3 & S4). rewrite S2, S3, S4, Hr.
    pose proof (HC i j Hi Hj) as HC'. cbn in HC'. rewrite HC'. cbn [option_map]. f_equal.
    rewrite (Nat.mul_comm i ldC). unfold ops, gemm_row. rewrite vals_at_for.
    rewrite (for_single _ m i Hi).
    2:{ intros i' Hi' Hne. rewrite vals_at_for. apply for_nil. intros j' Hj'. rewrite vals_at_one, offset_sample.
        destruct (Nat.eqb_spec (smC * (maps C * width C * height C) + (ldC * i' + j')) (smC * (maps C * width C * height C) + (ldC * i + j))); [|reflexivity].
        exfalso. apply Hne. apply (block_inj ldC i' j' i j n); lia. }
    rewrite vals_at_for, (for_single _ n j Hj).
    2:{ intros j' Hj' Hne. rewrite vals_at_one, offset_sample.
        destruct (Nat.eqb_spec (smC * (maps C * width C * height C) + (ldC * i + j')) (smC * (maps C * width C * height C) + (ldC * i + j))); [|reflexivity].
        exfalso. apply Hne. lia. }
    rewrite vals_at_one, offset_sample, Nat.eqb_refl, (gemm_sum_spec _ _ _ _ _ _ _ _ _ m n i j a b) by auto. reflexivity.
  - intros e Hout. rewrite Hr. rewrite vals_at_none; [now destruct (raw C e)|].
    intros rv Ho. apply Hin in Ho as (i & j & Hi & Hj & -> & _). apply (Hout i j Hi Hj). now rewrite (Nat.mul_comm ldC).
Qed.

Lemma gemv_sum_spec transA n A smA ldA X smX incX m i (a : nat -> nat -> D) (x : nat -> D) :
  stored transA A smA ldA m n a -> stored false X smX incX n 1 (fun j _ => x j) -> i < m ->
  gemv_sum K transA n A smA ldA X smX incX i = Ok (nsum K n (fun j => nmul K (x j) (a i j))).
Proof.
  intros HA HX Hi. unfold gemv_sum. apply foldm_nsum. intros s j Hj.
  rewrite (sample_elt_raw _ _ _ _ (HA i j Hi Hj)). cbn [bind].
  assert (EX : sample_elt X smX (j * incX) = Ok (x j)).
  { apply sample_elt_raw. pose proof (HX j 0 Hj Nat.lt_0_1) as H. cbn in H. rewrite Nat.add_0_r in H. exact H. }
  now rewrite EX.
Qed.

Lemma gemv_spec transA m n alpha beta A smA ldA X smX incX Y smY incY (a : nat -> nat -> D) (x y : nat -> D) :
  wf Y -> 0 < incY ->
  stored transA A smA ldA m n a -> stored false X smX incX n 1 (fun j _ => x j) ->
  stored false Y smY incY m 1 (fun i _ => y i) ->
  exists Y', gemv K true transA m n alpha A smA ldA X smX incX beta Y smY incY = Ok Y' /\
    wf Y' /\ same_shape Y' Y /\
    stored false Y' smY incY m 1 (fun i _ => scale_add K alpha beta (y i) (nsum K n (fun j => nmul K (x j) (a i j)))) /\
    (forall e, (forall i, i < m -> e <> smY * (maps Y * width Y * height Y) + i * incY) -> raw Y' e = raw Y e).
Proof.
  intros Hwf Hinc HA HX HY. unfold gemv. cbn [negb].
  set (ops := for_ m _).
  assert (Hin : forall a0 rv, In (a0, rv) ops <-> exists i, i < m /\
    a0 = smY * (maps Y * width Y * height Y) + i * incY /\
    rv = Ok (nsum K n (fun j => nmul K (x j) (a i j)))).
  { intros a0 rv. unfold ops. rewrite in_for. split.
    - intros (i & Hi & [Eq|[]]). inversion Eq; subst; clear Eq.
      exists i. rewrite offset_sample. repeat split; auto. now apply gemv_sum_spec with (m := m).
    - intros (i & Hi & -> & ->). exists i. split; [exact Hi|].
      left. rewrite offset_sample. f_equal. now apply gemv_sum_spec with (m := m). }
  destruct (run_with_raw (scale_add K alpha beta) Y ops Hwf) as (Y' & E & Hwf' & Hs & He & Hr).
  { intros a0 rv Ho. apply Hin in Ho as (i & Hi & -> & ->). split; [|eauto].
    apply (raw_some _ _ (y i) Hwf). pose proof (HY i 0 Hi Nat.lt_0_1) as H. cbn in H. now rewrite Nat.add_0_r in H. }
  exists Y'. split; [exact E|]. split; [exact Hwf'|]. split; [exact Hs|]. split.
  - intros i j Hi Hj. assert (j = 0) as -> by lia. destruct Hs as (S1 & S2 & S3 & S4). rewrite S2, S3, S4, Hr.
    pose proof (HY i 0 Hi Nat.lt_0_1) as HY'. cbn in HY'. rewrite HY'. cbn [option_map]. f_equal. rewrite Nat.add_0_r.
    unfold ops. rewrite vals_at_for.
    rewrite (for_single _ m i Hi).
    2:{ intros i' Hi' Hne. rewrite vals_at_one, offset_sample.
        destruct (Nat.eqb_spec (smY * (maps Y * width Y * height Y) + i' * incY) (smY * (maps Y * width Y * height Y) + i * incY)) as [En|]; [|reflexivity].
        exfalso. apply Hne. apply Nat.add_cancel_l in En. apply Nat.mul_cancel_r in En; lia. }
    rewrite vals_at_one, offset_sample, Nat.eqb_refl, (gemv_sum_spec _ _ _ _ _ _ _ _ m i a x) by auto. reflexivity.
  - intros e Hout. rewrite Hr. rewrite vals_at_none; [now destruct (raw Y e)|].
    intros rv Ho. apply Hin in Ho as (i & Hi & -> & _). apply (Hout i Hi). reflexivity.
Qed.
End Gemm.

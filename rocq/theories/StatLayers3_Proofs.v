From Coq Require Import Reals.
From Verif Require Import Base BaseFacts LoopFacts Float32 FloatOps FloatOps_Flocq Tensor_Model Tensor_Spec Tensor_Proofs Num
  Math_Proofs Layers_Proofs Act_Model Act_Proofs Par_Model Par_Proofs StatLayers_Model StatLayers_Spec StatLayers_Proofs StatLayers2_Proofs.
Local Open Scope nat_scope.

(** Float addition with rounding is ordered as well. *)
Lemma f32_ordered : ordered_addition f32_num f32_nonneg Z.le.
Proof.
  constructor.
  - unfold f32_nonneg, f32_inf. cbn. unfold f32_zero. lia.
  - apply fadd_closed.
  - intros. apply Z.le_refl.
  - intros a b c. apply Z.le_trans.
  - intros a b w. apply fadd_mono.
  - apply fadd_grow.
Qed.

(** The choice of the threshold. *)
Lemma choose_spec st val : length (bs_tp st) = length (bs_thresholds st) -> length (bs_fp st) = length (bs_thresholds st) -> length (bs_fn st) = length (bs_thresholds st) ->
  (forall t tp fp fn, nth_error (bs_tp st) t = Some tp -> nth_error (bs_fp st) t = Some fp -> nth_error (bs_fn st) t = Some fn ->
     val t = bs_f1 (bs_ratio tp fp) (bs_ratio tp fn)) ->
  exists fmax o, bs_choose st = Ok (fmax, o) /\
    match o with
    | None => forall t, t < length (bs_thresholds st) -> fgt (val t) minus_two = false
    | Some t => t < length (bs_thresholds st) /\ fgt (val t) minus_two = true /\ (forall t', t' < length (bs_thresholds st) -> fgt (val t') (val t) = false) /\
        (forall t', t' < t -> fge (val t') (val t) = false)
    end.
Proof.
  intros L1 L2 L3 Hv. unfold bs_choose.
  assert (G : forall n, n <= length (bs_thresholds st) -> exists fmax o,
    foldm (fun acc t => let '(fmax, tfmax) := acc in
      tp <- load (bs_tp st) t ;; fp <- load (bs_fp st) t ;; fn <- load (bs_fn st) t ;;
      let f1 := bs_f1 (bs_ratio tp fp) (bs_ratio tp fn) in
      if fgt f1 fmax then Ok (f1, Some t) else Ok (fmax, tfmax)) (seq 0 n) (minus_two, None) = Ok (fmax, o) /\
    match o with
    | None => fmax = minus_two /\ forall t, t < n -> fgt (val t) minus_two = false
    | Some t => fmax = val t /\ t < n /\ fgt (val t) minus_two = true /\ (forall t', t' < n -> fgt (val t') (val t) = false) /\
        (forall t', t' < t -> fge (val t') (val t) = false)
    end).
  { induction n as [|n IH]; intros Hn.
    - exists minus_two, None. split; [reflexivity|]. split; [reflexivity|intros; lia].
    - destruct IH as (fm & o & E & H); [lia|]. rewrite seq_S, foldm_app, E. cbn [bind Nat.add foldm].
      destruct (nth_error_lt (bs_tp st) (a := n)) as [tp Etp]; [lia|]. destruct (nth_error_lt (bs_fp st) (a := n)) as [fp Efp]; [lia|].
      destruct (nth_error_lt (bs_fn st) (a := n)) as [fn Efn]; [lia|].
      unfold load. rewrite Etp, Efp, Efn. cbn [bind]. cbv zeta. rewrite <- (Hv n tp fp fn Etp Efp Efn).
      destruct (fgt (val n) fm) eqn:Ef; cbn [bind].
      + exists (val n), (Some n). split; [reflexivity|]. split; [reflexivity|]. split; [lia|]. destruct o as [t|].
        * destruct H as (-> & Ht & H1 & H2 & H3). split; [now apply fgt_trans with (val t)|]. split.
          -- intros t' Ht'. destruct (Nat.eq_dec t' n) as [->|]; [apply fgt_irrefl|]. assert (A : fge (val t') (val n) = false) by (apply fgt_not_above with (val t); auto; apply H2; lia).
             unfold fge in A. now apply orb_false_iff in A.
          -- intros t' Ht'. apply fgt_not_above with (val t); auto.
        * destruct H as (-> & H1). split; [exact Ef|]. split.
          -- intros t' Ht'. destruct (Nat.eq_dec t' n) as [->|]; [apply fgt_irrefl|]. assert (A : fge (val t') (val n) = false) by (apply fgt_not_above with minus_two; auto; apply H1; lia).
             unfold fge in A. now apply orb_false_iff in A.
          -- intros t' Ht'. apply fgt_not_above with minus_two; auto.
      + exists fm, o. split; [reflexivity|]. destruct o as [t|].
        * destruct H as (-> & Ht & H1 & H2 & H3). repeat split; auto. intros t' Ht'. destruct (Nat.eq_dec t' n) as [->|]; [exact Ef|apply H2; lia].
        * destruct H as (-> & H1). split; [reflexivity|]. intros t' Ht'. destruct (Nat.eq_dec t' n) as [->|]; [exact Ef|apply H1; lia]. }
  destruct (G _ (le_n _)) as (fm & o & E & H). exists fm, o. split; [exact E|]. destruct o; tauto.
Qed.

(** The parallel loop over the thresholds. *)
Section Par.
Context {W : Type} (K : num W) (wide : f32 -> W).
Lemma parallel_four (b0 b1 b2 b3 b0' b1' b2' b3' : list W) comb n acts :
  (forall i k a rv, i < n -> In (k, a, rv) (acts i) -> k < 4 /\ a = i) ->
  exec_with comb (for_ n (fun i => only 0 (acts i))) b0 = Ok b0' -> exec_with comb (for_ n (fun i => only 1 (acts i))) b1 = Ok b1' ->
  exec_with comb (for_ n (fun i => only 2 (acts i))) b2 = Ok b2' -> exec_with comb (for_ n (fun i => only 3 (acts i))) b3 = Ok b3' ->
  always_ends_in comb [b0; b1; b2; b3] n acts [b0'; b1'; b2'; b3'].
Proof.
  intros Hk E0 E1 E2 E3. apply parallel_loop; [reflexivity|intros i k a rv Hi Hin; now apply (Hk i k a rv)| |].
  - intros [|[|[|[|k]]]] b Hb; cbn in Hb; [injection Hb as <-; eexists; split; [reflexivity|eassumption]..|destruct k; discriminate].
  - intros i j k a v v' Hi Hj Hne H1 H2. apply Hk in H1; auto. apply Hk in H2; auto. lia.
Qed.

Lemma bs_only thresholds first second third t sg ex : elements_ok first second third -> t < length thresholds ->
  only (bs_kind sg ex) (bs_actions wide thresholds first second third t) = bs_adds wide thresholds first second third sg ex t.
Proof.
  intros (W1 & W2 & W3 & Hpos & Es & Et) Ht. unfold bs_actions, bs_adds. rewrite only_for. apply for_ext. intros s Hs.
  assert (Dd : forall t : tensor f32, wf t -> s < elements t -> exists v, elt t s = Ok v).
  { intros u [Ee V] H. unfold elt, buffer. destruct (data u) as [l|]; [|destruct V as (V1 & _); rewrite V1 in Ee; cbn in Ee; lia]. cbn [bind].
    unfold load. destruct (nth_error_lt l (a := s)) as [v ->]; [lia|]. eauto. }
  destruct (Dd first W1) as [v ->]; [lia|]. destruct (Dd second W2) as [e ->]; [lia|]. destruct (Dd third W3) as [w ->]; [lia|].
  unfold load. destruct (nth_error_lt thresholds (a := t)) as [th ->]; [lia|]. cbn [bind].
  destruct (fgt v th), (fgt e f32_zero), sg, ex; reflexivity.
Qed.
Lemma bs_actions_ok thresholds first second third t k a rv : In (k, a, rv) (bs_actions wide thresholds first second third t) -> k < 4 /\ a = t.
Proof.
  intros H. unfold bs_actions in H. apply in_for in H as (s & _ & H).
  destruct (bind _ _) as [[[sg ex] w]| |]; destruct H as [H|[]]; injection H as <- <- _; (split; [|reflexivity]); [destruct sg, ex; cbn; lia|lia|lia].
Qed.
Lemma bs_forward_parallel first second third st st' : elements_ok first second third -> bs_disabled st = false ->
  bs_forward K wide first second third st = Ok st' ->
  always_ends_in (nadd K) [bs_tp st; bs_fp st; bs_fn st; bs_tn st] (length (bs_thresholds st)) (bs_actions wide (bs_thresholds st) first second third)
    [bs_tp st'; bs_fp st'; bs_fn st'; bs_tn st'].
Proof.
  intros He Hd H. unfold bs_forward in H. rewrite Hd in H. cbv zeta in H.
  destruct (exec_with _ _ (bs_tp st)) as [tp| |] eqn:E0; cbn [bind] in H; try discriminate.
  destruct (exec_with _ _ (bs_fp st)) as [fp| |] eqn:E1; cbn [bind] in H; try discriminate.
  destruct (exec_with _ _ (bs_fn st)) as [fn| |] eqn:E2; cbn [bind] in H; try discriminate.
  destruct (exec_with _ _ (bs_tn st)) as [tn| |] eqn:E3; cbn [bind] in H; try discriminate.
  injection H as <-. cbn [bs_tp bs_fp bs_fn bs_tn].
  assert (R : forall sg ex, for_ (length (bs_thresholds st)) (fun i => only (bs_kind sg ex) (bs_actions wide (bs_thresholds st) first second third i)) =
    for_ (length (bs_thresholds st)) (bs_adds wide (bs_thresholds st) first second third sg ex)).
  { intros sg ex. apply for_ext. intros i Hi. now apply bs_only. }
  apply parallel_four.
  - intros i k a rv _ Hin. now apply bs_actions_ok in Hin.
  - etransitivity; [|exact E0]. f_equal. exact (R true true).
  - etransitivity; [|exact E1]. f_equal. exact (R true false).
  - etransitivity; [|exact E2]. f_equal. exact (R false true).
  - etransitivity; [|exact E3]. f_equal. exact (R false false).
Qed.
End Par.

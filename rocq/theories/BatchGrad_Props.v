(** C83: a batch trains with the sum of the gradients of its samples; how the samples are divided into batches does not matter. *)
From Coq Require Import Reals Relations Permutation Lra Psatz FunctionalExtensionality.
From Verif Require Import Base BaseFacts Num RealNum Graph_Model Graph_Spec Graph_Props
  Backprop_Model Backprop_Spec Backprop_Proofs BackpropLayers_Model BackpropLayers_Spec BackpropLayers_Proofs BackpropNet_Spec BackpropNet_Proofs BackpropReady_Proofs
  Trainer_Model TrainNet_Model TrainNet_Spec TrainNet_Proofs TrainNet_Props Batch_Spec BatchGrad_Spec BatchGrad_Proofs.
From Verif Require Trainer_Spec.
From Verif Require Import Trainer_Props.
Local Open Scope nat_scope.
Local Open Scope list_scope.

Section Samples.
Variables (h0 : list node) (history : list nat) (parts ones : nat -> nat -> part) (theta : nat -> list (list R)).
Hypothesis tr : trainable h0 history parts theta.
Hypothesis tr1 : trainable h0 history ones theta.
Variable g : graph.
Hypothesis ready : forall j olds, network_ready h0 history g (parts j) olds.
Hypothesis ready1 : forall i olds, network_ready h0 history g (ones i) olds.
Variables (olds olds1 : nat -> nat -> list R) (fuel : nat).
Notation layer := (fun j k => acts (stack history (parts j) (olds j) (heap g) k)).
Notation single := (fun i k => acts (stack history (ones i) (olds1 i) (heap g) k)).
Hypothesis enough : length (nodes g) < fuel.
Hypothesis all_fit : forall j x, In x (nodes g) -> fits (stack history (parts j) (olds j) (heap g) x).
Hypothesis all_fit1 : forall i x, In x (nodes g) -> fits (stack history (ones i) (olds1 i) (heap g) x).

Lemma batch_loss (eta : nat -> list (list R)) b which j L l : (forall n, In n history -> Forall2 shaped (tunes (parts 0 n)) (eta n)) -> (forall n, ~ In n history -> eta n = []) ->
  0 < b -> shows history b parts ones which [j] -> reports (layer j) fuel g eta L -> (forall s, s < b -> reports (single (which j s)) fuel g eta (l s)) ->
  L = rsum l (seq 0 b).
Proof.
  intros Sh No Hb Sw HL Hl.
  apply (reported_sum h0 history g fuel b (parts j) (olds j) (fun s => ones (which j s)) (fun s => olds1 (which j s)) eta); auto.
  - intros n Hn. rewrite (tr_same _ _ _ _ tr j n Hn). now apply Sh.
  - intros s n Hs Hn. apply Sw; [now left|exact Hs|exact Hn].
Qed.

Lemma losses_exist (lay : nat -> nat -> part) (old : nat -> nat -> list R) (eta : nat -> list (list R)) :
  trainable h0 history lay theta -> (forall i o, network_ready h0 history g (lay i) o) ->
  (forall i x, In x (nodes g) -> fits (stack history (lay i) (old i) (heap g) x)) ->
  (forall n, In n history -> Forall2 shaped (tunes (lay 0 n)) (eta n)) -> (forall n, ~ In n history -> eta n = []) ->
  forall i, exists l, reports (fun k => acts (stack history (lay i) (old i) (heap g) k)) fuel g eta l.
Proof.
  intros T Rd Fi Sh No i. set (m := mkMemory (fun _ _ => []) (fun _ _ => []) (fun _ => []) : memory R).
  destruct (pass_runs h0 history g (lay i) (old i) (Rd i (old i)) fuel enough eta [] [] m) as (l & st & E).
  exists l. apply (reports_some h0 history g (lay i) (old i) (Rd i (old i)) (Fi i) fuel enough eta) with (3 := E); [|exact No].
  intros n Hn. rewrite (tr_same _ _ _ _ T i n Hn). now apply Sh.
Qed.
End Samples.

(** The loss a network reports for a batch is the sum of the losses it reports for the samples of the batch. *)
Theorem C83_loss h0 history parts ones theta : trainable h0 history parts theta -> trainable h0 history ones theta ->
  exists g0 g, add_nodes (new_graph h0) (map Some history) = Ok g0 /\ insert_sweeps 2 g0 = Ok g /\
    forall olds olds1 fuel,
      let layer j k := acts (stack history (parts j) (olds j) (heap g) k) in
      let single i k := acts (stack history (ones i) (olds1 i) (heap g) k) in
      length (nodes g) < fuel ->
      (forall j x, In x (nodes g) -> fits (stack history (parts j) (olds j) (heap g) x)) ->
      (forall i x, In x (nodes g) -> fits (stack history (ones i) (olds1 i) (heap g) x)) ->
      exists losses : nat -> R, (forall i, reports (single i) fuel g theta (losses i)) /\
        forall b which j, 0 < b -> shows history b parts ones which [j] ->
          reports (layer j) fuel g theta (rsum (fun s => losses (which j s)) (seq 0 b)).
Proof.
  intros Tr Tr1. destruct (trainable_ready h0 history parts theta Tr) as (g0 & g & E0 & E & Rd). exists g0, g. split; [exact E0|]. split; [exact E|].
  destruct (trainable_ready h0 history ones theta Tr1) as (g0' & g' & E0' & E' & Rd1). assert (g0' = g0) by congruence. subst g0'. assert (g' = g) by congruence. subst g'.
  intros olds olds1 fuel layer single Hf Fi Fi1.
  pose proof (losses_exist h0 history theta g fuel Hf ones olds1 theta Tr1 Rd1 Fi1 (tr_params _ _ _ _ Tr1) (tr_none _ _ _ _ Tr1)) as Ex1.
  pose proof (losses_exist h0 history theta g fuel Hf parts olds theta Tr Rd Fi (tr_params _ _ _ _ Tr) (tr_none _ _ _ _ Tr)) as Ex.
  assert (Ch : exists losses : nat -> R, forall i, reports (single i) fuel g theta (losses i)).
  { set (m := mkMemory (fun _ _ => []) (fun _ _ => []) (fun _ => []) : memory R).
    exists (fun i => match gradient_pass R_num (single i) theta fuel g [] [] m with Ok (l, _) => l | _ => 0%R end). intros i.
    destruct (Ex1 i) as (l & Hl). destruct (Hl [] [] m) as (st & Es). unfold single. rewrite Es. exact Hl. }
  destruct Ch as (losses & Hl). exists losses. split; [exact Hl|]. intros b which j Hb Sw. destruct (Ex j) as (L & HL).
  assert (EL : L = rsum (fun s => losses (which j s)) (seq 0 b)).
  { apply (batch_loss h0 history parts ones theta Tr g Rd Rd1 olds olds1 fuel Hf Fi Fi1 theta b which j L); auto.
    - exact (tr_params _ _ _ _ Tr).
    - exact (tr_none _ _ _ _ Tr).
    - intros s _. apply Hl. }
  rewrite <- EL. exact HL.
Qed.
Print Assumptions C83_loss.

(** ** Gradients *)
Lemma trainable_choose h0 history ones theta (f : nat -> nat) : trainable h0 history ones theta -> trainable h0 history (fun s => ones (f s)) theta.
Proof.
  intros [T1 T2 T3 T4 T5 T6 T7 T8 T9]. constructor; auto.
  - intros b n Hn. now rewrite (T7 (f b) n Hn), (T7 (f 0) n Hn).
  - intros n Hn. rewrite (T7 (f 0) n Hn). now apply T8.
Qed.

(** A pass over a batch leaves, as the gradient of each parameter, the sum of the gradients that passes over its samples leave; whatever earlier
    passes left behind. *)
Theorem C83_gradient h0 history parts ones theta : trainable h0 history parts theta -> trainable h0 history ones theta ->
  exists g0 g, add_nodes (new_graph h0) (map Some history) = Ok g0 /\ insert_sweeps 2 g0 = Ok g /\
    forall olds olds1 fuel b which j,
      let layer k := acts (stack history (parts j) (olds j) (heap g) k) in
      let single s k := acts (stack history (ones (which j s)) (olds1 (which j s)) (heap g) k) in
      length (nodes g) < fuel ->
      (forall j x, In x (nodes g) -> fits (stack history (parts j) (olds j) (heap g) x)) ->
      (forall i x, In x (nodes g) -> fits (stack history (ones i) (olds1 i) (heap g) x)) ->
      0 < b -> shows history b parts ones which [j] ->
      (forall s, s < b -> meets_no_kink (single s) fuel g theta history (ones (which j s))) ->
      forall (ff bp : nat -> list nat) (m : nat -> memory R) ff0 bp0 m0, exists L flags r (l : nat -> R) (flags1 : nat -> list nat * list nat) (r1 : nat -> memory R),
        gradient_pass R_num layer theta fuel g ff0 bp0 m0 = Ok (L, (flags, r)) /\
        (forall s, s < b -> gradient_pass R_num (single s) theta fuel g (ff s) (bp s) (m s) = Ok (l s, (flags1 s, r1 s))) /\
        forall n p d e, In n history -> nth_error (tunes (parts 0 n)) p = Some d -> e < size d ->
          param (m_grad r) n p e = rsum (fun s => param (m_grad (r1 s)) n p e) (seq 0 b).
Proof.
  intros Tr Tr1. destruct (trainable_ready h0 history parts theta Tr) as (g0 & g & E0 & E & Rd). exists g0, g. split; [exact E0|]. split; [exact E|].
  destruct (trainable_ready h0 history ones theta Tr1) as (g0' & g' & E0' & E' & Rd1). assert (g0' = g0) by congruence. subst g0'. assert (g' = g) by congruence. subst g'.
  intros olds olds1 fuel b which j layer single Hf Fi Fi1 Hb Sw Sm ff bp m ff0 bp0 m0.
  assert (Th : forall n, In n history -> Forall2 shaped (tunes (parts j n)) (theta n)) by (intros n Hn; rewrite (tr_same _ _ _ _ Tr j n Hn); now apply (tr_params _ _ _ _ Tr)).
  assert (Th1 : forall i n, In n history -> Forall2 shaped (tunes (ones i n)) (theta n)) by (intros i n Hn; rewrite (tr_same _ _ _ _ Tr1 i n Hn); now apply (tr_params _ _ _ _ Tr1)).
  pose proof (tr_none _ _ _ _ Tr) as No.
  assert (Km : meets_no_kink layer fuel g theta history (parts j)).
  { apply (no_kink_batch h0 history g fuel b (parts j) (olds j) (fun s => ones (which j s)) (fun s => olds1 (which j s)) theta); auto.
    intros s n Hs Hn. apply Sw; [now left|exact Hs|exact Hn]. }
  destruct (pass_runs h0 history g (parts j) (olds j) (Rd j (olds j)) fuel Hf theta ff0 bp0 m0) as (L & [flags r] & Ep).
  exists L, flags, r.
  set (run := fun s => gradient_pass R_num (single s) theta fuel g (ff s) (bp s) (m s)).
  exists (fun s => match run s with Ok (l, _) => l | _ => 0%R end), (fun s => match run s with Ok (_, (f, _)) => f | _ => ([], []) end),
    (fun s => match run s with Ok (_, (_, r)) => r | _ => m s end).
  split; [exact Ep|].
  assert (Run : forall s, run s = Ok (match run s with Ok (l, _) => l | _ => 0%R end, (match run s with Ok (_, (f, _)) => f | _ => ([], []) end, match run s with Ok (_, (_, r)) => r | _ => m s end))).
  { intros s. destruct (pass_runs h0 history g (ones (which j s)) (olds1 (which j s)) (Rd1 (which j s) (olds1 (which j s))) fuel Hf theta (ff s) (bp s) (m s)) as (l & [fl r'] & Es).
    unfold run, single. rewrite Es. reflexivity. }
  split; [intros s _; apply Run|].
  set (r1 := fun s => match run s with Ok (_, (_, r)) => r | _ => m s end). intros n p d e Hn Hp He.
  pose proof (tr_params _ _ _ _ Tr n Hn) as Tn. assert (Hp' : p < length (theta n)).
  { rewrite <- (Forall2_length Tn). apply nth_error_Some. congruence. }
  assert (He' : e < length (nth p (theta n) [])).
  { destruct (forall2_nth_error _ _ _ _ _ Tn Hp) as (x & Ex & Sx). rewrite (nth_error_nth _ _ [] Ex). now rewrite Sx. }
  assert (Gb : gradients history g (parts j) (olds j) fuel theta (m_grad r)).
  { destruct flags as [fa fb]. exact (pass_gradients h0 history g (parts j) (olds j) (Rd j (olds j)) (Fi j) fuel Hf theta ff0 bp0 m0 L fa fb r Th No Km Ep). }
  assert (Gs : forall s, In s (seq 0 b) -> gradients history g (ones (which j s)) (olds1 (which j s)) fuel theta (m_grad (r1 s))).
  { intros s Hs. apply in_seq in Hs. pose proof (Run s) as Er. unfold run in Er at 1. fold (r1 s) in Er.
    destruct (match run s with Ok (_, (f, _)) => f | _ => ([], []) end) as [fa fb].
    apply (pass_gradients h0 history g (ones (which j s)) (olds1 (which j s)) (Rd1 _ _) (Fi1 _) fuel Hf theta (ff s) (bp s) (m s) _ fa fb (r1 s) (Th1 _) No (Sm s ltac:(lia)) Er). }
  destruct (summed_coordinate h0 history g parts olds theta Tr fuel (fun _ => m_grad r) [j] n p e) as (lb & Hlb & Dlb); auto.
  { intros k [<-|[]]. exact Gb. }
  destruct (summed_coordinate h0 history g (fun s => ones (which j s)) (fun s => olds1 (which j s)) theta (trainable_choose h0 history ones theta (which j) Tr1) fuel
    (fun s => m_grad (r1 s)) (seq 0 b) n p e Gs Hn Hp' He') as (l1 & Hl1 & Dl1).
  cbn [rsum] in Dlb. rewrite Rplus_0_r in Dlb. refine (derive_unique _ _ _ _ Dlb _). eapply derive_ext; [|exact Dl1]. intros v. cbv beta. rewrite Rplus_0_r. symmetry.
  apply (batch_loss h0 history parts ones theta Tr g Rd Rd1 olds olds1 fuel Hf Fi Fi1 (set_param theta n p e v) b which j (lb j v) (fun s => l1 s v)); auto.
  - intros k Hk. unfold set_param. destruct (Nat.eqb_spec k n) as [->|_]; [|now apply (tr_params _ _ _ _ Tr)]. now apply set_param_shaped, (tr_params _ _ _ _ Tr).
  - intros k Hk. unfold set_param. destruct (Nat.eqb_spec k n) as [->|_]; [contradiction|now apply No].
  - apply Hlb. now left.
  - intros s Hs. apply Hl1. apply in_seq. lia.
Qed.
Print Assumptions C83_gradient.

(** ** Training *)
Lemma tensors_eq (a b : list (list R)) : Trainer_Spec.shape a = Trainer_Spec.shape b ->
  (forall i e, i < length a -> e < length (nth i a []) -> Trainer_Spec.elem a i e = Trainer_Spec.elem b i e) -> a = b.
Proof.
  intros S H. assert (L : length a = length b) by (apply (f_equal (@length nat)) in S; unfold Trainer_Spec.shape in S; now rewrite !map_length in S).
  apply (nth_ext a b [] []); [exact L|]. intros i Hi.
  assert (Li : length (nth i a []) = length (nth i b [])).
  { apply (f_equal (fun l => nth i l 0)) in S. unfold Trainer_Spec.shape in S. change 0 with (@length R []) in S. now rewrite !map_nth in S. }
  apply (nth_ext _ _ 0%R 0%R); [exact Li|]. intros e He. specialize (H i e Hi He). unfold Trainer_Spec.elem in H.
  assert (Hi' : i < length b) by lia. assert (He' : e < length (nth i b [])) by (rewrite <- Li; exact He).
  rewrite (nth_error_nth' a [] Hi), (nth_error_nth' b [] Hi'), (nth_error_nth' _ 0%R He), (nth_error_nth' _ 0%R He') in H. congruence.
Qed.
Lemma flat_position {D} (ls : list (D * list (list R))) i : i < length (concat (map snd ls)) ->
  exists l r ps p, nth_error ls l = Some (r, ps) /\ p < length ps /\ length (concat (map snd (firstn l ls))) + p = i /\ nth i (concat (map snd ls)) [] = nth p ps [].
Proof.
  revert i. induction ls as [|[r ps] ls IH]; intros i Hi; cbn [map concat snd length] in Hi; [lia|]. rewrite app_length in Hi. destruct (Nat.lt_ge_cases i (length ps)) as [H|H].
  - exists 0, r, ps, i. cbn. repeat split; auto. now rewrite app_nth1.
  - destruct (IH (i - length ps) ltac:(lia)) as (l & r' & ps' & p & E & Hp & Ei & En). exists (S l), r', ps', p. cbn [nth_error firstn map concat snd]. rewrite app_length.
    split; [exact E|]. split; [exact Hp|]. split; [lia|]. rewrite app_nth2 by lia. exact En.
Qed.
Lemma layers_eq (a b : list (R * list (list R))) : map (fun '(r, ps) => (r, Trainer_Spec.shape ps)) a = map (fun '(r, ps) => (r, Trainer_Spec.shape ps)) b ->
  (forall l r ps r' ps' i e, nth_error a l = Some (r, ps) -> nth_error b l = Some (r', ps') -> i < length ps -> e < length (nth i ps []) -> Trainer_Spec.elem ps i e = Trainer_Spec.elem ps' i e) -> a = b.
Proof.
  revert b. induction a as [|[r ps] a IH]; intros [|[r' ps'] b] Sh H; try discriminate; [reflexivity|]. cbn [map] in Sh. injection Sh as Er Es Sh. f_equal.
  - f_equal; [exact Er|]. apply (tensors_eq ps ps' Es). intros i e Hi He. exact (H 0 r ps r' ps' i e eq_refl eq_refl Hi He).
  - apply IH; [exact Sh|]. intros l r1 ps1 r2 ps2 i e E1 E2. exact (H (S l) r1 ps1 r2 ps2 i e E1 E2).
Qed.
Lemma flat_shape (a b : list (R * list (list R))) : map (fun '(r, ps) => (r, Trainer_Spec.shape ps)) a = map (fun '(r, ps) => (r, Trainer_Spec.shape ps)) b ->
  Trainer_Spec.shape (concat (map snd a)) = Trainer_Spec.shape (concat (map snd b)).
Proof.
  revert b. induction a as [|[r ps] a IH]; intros [|[r' ps'] b] H; try discriminate; [reflexivity|]. cbn [map] in H. injection H as _ E H. specialize (IH b H).
  cbn [map concat snd]. unfold Trainer_Spec.shape in *. rewrite !map_app. now rewrite E, IH.
Qed.
Lemma shown_length b which passes : length (shown b which passes) = length passes * b.
Proof. unfold shown. induction passes as [|j l IH]; [reflexivity|]. cbn [flat_map length]. rewrite app_length, map_length, seq_length, IH. lia. Qed.
Lemma rsum_shown (f : nat -> R) b which passes : rsum f (shown b which passes) = rsum (fun j => rsum (fun s => f (which j s)) (seq 0 b)) passes.
Proof. unfold shown. rewrite rsum_flat_map. apply rsum_ext. intros j _. apply rsum_map. Qed.

(** Two trainers that are at the same point and differ only in how they divide the samples of an iteration: [sbatchsize] batches of [b], or others,
    in whatever order.  After the iteration they have the same weights and the same momentum, and they report the same loss. *)
Theorem C83_training h0 history parts parts' ones theta :
  trainable h0 history parts theta -> trainable h0 history parts' theta -> trainable h0 history ones theta ->
  exists g0 g, add_nodes (new_graph h0) (map Some history) = Ok g0 /\ insert_sweeps 2 g0 = Ok g /\
    forall olds olds' olds1 fuel rate cfg cfg' dl dl' calculate_lr (t t' : trainer R (network_state R)) its i es es' pixels b b' which which',
      let layer j k := acts (stack history (parts j) (olds j) (heap g) k) in
      let layer' j k := acts (stack history (parts' j) (olds' j) (heap g) k) in
      let single i k := acts (stack history (ones i) (olds1 i) (heap g) k) in
      let passes := seq (s_batches (world t)) (sbatchsize cfg) in
      let passes' := seq (s_batches (world t')) (sbatchsize cfg') in
      let lr := calculate_lr (to_u32 (epoch t * its + i)) in
      length (nodes g) < fuel ->
      (forall j x, In x (nodes g) -> fits (stack history (parts j) (olds j) (heap g) x)) ->
      (forall j x, In x (nodes g) -> fits (stack history (parts' j) (olds' j) (heap g) x)) ->
      (forall i x, In x (nodes g) -> fits (stack history (ones i) (olds1 i) (heap g) x)) ->
      optimization cfg = GradientDescent -> optimization cfg' = GradientDescent ->
      l1_weight cfg' = l1_weight cfg -> l2_weight cfg' = l2_weight cfg -> momentum cfg' = momentum cfg -> loss_probability dl' = loss_probability dl ->
      sample_count dl = pixels * b -> sample_count dl' = pixels * b' -> (Z.of_nat (sample_count dl * sbatchsize cfg) < 2 ^ 32)%Z ->
      Trainer_Spec.fits t -> Trainer_Spec.fits t' -> layers t = map (fun n => (rate n, theta n)) (nodes g) ->
      layers t' = layers t -> last_deltas t' = last_deltas t -> epoch t' = epoch t ->
      0 < b -> 0 < b' -> shows history b parts ones which passes -> shows history b' parts' ones which' passes' ->
      Permutation (shown b which passes) (shown b' which' passes') ->
      (forall i, In i (shown b which passes) -> meets_no_kink (single i) fuel g theta history (ones i)) ->
      exists (u u' : trainer R (network_state R)) acc acc' evs evs' loss,
        one_iteration R real_arith cfg dl (network_state R) (network_pass layer fuel g) calculate_lr its (t, es) i = Ok (u, es ++ evs ++ [EUpdate lr acc; EIteration loss]) /\
        one_iteration R real_arith cfg' dl' (network_state R) (network_pass layer' fuel g) calculate_lr its (t', es') i = Ok (u', es' ++ evs' ++ [EUpdate lr acc'; EIteration loss]) /\
        layers u' = layers u /\ last_deltas u' = last_deltas u /\ epoch u' = epoch u /\
        epoch u = epoch t /\ Trainer_Spec.structure u = Trainer_Spec.structure t /\ Trainer_Spec.fits u /\ Trainer_Spec.fits u' /\
        s_batches (world u) = s_batches (world t) + sbatchsize cfg /\ s_batches (world u') = s_batches (world t') + sbatchsize cfg' /\
        Forall (fun e => exists ls gs, e = EPass ls gs) evs /\ Forall (fun e => exists ls gs, e = EPass ls gs) evs'.
Proof.
  intros Tr Tr' Tr1.
  destruct (C76_iteration h0 history parts theta Tr) as (g0 & g & E0 & E & It). exists g0, g. split; [exact E0|]. split; [exact E|].
  destruct (C76_iteration h0 history parts' theta Tr') as (g0' & g' & E0' & E' & It'). assert (g0' = g0) by congruence. subst g0'. assert (g' = g) by congruence. subst g'. clear E0' E'.
  destruct (trainable_ready h0 history parts theta Tr) as (g0' & g' & E0' & E' & Rd). assert (g0' = g0) by congruence. subst g0'. assert (g' = g) by congruence. subst g'. clear E0' E'.
  destruct (trainable_ready h0 history parts' theta Tr') as (g0' & g' & E0' & E' & Rd'). assert (g0' = g0) by congruence. subst g0'. assert (g' = g) by congruence. subst g'. clear E0' E'.
  destruct (trainable_ready h0 history ones theta Tr1) as (g0' & g' & E0' & E' & Rd1). assert (g0' = g0) by congruence. subst g0'. assert (g' = g) by congruence. subst g'. clear E0' E'.
  intros olds olds' olds1 fuel rate cfg cfg' dl dl' calculate_lr t t' its i es es' pixels b b' which which' layer layer' single passes passes' lr
    Hf Fi Fi' Fi1 Go Go' C1 C2 C3 C4 S1 S2 Bd F F' Ly Ly' Ld Ep Hb Hb' Sw Sw' Pm Sm.
  assert (Cnt : sbatchsize cfg * b = sbatchsize cfg' * b').
  { apply Permutation_length in Pm. rewrite !shown_length in Pm. unfold passes, passes' in Pm. rewrite !seq_length in Pm. exact Pm. }
  assert (Tot : sample_count dl' * sbatchsize cfg' = sample_count dl * sbatchsize cfg) by (rewrite S1, S2; nia).
  assert (Km : forall j, In j passes -> meets_no_kink (layer j) fuel g theta history (parts j)).
  { intros j Hj. apply (no_kink_batch h0 history g fuel b (parts j) (olds j) (fun s => ones (which j s)) (fun s => olds1 (which j s)) theta); auto.
    - intros n Hn. rewrite (tr_same _ _ _ _ Tr j n Hn). now apply (tr_params _ _ _ _ Tr).
    - intros s Hs. apply Sm. apply in_flat_map. exists j. split; [exact Hj|]. apply in_map, in_seq. lia. }
  assert (Km' : forall j, In j passes' -> meets_no_kink (layer' j) fuel g theta history (parts' j)).
  { intros j Hj. apply (no_kink_batch h0 history g fuel b' (parts' j) (olds' j) (fun s => ones (which' j s)) (fun s => olds1 (which' j s)) theta); auto.
    - intros n Hn. rewrite (tr_same _ _ _ _ Tr' j n Hn). now apply (tr_params _ _ _ _ Tr').
    - intros s Hs. apply Sm. apply (Permutation_in _ (Permutation_sym Pm)). apply in_flat_map. exists j. split; [exact Hj|]. apply in_map, in_seq. lia. }
  destruct (It olds fuel rate cfg dl calculate_lr t its i es Hf Fi Go Bd F Ly Km) as (u & acc & evs & lo & HL & Ei & _ & Pu & Bu & Fu & Su & Eu & V).
  destruct (It' olds' fuel rate cfg' dl' calculate_lr t' its i es' Hf Fi' Go' ltac:(rewrite Tot; exact Bd) F' ltac:(rewrite Ly'; exact Ly) Km')
    as (u' & acc' & evs' & lo' & HL' & Ei' & _ & Pu' & Bu' & Fu' & Su' & Eu' & V').
  (* losses of a division, at parameters of the right shape *)
  assert (Sum : forall eta, (forall n, In n history -> Forall2 shaped (tunes (parts 0 n)) (eta n)) -> (forall n, In n history -> Forall2 shaped (tunes (parts' 0 n)) (eta n)) ->
    (forall n, In n history -> Forall2 shaped (tunes (ones 0 n)) (eta n)) -> (forall n, ~ In n history -> eta n = []) ->
    forall f f' : nat -> R, (forall j, In j passes -> reports (layer j) fuel g eta (f j)) -> (forall j, In j passes' -> reports (layer' j) fuel g eta (f' j)) -> rsum f passes = rsum f' passes').
  { intros eta Sh Sh' Sh1 No f f' Hf1 Hf1'.
    assert (Ch : exists losses : nat -> R, forall k, reports (single k) fuel g eta (losses k)).
    { set (m := mkMemory (fun _ _ => []) (fun _ _ => []) (fun _ => []) : memory R).
      exists (fun k => match gradient_pass R_num (single k) eta fuel g [] [] m with Ok (l, _) => l | _ => 0%R end). intros k.
      destruct (losses_exist h0 history theta g fuel Hf ones olds1 eta Tr1 Rd1 Fi1 Sh1 No k) as (l & Hl). destruct (Hl [] [] m) as (st & Es). unfold single. rewrite Es. exact Hl. }
    destruct Ch as (losses & Hl).
    transitivity (rsum losses (shown b which passes)); [|transitivity (rsum losses (shown b' which' passes')); [now apply rsum_perm|]].
    - rewrite rsum_shown. apply rsum_ext. intros j Hj.
      apply (batch_loss h0 history parts ones theta Tr g Rd Rd1 olds olds1 fuel Hf Fi Fi1 eta b which j (f j) (fun s => losses (which j s))); auto.
      + intros k s n [<-|[]] Hs Hn. now apply Sw.
      + now apply Hf1.
      + intros s _. apply Hl.
    - rewrite rsum_shown. symmetry. apply rsum_ext. intros j Hj.
      apply (batch_loss h0 history parts' ones theta Tr' g Rd' Rd1 olds' olds1 fuel Hf Fi' Fi1 eta b' which' j (f' j) (fun s => losses (which' j s))); auto.
      + intros k s n [<-|[]] Hs Hn. now apply Sw'.
      + now apply Hf1'.
      + intros s _. apply Hl. }
  assert (El : rsum lo passes = rsum lo' passes').
  { apply (Sum theta (tr_params _ _ _ _ Tr) (tr_params _ _ _ _ Tr') (tr_params _ _ _ _ Tr1) (tr_none _ _ _ _ Tr) lo lo' HL HL'). }
  exists u, u', acc, acc', evs, evs', (rsum lo passes / (loss_probability dl * INR (sample_count dl) * INR (sbatchsize cfg)))%R.
  split; [exact Ei|]. split.
  { refine (eq_trans Ei' _). unfold lr. rewrite Ep, C4. change (seq (s_batches (world t')) (sbatchsize cfg')) with passes'. rewrite <- El.
    rewrite !Rmult_assoc, <- !mult_INR, Tot. reflexivity. }
  assert (Range : forall (q : nat -> nat -> part) n p e, trainable h0 history q theta -> In n history -> p < length (theta n) -> e < length (nth p (theta n) []) ->
    exists d, nth_error (tunes (q 0 n)) p = Some d /\ e < size d).
  { intros q n p e Tq Hn Hp He. pose proof (tr_params _ _ _ _ Tq n Hn) as Tn.
    destruct (nth_error (tunes (q 0 n)) p) as [d|] eqn:Ed; [|apply nth_error_None in Ed; rewrite (Forall2_length Tn) in Ed; lia].
    destruct (forall2_nth_error _ _ _ _ _ Tn Ed) as (x & Ex & Sx). rewrite (nth_error_nth _ _ [] Ex), Sx in He. eauto. }
  assert (Step : forall l n p e, nth_error history l = Some n -> p < length (theta n) -> e < length (nth p (theta n) []) ->
    Trainer_Spec.weight u' l p e = Trainer_Spec.weight u l p e /\
    Trainer_Spec.elem (last_deltas u') (Trainer_Spec.position t l p) e = Trainer_Spec.elem (last_deltas u) (Trainer_Spec.position t l p) e).
  { intros l n p e Hl Hp He. pose proof (nth_error_In _ _ Hl) as Hn.
    destruct (Range parts n p e Tr Hn Hp He) as (d & Hd & Hs). destruct (Range parts' n p e Tr' Hn Hp He) as (d' & Hd' & Hs').
    destruct (V l n p d e Hl Hd Hs) as (f & G & s & Rf & Df & Es & W & D). destruct (V' l n p d' e Hl Hd' Hs') as (f' & G' & s' & Rf' & Df' & Es' & W' & D').
    assert (Pos : Trainer_Spec.position t' l p = Trainer_Spec.position t l p) by (unfold Trainer_Spec.position; now rewrite Ly'). rewrite Pos in Es', D'. rewrite Ld in Es'.
    assert (s' = s) by congruence. subst s'.
    assert (EG : G' = G).
    { refine (derive_unique _ _ _ _ Df' _). eapply derive_ext; [|exact Df]. intros v.
      apply (Sum (set_param theta n p e v)); auto.
      - intros k Hk. unfold set_param. destruct (Nat.eqb_spec k n) as [->|_]; [|now apply (tr_params _ _ _ _ Tr)]. now apply set_param_shaped, (tr_params _ _ _ _ Tr).
      - intros k Hk. unfold set_param. destruct (Nat.eqb_spec k n) as [->|_]; [|now apply (tr_params _ _ _ _ Tr')]. now apply set_param_shaped, (tr_params _ _ _ _ Tr').
      - intros k Hk. unfold set_param. destruct (Nat.eqb_spec k n) as [->|_]; [|now apply (tr_params _ _ _ _ Tr1)]. now apply set_param_shaped, (tr_params _ _ _ _ Tr1).
      - intros k Hk. unfold set_param. destruct (Nat.eqb_spec k n) as [->|_]; [contradiction|now apply (tr_none _ _ _ _ Tr)].
      - intros j Hj. now apply Rf.
      - intros j Hj. now apply Rf'. }
    rewrite EG, Ep, C1, C2, C3, C4, <- !mult_INR, Tot, !mult_INR in W', D'. rewrite W, W', D, D'. split; reflexivity. }
  assert (Own : forall l n, nth_error (nodes g) l = Some n -> theta n <> [] -> nth_error history l = Some n).
  { intros l n Hl Hne. assert (Hn : In n history) by (destruct (in_dec Nat.eq_dec n history) as [H|H]; [exact H|exfalso; exact (Hne (tr_none _ _ _ _ Tr n H))]).
    pose proof (sound_once _ (nr_sound _ _ _ _ _ (Rd 0 (olds 0)))) as Nd. destruct (nr_nodes _ _ _ _ _ (Rd 0 (olds 0))) as (extra & En). rewrite En in Hl, Nd.
    apply In_nth_error in Hn as (k & Hk). assert (Hk' : nth_error (history ++ extra) k = Some n) by (rewrite nth_error_app1; [exact Hk|apply nth_error_Some; congruence]).
    rewrite NoDup_nth_error in Nd. assert (l = k) as -> by (apply Nd; [apply nth_error_Some; congruence|congruence]). exact Hk. }
  assert (Str : forall (w : trainer R (network_state R)) l r ps, Trainer_Spec.structure w = Trainer_Spec.structure t -> nth_error (layers w) l = Some (r, ps) ->
    exists n, nth_error (nodes g) l = Some n /\ Trainer_Spec.shape ps = Trainer_Spec.shape (theta n)).
  { intros w l r ps Sw0 E1. assert (E2 : nth_error (Trainer_Spec.structure w) l = Some (r, Trainer_Spec.shape ps)) by (unfold Trainer_Spec.structure; rewrite nth_error_map, E1; reflexivity).
    rewrite Sw0 in E2. unfold Trainer_Spec.structure in E2. rewrite Ly, map_map, nth_error_map in E2. destruct (nth_error (nodes g) l) as [n|]; [|discriminate]. exists n. split; [reflexivity|].
    injection E2 as _ E2. now symmetry. }
  assert (Sut : Trainer_Spec.structure u' = Trainer_Spec.structure t) by (rewrite Su'; unfold Trainer_Spec.structure; now rewrite Ly').
  assert (Lens : forall (ps : list (list R)) n p, Trainer_Spec.shape ps = Trainer_Spec.shape (theta n) -> length ps = length (theta n) /\ length (nth p ps []) = length (nth p (theta n) [])).
  { intros ps n p Sp. split; [apply (f_equal (@length nat)) in Sp; unfold Trainer_Spec.shape in Sp; now rewrite !map_length in Sp|].
    apply (f_equal (fun l => nth p l 0)) in Sp. unfold Trainer_Spec.shape in Sp. change 0 with (@length R []) in Sp. now rewrite !map_nth in Sp. }
  assert (Same : layers u' = layers u).
  { apply layers_eq; [exact (eq_trans Sut (eq_sym Su))|]. intros l r ps r' ps' p e E1 E2 Hp He. destruct (Str u' l r ps Sut E1) as (n & Hl & Sp).
    destruct (Lens ps n p Sp) as [Lp Le]. rewrite Lp in Hp. rewrite Le in He.
    assert (Hne : theta n <> []) by (intros E3; rewrite E3 in Hp; cbn in Hp; lia).
    destruct (Step l n p e (Own l n Hl Hne) Hp He) as [W _]. unfold Trainer_Spec.weight in W. rewrite E1, E2 in W. exact W. }
  split; [exact Same|]. split; [|split; [now rewrite Eu, Eu'|now auto 10]].
  destruct Fu as (Fu & _). destruct Fu' as (Fu' & _).
  assert (Shp : Trainer_Spec.shape (Trainer_Spec.parameters u') = Trainer_Spec.shape (Trainer_Spec.parameters t)).
  { exact (flat_shape _ _ Sut). }
  apply tensors_eq; [rewrite Fu', Fu; unfold Trainer_Spec.parameters; now rewrite Same|]. intros q e Hq He. rewrite Shp in Fu'.
  assert (Lq : length (last_deltas u') = length (Trainer_Spec.parameters t) /\ length (nth q (last_deltas u') []) = length (nth q (Trainer_Spec.parameters t) [])).
  { split; [apply (f_equal (@length nat)) in Fu'; unfold Trainer_Spec.shape in Fu'; now rewrite !map_length in Fu'|].
    apply (f_equal (fun l => nth q l 0)) in Fu'. unfold Trainer_Spec.shape in Fu'. change 0 with (@length R []) in Fu'. now rewrite !map_nth in Fu'. }
  destruct Lq as [Lq Lq']. rewrite Lq in Hq. rewrite Lq' in He.
  destruct (flat_position (layers t) q Hq) as (l & r & ps & p & El1 & Hp & Eq & En). unfold Trainer_Spec.parameters in He. rewrite En in He.
  rewrite Ly, nth_error_map in El1. destruct (nth_error (nodes g) l) as [n|] eqn:Hl; [|discriminate]. injection El1 as _ <-.
  assert (Hne : theta n <> []) by (intros E3; rewrite E3 in Hp; cbn in Hp; lia).
  destruct (Step l n p e (Own l n Hl Hne) Hp He) as [_ D]. unfold Trainer_Spec.position in D. rewrite Eq in D. exact D.
Qed.
Print Assumptions C83_training.

(** The linear model of C76 with batches of [k] points, alternately (1, 3) and (2, 4). *)
Definition line_point (i : nat) : R * R := if Nat.even i then (1, 3)%R else (2, 4)%R.
Definition line_parts (k : nat) (st : @ConvLayer_Model.conv_state R) (j n : nat) : part :=
  match n with
  | 0 => PInput (map (at_batch k) [fit_dims; fit_dims; fit_dims; fit_dims])
           [map (fun s => fst (line_point (k * j + s))) (seq 0 k); map (fun s => snd (line_point (k * j + s))) (seq 0 k); repeat 0%R k; repeat 1%R k]
  | 1 => PConvolution fit_conv (at_batch k fit_dims) st (repeat 0%R k) (repeat 0%R k)
  | _ => PLoss (at_batch k fit_dims) 1%R (repeat 0%R k)
  end.
Lemma line_trainable k st wt b : 0 < k -> ConvLayer_Spec.conv_ready R_num fit_conv st 1 1 1 k wt b ->
  (forall j n, In n [0; 1; 2] -> fits (line_parts k st j n)) /\ trainable fit_heap [0; 1; 2] (line_parts k st) fit_theta.
Proof.
  intros Hk Rd. assert (Fi : forall j n, In n [0; 1; 2] -> fits (line_parts k st j n)).
  { intros j n Hn. cbn in Hn. decompose [or] Hn; subst; try contradiction; cbn [line_parts fits map]; unfold shaped, size; cbn [at_batch fit_dims d_samples d_width d_height d_maps].
    - do 4 (apply Forall2_cons; [unfold size; cbn [at_batch fit_dims d_samples d_width d_height d_maps]; rewrite ?map_length, ?seq_length, ?repeat_length; lia|]). apply Forall2_nil.
    - split; [eauto|]. cbn. rewrite !repeat_length. repeat split; lia.
    - rewrite repeat_length. lia. }
  split; [exact Fi|]. constructor.
  - repeat constructor; cbn; intuition lia.
  - intros n Hn. cbn in Hn. decompose [or] Hn; subst; try contradiction; (eexists; split; [reflexivity|]); cbn [n_inputs In];
      intros c Hc; decompose [or] Hc; subst; try contradiction; eexists; (split; [reflexivity|]); cbn; auto 10.
  - intros n nd Hn E. cbn in Hn. decompose [or] Hn; subst; try contradiction; injection E as <-; discriminate.
  - intros n nd E. do 3 (destruct n as [|n]; [injection E as <-; reflexivity|]). destruct n; discriminate.
  - assert (L : forall x y, reads fit_heap x y -> y < x).
    { intros x y (nd & c & E & Hc & Ec). do 3 (destruct x as [|x]; [injection E as <-; cbn in Hc; decompose [or] Hc; subst; try contradiction;
        injection Ec as <-; lia|]). destruct x; discriminate. }
    intros n _ Hc. assert (T : forall a b, clos_trans nat (reads fit_heap) a b -> b < a) by (intros a b' H; induction H; [auto|lia]).
    specialize (T n n Hc). lia.
  - intros j. constructor.
    + intros n nd Hn E. cbn in Hn. decompose [or] Hn; subst; try contradiction; injection E as <-; cbn [n_inputs takes line_parts]; repeat constructor;
        cbn [c_node c_buffer]; (eexists; split; [reflexivity|reflexivity]).
    + intros n nd Hn E. cbn in Hn. decompose [or] Hn; subst; try contradiction; injection E as <-; reflexivity.
    + intros n nd Hn E. cbn in Hn. decompose [or] Hn; subst; try contradiction; injection E as <-; cbn; auto.
    + exact (Fi j).
    + intros n nd Hn E. cbn in Hn. decompose [or] Hn; subst; try contradiction; injection E as <-; cbn; intuition (try discriminate; lia).
    + intros n Hn Hi Hm. cbn in Hn. decompose [or] Hn; subst; try contradiction; try discriminate Hi; try (cbn in Hm; congruence).
      exists 2. split; [cbn; auto|]. do 2 eexists. split; [reflexivity|]. split; [now left|]. split; reflexivity.
  - intros j n Hn. cbn in Hn. decompose [or] Hn; subst; try contradiction; reflexivity.
  - intros n Hn. cbn in Hn. decompose [or] Hn; subst; try contradiction; cbn [tunes line_parts fit_theta]; repeat constructor.
  - intros n Hn. destruct n as [|[|n]]; try reflexivity. exfalso. apply Hn. cbn. auto.
Qed.

(** One batch of two points, or two batches of one. *)
Example C83_training_hypotheses : exists st1 st2,
  trainable fit_heap [0; 1; 2] (line_parts 2 st2) fit_theta /\ trainable fit_heap [0; 1; 2] (line_parts 1 st1) fit_theta /\
  (forall k st j x, (k = 1 /\ st = st1 \/ k = 2 /\ st = st2) -> In x (nodes fit_g) -> fits (stack [0; 1; 2] (line_parts k st j) (fun _ => []) (heap fit_g) x)) /\
  shows [0; 1; 2] 2 (line_parts 2 st2) (line_parts 1 st1) (fun j s => 2 * j + s) [0] /\
  shows [0; 1; 2] 1 (line_parts 1 st1) (line_parts 1 st1) (fun j s => j) [0; 1] /\
  Permutation (shown 2 (fun j s => 2 * j + s) [0]) (shown 1 (fun j s => j) [0; 1]) /\
  (forall i fuel, meets_no_kink (fun k => acts (stack [0; 1; 2] (line_parts 1 st1 i) (fun _ => []) (heap fit_g) k)) fuel fit_g fit_theta [0; 1; 2] (line_parts 1 st1 i)) /\
  Trainer_Spec.fits fit_trainer /\ layers fit_trainer = map (fun n => (1%R, fit_theta n)) (nodes fit_g).
Proof.
  destruct (Conv_Props.C35_connected R_num (fun _ => 0%R) fit_conv 1 1 1 1) as (st1 & _ & Rd1 & _); [reflexivity|cbn; lia..|reflexivity|].
  destruct (Conv_Props.C35_connected R_num (fun _ => 0%R) fit_conv 1 1 1 2) as (st2 & _ & Rd2 & _); [reflexivity|cbn; lia..|reflexivity|].
  exists st1, st2. destruct (line_trainable 1 st1 _ _ ltac:(lia) Rd1) as [F1 T1]. destruct (line_trainable 2 st2 _ _ ltac:(lia) Rd2) as [F2 T2].
  split; [exact T2|]. split; [exact T1|]. assert (En : nodes fit_g = [0; 1; 2]) by (vm_compute; reflexivity). split; [|split; [|split; [|split; [|split; [|split]]]]].
  - intros k st j x Hk Hx. rewrite En in Hx. unfold stack. replace (existsb (Nat.eqb x) [0; 1; 2]) with true by (cbn in Hx; decompose [or] Hx; subst; try contradiction; reflexivity).
    destruct Hk as [[-> ->]|[-> ->]]; auto.
  - intros j s n [<-|[]] Hs Hn. cbn in Hn. decompose [or] Hn; subst; try contradiction; cbn [line_parts].
    + apply os_input. cbn [map]. destruct s as [|[|s]]; [| |lia]; repeat constructor.
    + apply os_convolution.
    + apply os_loss.
  - intros j s n _ Hs Hn. assert (s = 0) by lia. subst s. cbn in Hn. decompose [or] Hn; subst; try contradiction; cbn [line_parts].
    + apply os_input. cbn [map]. repeat constructor.
    + apply os_convolution.
    + apply os_loss.
  - cbn. repeat constructor.
  - intros i fuel ff m ff1 m1 _ k Hk. cbn in Hk. decompose [or] Hk; subst; try contradiction; exact I.
  - repeat split.
  - now rewrite En.
Qed.

(** C23 C24 C25 C26 C61: the trainer. *)
From Coq Require Import Reals Lra Psatz.
From Verif Require Import Base BaseFacts Trainer_Model Trainer_Spec Trainer_Proofs TrainerLoop_Proofs Schedule_Model Schedule_Proofs.

(** ** C23 *)
Lemma sgn_sign {D} (A : arith D) x : order_ok A -> sgn D A x = sign_of A x.
Proof.
  intros H. unfold sgn, sign_of. destruct (ltb A (zero A) x) eqn:E; [rewrite (H _ _ E)|destruct (ltb A x (zero A))]; reflexivity.
Qed.

Lemma rule_descent {D} (A : arith D) cfg dl first lr llr x g s q :
  order_ok A -> optimization cfg = GradientDescent ->
  weight_rule D A cfg dl first lr llr x g s q = (descent_step A cfg dl llr (x, s) (lr, g), q).
Proof.
  intros H E. unfold weight_rule, descent_step, weight_delta. rewrite E, (sgn_sign A x H). reflexivity.
Qed.

(** One update: every weight of every layer takes the documented step computed from its
    own value, gradient and last step; the step is remembered; nothing else changes. *)
Theorem C23_gradient_descent {D W} (A : arith D) cfg dl (t : trainer D W) lr :
  order_ok A -> optimization cfg = GradientDescent -> fits t ->
  exists t', apply_gradients D A cfg dl t lr = Ok t' /\ fits t' /\ structure t' = structure t /\
    (forall l p w llr x, local_rate t l = Some llr -> weight t l p w = Some x ->
       exists g s, elem (accumulated t) (position t l p) w = Some g /\ elem (last_deltas t) (position t l p) w = Some s /\
         weight t' l p w = Some (fst (descent_step A cfg dl llr (x, s) (lr, g))) /\
         elem (last_deltas t') (position t l p) w = Some (snd (descent_step A cfg dl llr (x, s) (lr, g))) /\
         elem (last_gradients t') (position t l p) w = elem (last_gradients t) (position t l p) w) /\
    world t' = world t /\ accumulated t' = accumulated t /\ epoch t' = epoch t /\ first_iteration t' = first_iteration t.
Proof.
  intros Ho Eo F. destruct (apply_gradients_ok D A cfg dl W t lr F) as (t' & E & F' & S & Ew & Ea & Ee & Ef & V).
  exists t'. split; [exact E|]. split; [exact F'|]. split; [exact S|]. split; [|split; [exact Ew|split; [exact Ea|split; [exact Ee|]]]].
  - intros l p w llr x Hr Hx. destruct (V l p w llr x Hr Hx) as (g & s & q & Hg & Hs & Hq & R). exists g, s.
    rewrite (rule_descent A cfg dl _ lr llr x g s q Ho Eo) in R.
    destruct (descent_step A cfg dl llr (x, s) (lr, g)) as [x' s'] eqn:Ed. destruct R as (R1 & R2 & R3). rewrite Hq. auto 10.
  - rewrite Ef. unfold is_gd. rewrite Eo. cbn. apply andb_true_r.
Qed.

(** Any history of updates: the value and remembered step of a weight follow the rule
    applied to its own gradients only. *)
Definition one_update {D W} (A : arith D) cfg dl (t : trainer D W) (u : D * list (list D)) : res (trainer D W) :=
  apply_gradients D A cfg dl (with_accumulated D W t (snd u)) (fst u).
Theorem C23_history {D W} (A : arith D) cfg dl (updates : list (D * list (list D))) : forall (t : trainer D W),
  order_ok A -> optimization cfg = GradientDescent -> fits t -> Forall (fun u => shape (snd u) = shape (parameters t)) updates ->
  exists t', foldm (one_update A cfg dl) updates t = Ok t' /\ structure t' = structure t /\ fits t' /\
    forall l p w llr x s, local_rate t l = Some llr -> weight t l p w = Some x -> elem (last_deltas t) (position t l p) w = Some s ->
      exists gs, Forall2 (fun u g => elem (snd u) (position t l p) w = Some g) updates gs /\
        let '(x', s') := fold_left (descent_step A cfg dl llr) (combine (map fst updates) gs) (x, s) in
        weight t' l p w = Some x' /\ elem (last_deltas t') (position t l p) w = Some s'.
Proof.
  induction updates as [|[lr acc] us IH]; intros t Ho Eo F Hu.
  - exists t. split; [reflexivity|]. split; [reflexivity|]. split; [exact F|]. intros l p w llr x s _ Hx Hs.
    exists []. split; [constructor|]. cbn. auto.
  - inversion Hu as [|? ? U1 U2]; subst. cbn [snd] in U1. cbn [foldm]. unfold one_update at 1. cbn [fst snd].
    set (t0 := with_accumulated D W t acc). assert (F0 : fits t0) by (destruct F as (F1 & F2 & F3); repeat split; assumption).
    destruct (C23_gradient_descent A cfg dl t0 lr Ho Eo F0) as (t1 & E1 & F1 & S1 & V1 & _). rewrite E1. cbn [bind].
    assert (Sp : shape (parameters t1) = shape (parameters t)) by (apply structure_shape; exact S1).
    destruct (IH t1 Ho Eo F1) as (t' & E' & S' & F' & V'). { rewrite Sp. exact U2. }
    exists t'. split; [exact E'|]. split; [now rewrite S'|]. split; [exact F'|].
    intros l p w llr x s Hr Hx Hs. destruct (V1 l p w llr x Hr Hx) as (g & s0 & Hg & Hs0 & Hx1 & Hs1 & _).
    change (last_deltas t0) with (last_deltas t) in Hs0. change (position t0 l p) with (position t l p) in *.
    assert (s0 = s) by congruence. subst s0.
    assert (Pos : position t1 l p = position t l p).
    { unfold position. assert (H : shape (concat (map snd (firstn l (layers t1)))) = shape (concat (map snd (firstn l (layers t))))).
      { apply structure_shape. rewrite <- !firstn_map. f_equal. exact S1. }
      apply (f_equal (@length _)) in H. unfold shape in H. rewrite !map_length in H. now rewrite H. }
    assert (Lr : local_rate t1 l = Some llr).
    { unfold local_rate in *. pose proof (f_equal (fun s => nth_error s l) S1) as H. unfold structure in H. cbn in H.
      rewrite !nth_error_map in H. change (layers t0) with (layers t) in H.
      destruct (nth_error (layers t) l) as [[r ps]|]; [|discriminate]. destruct (nth_error (layers t1) l) as [[r' ps']|]; [|discriminate].
      cbn in H. congruence. }
    destruct (V' l p w llr (fst (descent_step A cfg dl llr (x, s) (lr, g))) (snd (descent_step A cfg dl llr (x, s) (lr, g))) Lr Hx1)
      as (gs & Fg & R). { rewrite Pos. exact Hs1. }
    rewrite Pos in Fg, R. exists (g :: gs). split; [constructor; [exact Hg|exact Fg]|].
    cbn [map combine fold_left fst]. destruct (descent_step A cfg dl llr (x, s) (lr, g)) as [x1 s1]. exact R.
Qed.

(** The same rule over the real numbers, written as in the documentation. *)
Definition Rltb (x y : R) : bool := if Rlt_dec x y then true else false.
Definition Rleb (x y : R) : bool := if Rle_dec x y then true else false.
Definition real_arith : arith R :=
  mkArith R 0%R Rplus Rminus Rmult Rdiv Ropp Rabs Rltb Rleb IZR (/ 1000000000000000)%R (/ 10)%R.
Definition Rsign (x : R) : R := if Rlt_dec 0 x then 1%R else if Rlt_dec x 0 then (-1)%R else 0%R.
Lemma real_order_ok : order_ok real_arith.
Proof. intros x y. cbn. unfold Rltb. destruct (Rlt_dec x y), (Rlt_dec y x); try congruence. lra. Qed.

Theorem C23_real_rule cfg dl llr x s lr g :
  (Z.of_nat (sample_count dl * sbatchsize cfg) < 2 ^ 32)%Z ->
  let average := (loss_probability dl * g / (INR (sample_count dl) * INR (sbatchsize cfg)))%R in
  let step := (lr * llr * (average + l2_weight cfg * x + l1_weight cfg * Rsign x) + momentum cfg * s)%R in
  descent_step real_arith cfg dl llr (x, s) (lr, g) = ((x - step)%R, step).
Proof.
  intros B average step.
  assert (Es : IZR (sign_of real_arith x) = Rsign x).
  { unfold sign_of, Rsign. change (ltb real_arith) with Rltb. change (zero real_arith) with 0%R. unfold Rltb.
    destruct (Rlt_dec 0 x); [reflexivity|]. destruct (Rlt_dec x 0); reflexivity. }
  assert (En : IZR (Z.of_nat (to_u32 (sample_count dl * sbatchsize cfg))) = (INR (sample_count dl) * INR (sbatchsize cfg))%R).
  { rewrite to_u32_id by exact B. now rewrite <- mult_INR, INR_IZR_INZ. }
  assert (E : snd (descent_step real_arith cfg dl llr (x, s) (lr, g)) = step).
  { unfold descent_step. cbn [snd].
    change (add real_arith) with Rplus. change (mul real_arith) with Rmult. change (div real_arith) with Rdiv. change (of_Z real_arith) with IZR.
    rewrite En, Es. subst step average. unfold Rdiv. ring. }
  rewrite <- E. reflexivity.
Qed.

(** A new trainer starts at epoch 0, with no earlier steps and gradients, for whatever layers it is given. *)
Theorem C23_new_trainer {D W} (A : arith D) (w : W) ls :
  let t := new_trainer D A W w ls in
  fits t /\ world t = w /\ layers t = ls /\ epoch t = 0 /\ first_iteration t = true /\
  forall i k x, elem (parameters t) i k = Some x ->
    elem (last_deltas t) i k = Some (zero A) /\ elem (last_gradients t) i k = Some (zero A) /\ elem (accumulated t) i k = Some (zero A).
Proof.
  intros t. split; [apply fits_new|]. do 4 (split; [reflexivity|]). intros i k x E.
  assert (H : elem (clear_all D A (concat (map snd ls))) i k = Some (zero A)); [|now split; [|split]].
  revert E. unfold elem, clear_all, t, parameters. cbn. rewrite nth_error_map. destruct (nth_error _ i) as [v|]; [|discriminate]. cbn.
  intros E. rewrite nth_error_map, E. reflexivity.
Qed.
Print Assumptions C23_new_trainer.

(** ** C24 *)
Theorem C24_schedule lr gamma exponent : (0 < lr)%R -> (0 <= gamma)%R -> (0 <= exponent)%R ->
  calculate_lr lr gamma exponent 0 = lr /\
  (forall n, (0 < calculate_lr lr gamma exponent n <= lr)%R) /\
  (forall n m, n <= m -> (calculate_lr lr gamma exponent m <= calculate_lr lr gamma exponent n)%R) /\
  ((0 < gamma)%R -> (0 < exponent)%R -> forall n m, n < m -> (calculate_lr lr gamma exponent m < calculate_lr lr gamma exponent n)%R).
Proof.
  intros Hl Hg He. split; [apply lr_zero|]. split; [|split].
  - intros n. split; [now apply lr_pos|]. rewrite <- (lr_zero lr gamma exponent) at 2. apply lr_mono; auto. lia.
  - intros n m H. now apply lr_mono.
  - intros Hg' He' n m H. now apply lr_strict.
Qed.

(** The iteration number is a 32-bit product: the rate jumps back to the base rate. *)
Theorem C24_counter_wrap_refuted lr gamma exponent : (0 < lr)%R -> (0 < gamma)%R -> (0 < exponent)%R ->
  exists its epoch, Z.of_nat epoch = (2 ^ 31 - 1)%Z /\ its = 2 /\
    (calculate_lr lr gamma exponent (to_u32 (epoch * its)) < calculate_lr lr gamma exponent (to_u32 (S epoch * its)))%R.
Proof.
  intros Hl Hg He. assert (H : exists e, Z.of_nat e = (2 ^ 31 - 1)%Z) by (exists (Z.to_nat (2 ^ 31 - 1)); apply Z2Nat.id; lia).
  destruct H as (e & H). exists 2, e. split; [exact H|]. split; [reflexivity|].
  assert (E : to_u32 (S e * 2) = 0).
  { unfold to_u32. replace (N.of_nat (S e * 2)) with (2 ^ 32)%N by lia. reflexivity. }
  rewrite E. apply lr_strict; auto. rewrite to_u32_id by lia. lia.
Qed.

(** ** C25 *)
(** One epoch, for any network that has a gradient for every parameter: the number of the
    epoch is announced, training mode is selected, then come the iterations; each consists
    of [sbatchsize] passes, one update with the rate of the global iteration number and the
    sums of exactly these passes' gradients, and one report; the epoch counter advances. *)
Theorem C25_epoch {D W} (A : arith D) cfg dl pass set_mode lr_at scaling (t : trainer D W) es :
  (forall w ps, shape (snd (pass w ps)) = shape (concat ps)) -> fits t ->
  let its := epoch_iterations D cfg dl scaling in
  exists t' traces, run_epoch D A cfg dl W pass set_mode lr_at scaling (t, es)
      = Ok (t', es ++ [EEpoch (epoch t); ETestingMode false] ++ concat traces) /\
    Forall2 (fun i trace => iteration_trace A cfg dl (shape (parameters t)) (lr_at (to_u32 (epoch t * its + i))) trace) (seq 0 its) traces /\
    length traces = its /\ passes (concat traces) = its * sbatchsize cfg /\
    fits t' /\ structure t' = structure t /\ epoch t' = to_u32 (S (epoch t)).
Proof.
  intros Hp F its. destruct (run_epoch_ok D A cfg dl W pass set_mode lr_at scaling Hp t es F) as (t' & tr & E & Tr & R).
  exists t', tr. rewrite <- app_assoc in E. split; [exact E|]. split; [exact Tr|].
  split; [apply Forall2_length in Tr; now rewrite seq_length in Tr|]. split; [|exact R].
  rewrite (passes_iterations D A cfg dl _ _ _ _ Tr). now rewrite seq_length.
Qed.

(** Training for any number of epochs.  Statistics are switched on again at the end. *)
Theorem C25_train {D W} (A : arith D) cfg dl pass set_mode lr_at scaling snapshots epochs (t : trainer D W) :
  (forall w ps, shape (snd (pass w ps)) = shape (concat ps)) -> fits t -> (Z.of_nat (epoch t + epochs) < 2 ^ 32)%Z ->
  let its := epoch_iterations D cfg dl scaling in
  exists t' es, train D A cfg dl W pass set_mode lr_at scaling epochs snapshots (t, []) = Ok (t', es) /\
    fits t' /\ structure t' = structure t /\ epoch t' = epoch t + epochs /\
    passes es = epochs * (its * sbatchsize cfg) /\
    rates es = flat_map (fun k => map (fun i => lr_at (to_u32 ((epoch t + k) * its + i))) (seq 0 its)) (seq 0 epochs) /\
    controls es = [EGraphTesting false; EStatLayers (stats_during_training cfg)] ++
      flat_map (fun k => [EEpoch (epoch t + k); ETestingMode false] ++ (if snapshots then [ESnapshot] else [])) (seq 0 epochs) ++
      [EStatLayers true].
Proof.
  intros Hp F B its. unfold train.
  destruct (train_epochs_ok D A cfg dl W pass set_mode lr_at scaling Hp snapshots epochs 0 t
              ([] ++ [EGraphTesting false; EStatLayers (stats_during_training cfg)]) F B) as (t' & es & E & F' & S' & E' & R & P & C).
  rewrite E. cbn [bind]. eexists. eexists. split; [reflexivity|]. split; [exact F'|]. split; [exact S'|]. split; [exact E'|].
  rewrite !passes_app, !rates_app, !controls_app, P, R, C. split; [|split].
  - cbn. rewrite Nat.add_0_r. reflexivity.
  - cbn. now rewrite app_nil_r.
  - reflexivity.
Qed.

(** With a ratio of 1 the configured number of iterations is performed exactly up to 2^24,
    but 2^24 + 1 iterations become 2^24. *)
Theorem C25_iterations cfg dl : epoch_training_ratio cfg = 1%R ->
  let wanted := if iterations cfg =? 0 then training_samples dl else iterations cfg in
  (Z.of_nat wanted <= 2 ^ 24)%Z -> epoch_iterations R cfg dl scale = wanted.
Proof. intros E wanted B. unfold epoch_iterations. rewrite E. fold wanted. now apply scale_exact. Qed.
Theorem C25_iterations_refuted : exists n, (Z.of_nat n = 2 ^ 24 + 1)%Z /\ scale n 1 <> n.
Proof. destruct scale_inexact as (n & E1 & E2). exists n. split; [exact E1|]. intros H. rewrite H in E2. lia. Qed.

(** ** C26 *)
(** Setting the epoch and training on gives the learning rates an uninterrupted run has
    from that epoch on. *)
Theorem C26_resume {D W W'} (A : arith D) cfg dl pass pass' set_mode set_mode' lr_at scaling snapshots snapshots' e k
    (fresh : trainer D W) (resumed : trainer D W') :
  (forall w ps, shape (snd (pass w ps)) = shape (concat ps)) -> (forall w ps, shape (snd (pass' w ps)) = shape (concat ps)) ->
  fits fresh -> fits resumed -> epoch fresh = 0 -> (Z.of_nat (e + k) < 2 ^ 32)%Z ->
  exists t es t' es',
    train D A cfg dl W pass set_mode lr_at scaling (e + k) snapshots (fresh, []) = Ok (t, es) /\
    train D A cfg dl W' pass' set_mode' lr_at scaling k snapshots' (set_epoch D A W' resumed e, []) = Ok (t', es') /\
    epoch t = epoch t' /\ rates es' = skipn (e * epoch_iterations D cfg dl scaling) (rates es).
Proof.
  intros Hp Hp' F F' E0 B.
  destruct (C25_train A cfg dl pass set_mode lr_at scaling snapshots (e + k) fresh Hp F) as (t & es & E1 & _ & _ & Ee & _ & R1 & _).
  { rewrite E0. exact B. }
  destruct (C25_train A cfg dl pass' set_mode' lr_at scaling snapshots' k (set_epoch D A W' resumed e) Hp') as (t' & es' & E2 & _ & _ & Ee' & _ & R2 & _).
  { apply fits_reset. exact F'. } { exact B. }
  exists t, es, t', es'. split; [exact E1|]. split; [exact E2|]. split; [rewrite Ee, Ee', E0; reflexivity|].
  rewrite R1, R2, E0. set (N := epoch_iterations D cfg dl scaling).
  set (f := fun k0 => map (fun i => lr_at (to_u32 (k0 * N + i))) (seq 0 N)).
  change (flat_map (fun k0 => f (e + k0)) (seq 0 k) = skipn (e * N) (flat_map f (seq 0 (e + k)))).
  rewrite seq_app, flat_map_app. 
  assert (L : length (flat_map f (seq 0 e)) = e * N).
  { clear. induction e as [|e IH]; [reflexivity|]. rewrite seq_S, flat_map_app, app_length, IH. cbn [flat_map Nat.add].
    rewrite app_nil_r. unfold f. rewrite map_length, seq_length. lia. }
  rewrite skipn_app, L, Nat.sub_diag. rewrite <- L, skipn_all. cbn [app skipn Nat.add].
  clear. revert e. induction k as [|k IH]; intros e; [reflexivity|]. rewrite !seq_S, !flat_map_app, IH. reflexivity.
Qed.

(** Setting the epoch clears the momentum history and nothing else. *)
Theorem C26_history_cleared {D W} (A : arith D) (t : trainer D W) e :
  let t' := set_epoch D A W t e in
  (forall i w s, elem (last_deltas t') i w = Some s -> s = zero A) /\
  (forall i w s, elem (last_gradients t') i w = Some s -> s = zero A) /\
  first_iteration t' = true /\ epoch t' = e /\ layers t' = layers t /\ world t' = world t /\ (fits t -> fits t').
Proof.
  intros t'. split; [intros i w s; apply elem_zero|]. split; [intros i w s; apply elem_zero|].
  repeat (split; [reflexivity|]). intros F. apply (fits_reset D A W (with_epoch D W t e)). exact F.
Qed.

(** ** C61: QuickProp *)
(** Every weight moves by the QuickProp step of its own slope, last step and last slope;
    only the very first weight of the network can take the initial step. *)
Theorem C61_quickprop_update {D W} (A : arith D) cfg dl (t : trainer D W) lr :
  optimization cfg = QuickProp -> fits t ->
  exists t', apply_gradients D A cfg dl t lr = Ok t' /\ fits t' /\ structure t' = structure t /\
    (first_iteration t = false -> first_iteration t' = false) /\
    forall l p w llr x, local_rate t l = Some llr -> weight t l p w = Some x ->
      exists g s q, elem (accumulated t) (position t l p) w = Some g /\ elem (last_deltas t) (position t l p) w = Some s /\
        elem (last_gradients t) (position t l p) w = Some q /\
        let very_first := (w =? 0) && forallb (fun ts => length ts =? 0) (firstn (position t l p) (parameters t)) in
        let slope := weight_delta D A cfg dl llr x g in
        let step := fst (quickprop_step D A cfg (first_iteration t && very_first) lr slope s q) in
        weight t' l p w = Some (add A x step) /\ elem (last_deltas t') (position t l p) w = Some step /\
        elem (last_gradients t') (position t l p) w = Some slope.
Proof.
  intros Eo F. destruct (apply_gradients_ok D A cfg dl W t lr F) as (t' & E & F' & S & Ew & Ea & Ee & Ef & V).
  exists t'. split; [exact E|]. split; [exact F'|]. split; [exact S|]. split; [rewrite Ef; now intros ->|].
  intros l p w llr x Hr Hx. destruct (V l p w llr x Hr Hx) as (g & s & q & Hg & Hs & Hq & R). exists g, s, q.
  split; [exact Hg|]. split; [exact Hs|]. split; [exact Hq|]. unfold weight_rule, is_gd in R. rewrite Eo in R. exact R.
Qed.

(** After the first iteration a step never exceeds mu times the last step plus the
    learning rate times the slope; a flat slope gives a step of at most the latter. *)
Theorem C61_quickprop_step_bounded cfg lr slope last_step last_slope : (0 <= lr)%R -> (0 <= mu cfg)%R ->
  let step := fst (quickprop_step R real_arith cfg false lr slope last_step last_slope) in
  (Rabs step <= mu cfg * Rabs last_step + lr * Rabs slope)%R.
Proof.
  intros Hl Hm. unfold quickprop_step. cbn [absv leb eps_flat opp mul real_arith].
  unfold Rleb. destruct (Rle_dec (Rabs slope) (/ 1000000000000000)).
  - cbn [fst]. rewrite Rabs_mult, Rabs_Ropp, (Rabs_pos_eq lr Hl). pose proof (Rabs_pos last_step). nra.
  - assert (Hq : (Rabs (fst (quadratic_step R real_arith cfg slope last_step last_slope)) <= mu cfg * Rabs last_step)%R).
    { unfold quadratic_step. cbn [absv ltb sub div mul real_arith]. unfold Rltb at 1.
      destruct (Rlt_dec (Rabs slope) (Rabs (mu cfg * (last_slope - slope)))) as [Hlt|Hlt]; cbn [andb].
      - match goal with |- context [negb ?b] => destruct b end; cbn [negb fst].
        + rewrite Rabs_mult, (Rabs_pos_eq _ Hm). apply Rle_refl.
        + rewrite Rabs_mult, (Rabs_pos_eq _ Hm) in Hlt.
          assert (Hd : (0 < Rabs (last_slope - slope))%R).
          { pose proof (Rabs_pos slope). pose proof (Rabs_pos (last_slope - slope)).
            destruct (Req_dec (Rabs (last_slope - slope)) 0) as [E|E]; [rewrite E in Hlt; lra|lra]. }
          unfold Rdiv. rewrite !Rabs_mult, Rabs_inv.
          apply (Rmult_le_reg_r (Rabs (last_slope - slope))); [exact Hd|].
          rewrite Rmult_assoc, Rinv_l, Rmult_1_r by lra. pose proof (Rabs_pos last_step). nra.
      - cbn [fst]. rewrite Rabs_mult, (Rabs_pos_eq _ Hm). lra. }
    destruct (quadratic_step R real_arith cfg slope last_step last_slope) as [quad c]. cbn [fst] in Hq. destruct (Z.eqb _ _); cbn [fst sub mul real_arith].
    + unfold Rminus. eapply Rle_trans; [apply Rabs_triang|]. rewrite Rabs_Ropp, Rabs_mult, (Rabs_pos_eq lr Hl). lra.
    + pose proof (Rabs_pos slope). nra.
Qed.

(** In the first iteration of a fresh trainer all weights but the very first one stay
    where they are, whatever their gradients (above 1e-15): the initial step is lost. *)
Theorem C61_initial_step_refuted cfg lr slope : (1 < mu cfg)%R -> (/ 1000000000000000 < Rabs slope)%R ->
  fst (quickprop_step R real_arith cfg false lr slope 0%R 0%R) = 0%R.
Proof.
  intros Hm Hs. unfold quickprop_step. cbn [absv leb eps_flat opp mul real_arith]. unfold Rleb.
  destruct (Rle_dec (Rabs slope) (/ 1000000000000000)); [lra|].
  unfold quadratic_step. cbn [absv ltb mul sub div real_arith]. unfold Rltb at 1.
  assert (Hz : (Rabs slope <> 0)%R) by (pose proof (Rinv_0_lt_compat 1000000000000000); lra).
  destruct (Rlt_dec (Rabs slope) (Rabs (mu cfg * (0 - slope)))) as [_|H].
  2:{ exfalso. apply H. rewrite Rabs_mult, (Rabs_pos_eq (mu cfg)) by lra. unfold Rminus. rewrite Rplus_0_l, Rabs_Ropp.
      pose proof (Rabs_pos slope). nra. }
  assert (Sn : slope <> 0%R) by (intros ->; rewrite Rabs_R0 in Hz; lra).
  assert (S0 : sgn R real_arith 0%R = 0%Z) by (unfold sgn; cbn; unfold Rltb; destruct (Rlt_dec 0 0); [lra|reflexivity]).
  assert (S1 : forall y, y <> 0%R -> sgn R real_arith y <> 0%Z).
  { intros y Hy. unfold sgn. cbn. unfold Rltb. destruct (Rlt_dec 0 y), (Rlt_dec y 0); try lra; discriminate. }
  rewrite S0. destruct (Z.eqb_spec 0 (sgn R real_arith (0 - slope)%R)) as [E|_].
  { exfalso. apply (S1 (0 - slope)%R); [lra|now symmetry]. }
  cbn [andb negb fst]. destruct (Z.eqb_spec (sgn R real_arith slope) 0) as [E|_]; [exfalso; now apply (S1 slope)|].
  cbn [fst]. unfold Rdiv. ring.
Qed.

(** ** C62: testing *)
(** A test changes no weight, no history and not the epoch; it selects testing mode, runs
    its batches and selects training mode again.  The last thing the network itself is told
    is that it is testing. *)
Theorem C62_test {D W} (A : arith D) cfg dl forward set_mode scaling (t : trainer D W) es :
  batch_size dl <> 0 ->
  let its := scaling (testing_samples dl / batch_size dl + 1) (testing_ratio cfg) in
  exists t' losses, test D A cfg dl W forward set_mode scaling (t, es) =
      Ok (t', es ++ [ETestingMode true; EGraphTesting true] ++
              flat_map (fun l => [EForward l; EIteration (div A (summed A l) (of_Z A (Z.of_nat (sample_count dl))))]) losses ++ [ETestingMode false]) /\
    length losses = its /\
    layers t' = layers t /\ last_deltas t' = last_deltas t /\ last_gradients t' = last_gradients t /\
    accumulated t' = accumulated t /\ epoch t' = epoch t /\ first_iteration t' = first_iteration t.
Proof.
  intros Hb its. unfold test, test_iterations. destruct (Nat.eqb_spec (batch_size dl) 0); [contradiction|]. cbn [bind]. fold its.
  assert (L : forall n a (u : trainer D W) es0, exists u' losses,
    foldm (test_pass D A dl W forward) (seq a n) (u, es0) =
      Ok (u', es0 ++ flat_map (fun l => [EForward l; EIteration (div A (summed A l) (of_Z A (Z.of_nat (sample_count dl))))]) losses) /\
    length losses = n /\ layers u' = layers u /\ last_deltas u' = last_deltas u /\ last_gradients u' = last_gradients u /\
    accumulated u' = accumulated u /\ epoch u' = epoch u /\ first_iteration u' = first_iteration u).
  { clear. induction n as [|n IH]; intros a u es0.
    - exists u, []. cbn. rewrite app_nil_r. auto 10.
    - cbn [seq foldm]. unfold test_pass at 1. destruct (forward (world u) (map snd (layers u))) as [w l]. cbn [bind].
      destruct (IH (S a) (with_world D W u w) (es0 ++ [EForward l; EIteration (div A (sum_losses D A (zero A) l) (of_Z A (Z.of_nat (sample_count dl))))]))
        as (u' & ls & E & Ln & R). rewrite E. exists u', (l :: ls). cbn [flat_map length]. rewrite Ln. rewrite <- app_assoc.
      split; [reflexivity|]. split; [reflexivity|]. exact R. }
  destruct (L its 0 (with_world D W t (set_mode true (world t))) (es ++ [ETestingMode true; EGraphTesting true])) as (t' & losses & E & Ln & R).
  rewrite E. cbn [bind]. eexists. exists losses. split; [rewrite <- !app_assoc; reflexivity|]. split; [exact Ln|]. exact R.
Qed.

(** With a ratio of 1 the batches cover the test set. *)
Theorem C62_covers_test_set cfg (dl : data_layer R) : testing_ratio cfg = 1%R -> batch_size dl <> 0 ->
  (Z.of_nat (testing_samples dl) < 2 ^ 24)%Z ->
  let its := scale (testing_samples dl / batch_size dl + 1) (testing_ratio cfg) in
  testing_samples dl < its * batch_size dl <= testing_samples dl + batch_size dl.
Proof.
  intros E Hb B its. subst its. rewrite E.
  pose proof (Nat.div_le_upper_bound (testing_samples dl) (batch_size dl) (testing_samples dl) Hb).
  rewrite scale_exact.
  - pose proof (Nat.div_mod (testing_samples dl) (batch_size dl) Hb). pose proof (Nat.mod_upper_bound (testing_samples dl) (batch_size dl) Hb). nia.
  - assert (testing_samples dl / batch_size dl <= testing_samples dl) by (apply H; nia). lia.
Qed.

(** ** Examples *)
(** A trainer with two layers, the second without local learning, and integer numbers. *)
Definition Zarith_ : arith Z := mkArith Z 0%Z Z.add Z.sub Z.mul Z.div Z.opp Z.abs Z.ltb Z.leb (fun z => z) 0%Z 1%Z.
Definition ex_cfg : settings Z := mkSettings 0%Z 1%Z 2%Z 3%Z 1%Z 1%Z GradientDescent true 2 3.
Definition ex_dl : data_layer Z := mkData 1 1 1%Z 4 4.
Definition ex_layers : list (Z * list (list Z)) := [(1, [[10; 20]; [30]]); (2, []); (3, [[40]])]%Z.
Definition ex_trainer : trainer Z nat := new_trainer Z Zarith_ nat 0%nat ex_layers.
Definition ex_pass (w : nat) (ps : list (list (list Z))) : nat * list Z * list (list Z) :=
  (S w, [Z.of_nat w], map (map (fun x => x + Z.of_nat w)%Z) (concat ps)).
Example ex_trainer_ok : fits ex_trainer /\ order_ok Zarith_ /\ (forall w ps, shape (snd (ex_pass w ps)) = shape (concat ps)).
Proof.
  split; [apply fits_new|]. split.
  - intros x y. cbn. rewrite Z.ltb_lt, Z.ltb_ge. lia.
  - intros w ps. unfold ex_pass, shape. cbn [snd]. rewrite map_map. apply map_ext. intros a. apply map_length.
Qed.
Example ex_epoch : exists t' es, run_epoch Z Zarith_ ex_cfg ex_dl nat ex_pass (fun _ w => w) (fun n => Z.of_nat n) (fun n _ => n) (ex_trainer, []) = Ok (t', es) /\
  rates es = [0; 1; 2]%Z /\ passes es = 6%nat /\ epoch t' = 1%nat /\ weight t' 2 0 0 <> weight ex_trainer 2 0 0.
Proof. eexists. eexists. split; [vm_compute; reflexivity|]. repeat split; try reflexivity. vm_compute. discriminate. Qed.

Print Assumptions C23_gradient_descent.
Print Assumptions C23_history.
Print Assumptions C23_real_rule.
Print Assumptions C24_schedule.
Print Assumptions C24_counter_wrap_refuted.
Print Assumptions C25_epoch.
Print Assumptions C25_train.
Print Assumptions C25_iterations.
Print Assumptions C25_iterations_refuted.
Print Assumptions C26_resume.
Print Assumptions C26_history_cleared.
Print Assumptions C61_quickprop_update.
Print Assumptions C61_quickprop_step_bounded.
Print Assumptions C61_initial_step_refuted.
Print Assumptions C62_test.
Print Assumptions C62_covers_test_set.

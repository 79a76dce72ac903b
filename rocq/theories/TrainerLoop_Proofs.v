(** Proofs about the loops of Trainer::Epoch, Train and Test. *)
From Verif Require Import Base BaseFacts LoopFacts Trainer_Model Trainer_Spec Trainer_Proofs.

Section Loops.
Variable D : Type.
Variable A : arith D.
Variable cfg : settings D.
Variable dl : data_layer D.
Variable W : Type.
Variable pass : W -> list (list (list D)) -> W * list D * list (list D).
Variable forward : W -> list (list (list D)) -> W * list D.
Variable set_mode : bool -> W -> W.
Variable calculate_lr : nat -> D.
Variable scale : nat -> D -> nat.
(** Every parameter has a gradient of the same size. *)
Variable pass_shape : forall w ps, shape (snd (pass w ps)) = shape (concat ps).

Lemma accumulate_tensor_ok (a g : list D) : length a = length g ->
  exists a', accumulate_tensor D A a g = Ok a' /\ length a' = length a /\
    forall w x y, nth_error a w = Some x -> nth_error g w = Some y -> nth_error a' w = Some (add A x y).
Proof using.
  intros L. unfold accumulate_tensor.
  assert (Ho : ops_ok (length a) (for_ (length g) (fun e => [(e, load g e)]))).
  { intros b rv Hin. apply in_for in Hin as (i & Hi & [Heq|[]]). injection Heq as <- <-.
    split; [lia|]. destruct (nth_error_lt g Hi) as (v & Ev). exists v. now apply load_ok. }
  destruct (exec_with_total (add A) Ho) as (a' & E & Ln). exists a'. split; [exact E|]. split; [exact Ln|].
  intros w x y Hx Hy. rewrite (exec_with_nth E w), Hx.
  assert (Hw : w < length g) by (apply nth_error_Some; congruence).
  rewrite vals_at_for. rewrite (for_single _ _ w Hw).
  - rewrite vals_at_one, Nat.eqb_refl, (load_ok _ _ _ Hy). reflexivity.
  - intros j Hj Hne. rewrite vals_at_one. destruct (Nat.eqb_spec j w); [congruence|reflexivity].
Qed.

Lemma accumulate_gradients_ok : forall (gs : list (list D)) np acc,
  (forall j g, nth_error gs j = Some g -> exists a, nth_error acc (np + j) = Some a /\ length a = length g) ->
  exists acc', accumulate_gradients D A np gs acc = Ok acc' /\ shape acc' = shape acc /\
    (forall i, i < np -> nth_error acc' i = nth_error acc i) /\
    (forall j w x y, elem acc (np + j) w = Some x -> elem gs j w = Some y -> elem acc' (np + j) w = Some (add A x y)).
Proof using.
  induction gs as [|g gs IH]; intros np acc H; cbn [accumulate_gradients].
  - exists acc. repeat split; auto. intros j w x y _ Hy. unfold elem in Hy. destruct j; discriminate.
  - destruct (H 0 g eq_refl) as (a & Ea & La). rewrite Nat.add_0_r in Ea. rewrite (load_ok _ _ _ Ea). cbn [bind].
    destruct (accumulate_tensor_ok a g La) as (a' & E & L' & V). rewrite E. cbn [bind].
    assert (Hnp : np < length acc) by (apply nth_error_Some; congruence).
    destruct (IH (S np) (upd acc np a')) as (acc' & E' & S' & Out & V').
    { intros j g0 Hj. destruct (H (S j) g0 Hj) as (a0 & Ea0 & La0). exists a0. rewrite nth_error_upd_neq by lia.
      now replace (S np + j) with (np + S j) by lia. }
    exists acc'. split; [exact E'|]. split; [|split].
    + rewrite S'. clear -Ea L'. revert np Ea. induction acc as [|y acc IH]; intros [|np] Ea; try discriminate; cbn in *.
      * injection Ea as ->. unfold shape in *. cbn. now rewrite L'.
      * unfold shape in *. cbn. now rewrite IH.
    + intros i Hi. rewrite Out by lia. apply nth_error_upd_neq. lia.
    + intros [|j] w x y Hx Hy; unfold elem in Hx, Hy |- *.
      * rewrite Nat.add_0_r in *. rewrite (Out np) by lia. rewrite nth_error_upd_eq by lia. rewrite Ea in Hx. now apply V.
      * specialize (V' j w x y). unfold elem in V'. rewrite nth_error_upd_neq in V' by lia.
        replace (S np + j) with (np + S j) in V' by lia. now apply V'.
Qed.

(** Everything that passes leave alone. *)
Definition same_but_passes (t t' : trainer D W) : Prop :=
  layers t' = layers t /\ last_deltas t' = last_deltas t /\ last_gradients t' = last_gradients t /\
  epoch t' = epoch t /\ first_iteration t' = first_iteration t.

Lemma elem_zero (ts : list (list D)) i w x : elem (clear_all D A ts) i w = Some x -> x = zero A.
Proof using.
  unfold elem, clear_all. rewrite nth_error_map. destruct (nth_error ts i) as [t|]; cbn [option_map]; [|discriminate].
  rewrite nth_error_map. destruct (nth_error t w); cbn [option_map]; [congruence|discriminate].
Qed.

Lemma shape_clear (ts : list (list D)) : shape (clear_all D A ts) = shape ts.
Proof using. unfold shape, clear_all. rewrite map_map. apply map_ext. intros a. apply map_length. Qed.

Lemma one_pass_ok : forall n a t loss es, fits t ->
  exists ps t', foldm (one_pass D A W pass) (seq a n) (t, loss, es)
      = Ok (t', fold_left (add A) (concat (map fst ps)) loss, es ++ map (fun '(losses, gradients) => EPass losses gradients) ps) /\
    same_but_passes t t' /\ fits t' /\ length ps = n /\ Forall (fun p => shape (snd p) = shape (parameters t)) ps /\
    forall i w x, elem (accumulated t) i w = Some x ->
      exists gs, Forall2 (fun p g => elem (snd p) i w = Some g) ps gs /\ elem (accumulated t') i w = Some (fold_left (add A) gs x).
Proof using pass_shape.
  induction n as [|n IH]; intros a t loss es F.
  - exists [], t. cbn. rewrite app_nil_r. unfold same_but_passes. split; [reflexivity|]. split; [auto 10|]. split; [exact F|].
    split; [reflexivity|]. split; [constructor|]. intros i w x Hx. exists []. split; [constructor|exact Hx].
  - cbn [seq foldm]. unfold one_pass at 1. destruct (pass (world t) (map snd (layers t))) as [[w0 losses] gr] eqn:Ep.
    assert (Sg : shape gr = shape (parameters t)).
    { pose proof (pass_shape (world t) (map snd (layers t))) as H. rewrite Ep in H. exact H. }
    pose proof F as (F1 & F2 & F3).
    destruct (accumulate_gradients_ok gr 0 (accumulated t)) as (acc & E & Sa & _ & V).
    { intros j g Hj. cbn [Nat.add]. destruct (shape_nth D (parameters t) gr j g) as (x & Ex & Lx); [congruence|exact Hj|].
      destruct (shape_nth D (accumulated t) (parameters t) j x F3 Ex) as (y & Ey & Ly). exists y. split; [exact Ey|congruence]. }
    rewrite E. cbn [bind]. set (t1 := with_accumulated D W (with_world D W t w0) acc).
    assert (F' : fits t1) by (split; [exact F1|split; [exact F2|transitivity (shape (accumulated t)); [exact Sa|exact F3]]]).
    destruct (IH (S a) t1 (sum_losses D A loss losses) (es ++ [EPass losses gr]) F') as (ps & t' & E' & (K1 & K2 & K3 & K4 & K5) & Ft & Lp & Fp & V').
    exists ((losses, gr) :: ps), t'. rewrite E'. split; [|split; [|split; [exact Ft|split; [cbn; now rewrite Lp|split]]]].
    + cbn [map fst concat]. rewrite fold_left_app, <- app_assoc. reflexivity.
    + unfold same_but_passes. rewrite K1, K2, K3, K4, K5. auto 10.
    + constructor; [exact Sg|exact Fp].
    + intros i w x Hx.
      assert (Ey : exists y, elem gr i w = Some y) by (apply (elem_shape D gr (accumulated t) i w x); [congruence|exact Hx]).
      destruct Ey as (y & Ey). pose proof (V i w x y Hx Ey) as Hx'. cbn [Nat.add] in Hx'.
      destruct (V' i w (add A x y)) as (gs & Fg & Eg); [exact Hx'|].
      exists (y :: gs). split; [constructor; [exact Ey|exact Fg]|exact Eg].
Qed.

Lemma one_iteration_ok N t es i : fits t ->
  exists t' ies, one_iteration D A cfg dl W pass calculate_lr N (t, es) i = Ok (t', es ++ ies) /\
    iteration_trace A cfg dl (shape (parameters t)) (calculate_lr (to_u32 (epoch t * N + i))) ies /\
    fits t' /\ structure t' = structure t /\ epoch t' = epoch t.
Proof using pass_shape.
  intros F. unfold one_iteration. pose proof F as (F1 & F2 & F3).
  set (t0 := with_accumulated D W t (clear_all D A (accumulated t))).
  assert (F0 : fits t0) by (split; [exact F1|split; [exact F2|transitivity (shape (accumulated t)); [apply shape_clear|exact F3]]]).
  destruct (one_pass_ok (sbatchsize cfg) 0 t0 (zero A) es F0) as (ps & t1 & E & (K1 & K2 & K3 & K4 & K5) & F' & Lp & Fp & V).
  rewrite E. cbn [bind].
  destruct (apply_gradients_ok D A cfg dl W t1 (calculate_lr (to_u32 (epoch t1 * N + i))) F') as (t2 & E2 & F2' & S2 & _ & _ & Ee & _).
  rewrite E2. cbn [bind]. eexists. eexists. split; [rewrite <- app_assoc; reflexivity|]. split; [|split; [exact F2'|split]].
  - assert (Ep : parameters t1 = parameters t) by (unfold parameters; now rewrite K1).
    exists ps, (accumulated t1). rewrite K4. cbn [t0 with_accumulated epoch]. split; [reflexivity|]. split; [exact Lp|].
    split; [destruct F' as (_ & _ & ->); now rewrite Ep|]. split; [exact Fp|].
    intros j w v Hv.
    assert (Ez : exists z, elem (accumulated t0) j w = Some z).
    { apply (elem_shape D (accumulated t0) (accumulated t1) j w v); [|exact Hv].
      destruct F' as (_ & _ & ->). destruct F0 as (_ & _ & ->). rewrite Ep. reflexivity. }
    destruct Ez as (z & Ez). destruct (V j w z Ez) as (gs & Fg & Eg). exists gs. split; [exact Fg|].
    rewrite Hv in Eg. injection Eg as ->. apply elem_zero in Ez. now subst z.
  - rewrite S2. unfold structure. now rewrite K1.
  - rewrite Ee, K4. reflexivity.
Qed.

Lemma iterations_ok N : forall n a t es, fits t ->
  exists t' its, foldm (one_iteration D A cfg dl W pass calculate_lr N) (seq a n) (t, es) = Ok (t', es ++ concat its) /\
    Forall2 (fun i ies => iteration_trace A cfg dl (shape (parameters t)) (calculate_lr (to_u32 (epoch t * N + i))) ies) (seq a n) its /\
    fits t' /\ structure t' = structure t /\ epoch t' = epoch t.
Proof using pass_shape.
  induction n as [|n IH]; intros a t es F.
  - exists t, []. cbn. rewrite app_nil_r. repeat split; auto; try apply F.
  - cbn [seq foldm]. destruct (one_iteration_ok N t es a F) as (t1 & ies & E & Tr & F1 & S1 & E1). rewrite E. cbn [bind].
    destruct (IH (S a) t1 (es ++ ies) F1) as (t2 & its & E' & Tr' & F2 & S2 & E2). rewrite E'.
    exists t2, (ies :: its). split; [cbn [concat]; now rewrite app_assoc|]. split; [|split; [exact F2|split; congruence]].
    constructor; [exact Tr|]. rewrite E1 in Tr'.
    assert (Es : shape (parameters t1) = shape (parameters t)).
    { unfold parameters. apply structure_shape. exact S1. }
    rewrite Es in Tr'. exact Tr'.
Qed.

Lemma rates_app (a b : list (event D)) : rates (a ++ b) = rates a ++ rates b.
Proof using. apply flat_map_app. Qed.

Lemma rates_iteration sizes lr es : iteration_trace A cfg dl sizes lr es -> rates es = [lr].
Proof using.
  intros (ps & acc & -> & _). rewrite rates_app.
  assert (H : rates (map (fun '(losses, gradients) => EPass losses gradients) ps) = @nil D).
  { clear. induction ps as [|[a b] ps IH]; [reflexivity|]. exact IH. }
  rewrite H. reflexivity.
Qed.

Lemma passes_iteration sizes lr es : iteration_trace A cfg dl sizes lr es -> passes es = sbatchsize cfg.
Proof using.
  intros (ps & acc & -> & L & _). unfold passes. rewrite filter_app, app_length, <- L. cbn [filter length]. rewrite Nat.add_0_r.
  clear. induction ps as [|[a b] ps IH]; [reflexivity|]. cbn. now rewrite IH.
Qed.

Lemma rates_iterations sizes (f : nat -> D) : forall l its, Forall2 (fun i ies => iteration_trace A cfg dl sizes (f i) ies) l its ->
  rates (concat its) = map f l.
Proof using.
  intros l its H. induction H as [|i ies l its Hi Hr IH]; [reflexivity|]. cbn [concat map]. rewrite rates_app, IH, (rates_iteration _ _ _ Hi).
  reflexivity.
Qed.

Lemma passes_app (a b : list (event D)) : passes (a ++ b) = passes a + passes b.
Proof using. unfold passes. now rewrite filter_app, app_length. Qed.

Lemma passes_iterations sizes (f : nat -> D) : forall l its, Forall2 (fun i ies => iteration_trace A cfg dl sizes (f i) ies) l its ->
  passes (concat its) = length l * sbatchsize cfg.
Proof using.
  intros l its H. induction H as [|i ies l its Hi Hr IH]; [reflexivity|]. cbn [concat length]. rewrite passes_app, IH, (passes_iteration _ _ _ Hi). lia.
Qed.

Lemma controls_app (a b : list (event D)) : controls (a ++ b) = controls a ++ controls b.
Proof using. apply filter_app. Qed.
Lemma controls_iteration sizes lr es : iteration_trace A cfg dl sizes lr es -> controls es = [].
Proof using.
  intros (ps & acc & -> & _). rewrite controls_app. cbn. rewrite app_nil_r. clear. induction ps as [|[a b] ps IH]; [reflexivity|exact IH].
Qed.
Lemma controls_iterations sizes (f : nat -> D) : forall l its, Forall2 (fun i ies => iteration_trace A cfg dl sizes (f i) ies) l its ->
  controls (concat its) = [].
Proof using.
  intros l its H. induction H as [|i ies l its Hi Hr IH]; [reflexivity|]. cbn [concat]. now rewrite controls_app, IH, (controls_iteration _ _ _ Hi).
Qed.

Lemma to_u32_id n : (Z.of_nat n < 2 ^ 32)%Z -> to_u32 n = n.
Proof using.
  intros H. unfold to_u32. rewrite N.mod_small by lia. lia.
Qed.

Let N := epoch_iterations D cfg dl scale.

Lemma run_epoch_ok t es : fits t ->
  exists t' its, run_epoch D A cfg dl W pass set_mode calculate_lr scale (t, es)
      = Ok (t', (es ++ [EEpoch (epoch t); ETestingMode false]) ++ concat its) /\
    Forall2 (fun i ies => iteration_trace A cfg dl (shape (parameters t)) (calculate_lr (to_u32 (epoch t * N + i))) ies) (seq 0 N) its /\
    fits t' /\ structure t' = structure t /\ epoch t' = to_u32 (S (epoch t)).
Proof using pass_shape.
  intros F. unfold run_epoch. fold N.
  destruct (iterations_ok N N 0 (with_world D W t (set_mode false (world t))) (es ++ [EEpoch (epoch t); ETestingMode false])) as (t1 & its & E & Tr & F1 & S1 & E1).
  { exact F. }
  rewrite E. cbn [bind]. eexists. exists its. split; [reflexivity|]. split; [exact Tr|]. split; [exact F1|]. split; [exact S1|].
  cbn [with_epoch epoch]. now rewrite E1.
Qed.

Definition epoch_rates (e : nat) : list D := map (fun i => calculate_lr (to_u32 (e * N + i))) (seq 0 N).

Lemma train_epochs_ok snap : forall n a t es, fits t -> (Z.of_nat (epoch t + n) < 2 ^ 32)%Z ->
  exists t' es', foldm (train_epoch D A cfg dl W pass set_mode calculate_lr scale snap) (seq a n) (t, es) = Ok (t', es ++ es') /\
    fits t' /\ structure t' = structure t /\ epoch t' = epoch t + n /\
    rates es' = flat_map (fun k => epoch_rates (epoch t + k)) (seq 0 n) /\ passes es' = n * (N * sbatchsize cfg) /\
    controls es' = flat_map (fun k => [EEpoch (epoch t + k); ETestingMode false] ++ (if snap then [ESnapshot] else [])) (seq 0 n).
Proof using pass_shape.
  induction n as [|n IH]; intros a t es F B.
  - exists t, []. cbn. rewrite app_nil_r, Nat.add_0_r. repeat split; auto; apply F.
  - cbn [seq foldm]. unfold train_epoch at 1. destruct (run_epoch_ok t es F) as (t1 & its & E & Tr & F1 & S1 & E1). rewrite E. cbn [bind].
    rewrite to_u32_id in E1 by lia.
    set (ev := [EEpoch (epoch t); ETestingMode false] ++ concat its ++ (if snap then [ESnapshot] else [])).
    assert (Hev : (if snap then ((es ++ [EEpoch (epoch t); ETestingMode false]) ++ concat its) ++ [ESnapshot]
                   else (es ++ [EEpoch (epoch t); ETestingMode false]) ++ concat its) = es ++ ev).
    { unfold ev. destruct snap; rewrite <- !app_assoc; [reflexivity|]. now rewrite app_nil_r. }
    rewrite Hev. destruct (IH (S a) t1 (es ++ ev) F1) as (t2 & es2 & E' & F2 & S2 & E2 & R2 & P2 & C2); [lia|].
    rewrite E'. exists t2, (ev ++ es2). split; [now rewrite app_assoc|]. split; [exact F2|]. split; [congruence|]. split; [lia|].
    assert (Rs : forall x : list (event D), rates (x ++ (if snap then [ESnapshot] else [])) = rates x) by (intros x; rewrite rates_app; destruct snap; cbn; apply app_nil_r).
    assert (Ps : forall x : list (event D), passes (x ++ (if snap then [ESnapshot] else [])) = passes x) by (intros x; rewrite passes_app; destruct snap; cbn; apply Nat.add_0_r).
    split; [|split].
    + rewrite rates_app, R2. unfold ev. rewrite rates_app. cbn [rates flat_map app]. fold (rates (concat its ++ (if snap then [ESnapshot] else []))).
      rewrite Rs, (rates_iterations _ _ _ _ Tr). cbn [seq flat_map]. rewrite Nat.add_0_r. f_equal.
      rewrite <- seq_shift, flat_map_concat_map, flat_map_concat_map, map_map. f_equal. apply map_ext. intros k. f_equal. lia.
    + rewrite passes_app, P2. unfold ev. rewrite passes_app. rewrite Ps, (passes_iterations _ _ _ _ Tr), seq_length. cbn. lia.
    + rewrite controls_app, C2. unfold ev. rewrite !controls_app, (controls_iterations _ _ _ _ Tr). cbn [seq flat_map]. rewrite Nat.add_0_r. f_equal; [destruct snap; reflexivity|].
      rewrite <- seq_shift, flat_map_concat_map, flat_map_concat_map, map_map. f_equal. apply map_ext. intros k. rewrite E1. now rewrite Nat.add_succ_comm.
Qed.

Lemma fits_reset t : fits t -> fits (reset D A W t).
Proof using. intros (F1 & F2 & F3). split; [|split; [|exact F3]]; (etransitivity; [apply shape_clear|assumption]). Qed.

Lemma fits_new w ls : fits (new_trainer D A W w ls).
Proof using. split; [|split]; apply shape_clear. Qed.

End Loops.

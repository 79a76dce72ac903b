(** C76: training steps of a network follow the gradient of its loss. *)
From Coq Require Import Reals Relations Permutation Lra Psatz FunctionalExtensionality.
From Verif Require Import Base BaseFacts Num RealNum Graph_Model Graph_Spec Graph_Props
  Backprop_Model Backprop_Spec Backprop_Proofs BackpropBackward_Proofs BackpropLayers_Model BackpropLayers_Spec BackpropLayers_Proofs BackpropNet_Spec BackpropNet_Proofs BackpropReady_Proofs
  Trainer_Model TrainNet_Model TrainNet_Spec TrainNet_Proofs.
From Verif Require Trainer_Spec Trainer_Proofs TrainerLoop_Proofs.
From Verif Require Import Trainer_Props ConvLayer_Model ConvLayer_Spec Dfs_Proofs BackpropNet_Props.
Local Open Scope nat_scope.
Local Open Scope list_scope.

Lemma trainable_ready h0 history parts theta : trainable h0 history parts theta ->
  exists g0 g, add_nodes (new_graph h0) (map Some history) = Ok g0 /\ insert_sweeps 2 g0 = Ok g /\
    forall b olds, network_ready h0 history g (parts b) olds.
Proof.
  intros [T1 T2 T3 T4 T5 T6 T7 T8 T9]. destruct (network_is_ready h0 history (parts 0) T1 T2 T3 T4 T5 (T6 0)) as (g0 & g & E0 & E & _).
  exists g0, g. split; [exact E0|]. split; [exact E|]. intros b olds.
  destruct (network_is_ready h0 history (parts b) T1 T2 T3 T4 T5 (T6 b)) as (g0' & g' & E0' & E' & Rd). assert (g0' = g0) by congruence. subst g0'.
  assert (g' = g) by congruence. subst g'. apply Rd.
Qed.

Lemma set_param_shaped ds (theta : nat -> list (list R)) n p e v : Forall2 shaped ds (theta n) -> Forall2 shaped ds (upd (theta n) p (upd (nth p (theta n) []) e v)).
Proof.
  intros H. apply (shaped_same ds (theta n)); [exact H|]. apply shape_nth. rewrite upd_length. split; [reflexivity|]. intros i Hi. rewrite nth_upd.
  destruct (Nat.eqb_spec i p) as [->|_]; [|reflexivity]. cbn [andb]. destruct (p <? length (theta n)) eqn:E; [apply upd_length|reflexivity].
Qed.

Section Iteration.
Variables (h0 : list node) (history : list nat) (g : graph) (parts : nat -> nat -> part) (olds : nat -> nat -> list R) (theta : nat -> list (list R)).
Hypothesis tr : trainable h0 history parts theta.
Hypothesis ready : forall b olds, network_ready h0 history g (parts b) olds.
Notation layer := (fun b k => acts (stack history (parts b) (olds b) (heap g) k)).
Hypothesis all_fit : forall b x, In x (nodes g) -> fits (stack history (parts b) (olds b) (heap g) x).
Variable fuel : nat.
Hypothesis enough : length (nodes g) < fuel.

(** The sum of the gradients of some passes is the derivative of the sum of their losses
    along every curve of parameters. *)
Lemma summed_gradients (G : nat -> nat -> list (list R)) bs (params : R -> nat -> list (list R)) v0 dp :
  (forall b, In b bs -> gradients history g (parts b) (olds b) fuel theta (G b)) ->
  (forall n, params v0 n = theta n) ->
  (forall v n, In n history -> Forall2 shaped (tunes (parts 0 n)) (params v n)) -> (forall v n, ~ In n history -> params v n = []) ->
  (forall n, In n history -> all_move (fun v => params v n) v0 (dp n)) ->
  exists loss : nat -> R -> R, (forall b v, In b bs -> reports (layer b) fuel g (params v) (loss b v)) /\
    derivable_pt_lim (fun v => rsum (fun b => loss b v) bs) v0 (rsum (fun b => rsum (fun n => dots (G b n) (dp n)) history) bs).
Proof.
  intros Gr Ep Ps P0 Mv.
  assert (H : forall b, In b bs -> exists loss : R -> R, (forall v, reports (layer b) fuel g (params v) (loss v)) /\
    derivable_pt_lim loss v0 (rsum (fun n => dots (G b n) (dp n)) history)).
  { intros b Hb. destruct (Gr b Hb) as [_ C]. apply (C params v0 dp Ep); auto. intros v n Hn. rewrite (tr_same _ _ _ _ tr b n Hn). auto. }
  assert (Hl : exists loss : nat -> R -> R, forall b, In b bs -> (forall v, reports (layer b) fuel g (params v) (loss b v)) /\
    derivable_pt_lim (loss b) v0 (rsum (fun n => dots (G b n) (dp n)) history)).
  { clear Gr. induction bs as [|b l IH]; [exists (fun _ _ => 0%R); intros b []|]. destruct IH as (f & Hf); [intros; apply H; now right|].
    destruct (H b (or_introl eq_refl)) as (f0 & Hf0). exists (fun k => if k =? b then f0 else f k). intros k Hk.
    destruct (Nat.eqb_spec k b) as [->|Hne]; [exact Hf0|]. apply Hf. destruct Hk; [congruence|assumption]. }
  destruct Hl as (loss & Hl). exists loss. split; [intros b v Hb; now apply Hl|]. apply (rsum_derive loss). intros b Hb. now apply Hl.
Qed.

(** Along one coordinate. *)
Lemma summed_coordinate (G : nat -> nat -> list (list R)) bs n p e :
  (forall b, In b bs -> gradients history g (parts b) (olds b) fuel theta (G b)) -> In n history -> p < length (theta n) -> e < length (nth p (theta n) []) ->
  exists loss : nat -> R -> R, (forall b v, In b bs -> reports (layer b) fuel g (set_param theta n p e v) (loss b v)) /\
    derivable_pt_lim (fun v => rsum (fun b => loss b v) bs) (param theta n p e) (rsum (fun b => param (G b) n p e) bs).
Proof.
  intros Hb Hn Hp He'.
  set (dp := fun k => if k =? n then unit_in (theta n) p e else map (fun x => repeat 0%R (length x)) (theta k)).
  destruct (summed_gradients G bs (set_param theta n p e) (param theta n p e) dp Hb) as (loss & Hl & Dl).
  - intros k. unfold set_param, param. destruct (Nat.eqb_spec k n) as [->|_]; [|reflexivity].
    apply nth_ext with (d := []) (d' := []); rewrite upd_length; [reflexivity|]. intros j Hj. rewrite nth_upd.
    destruct (Nat.eqb_spec j p) as [->|_]; [|reflexivity]. rewrite (proj2 (Nat.ltb_lt _ _) Hp). cbn [andb].
    apply nth_ext with (d := 0%R) (d' := 0%R); rewrite upd_length; [reflexivity|]. intros j' Hj'. rewrite nth_upd.
    destruct (Nat.eqb_spec j' e) as [->|_]; [|reflexivity]. now rewrite (proj2 (Nat.ltb_lt _ _) He').
  - intros v k Hk. unfold set_param. destruct (Nat.eqb_spec k n) as [->|_]; [|now apply (tr_params _ _ _ _ tr)]. now apply set_param_shaped, (tr_params _ _ _ _ tr).
  - intros v k Hk. unfold set_param. destruct (Nat.eqb_spec k n) as [->|_]; [contradiction|now apply (tr_none _ _ _ _ tr)].
  - intros k _. unfold dp, set_param. destruct (Nat.eqb_spec k n) as [->|_]; [now apply all_move_one|apply all_move_const].
  - exists loss. split; [exact Hl|].
    replace (rsum (fun b => param (G b) n p e) bs) with (rsum (fun b => rsum (fun k => dots (G b k) (dp k)) history) bs); [exact Dl|].
    apply rsum_ext. intros b _. unfold param. rewrite <- (dots_unit (G b n) (theta n) p e Hp He').
    rewrite <- (rsum_single Nat.eqb Nat.eqb_eq (fun k => dots (G b k) (unit_in (theta n) p e)) n history (tr_once _ _ _ _ tr) Hn).
    apply rsum_ext. intros k _. unfold dp. rewrite (Nat.eqb_sym n k). destruct (Nat.eqb_spec k n) as [->|_]; [reflexivity|]. apply dots_zero.
Qed.

(** The derivative decides: whatever else is one, is the same. *)
Lemma summed_unique (G : nat -> nat -> list (list R)) bs n p e (loss : nat -> R -> R) d :
  (forall b, In b bs -> gradients history g (parts b) (olds b) fuel theta (G b)) -> In n history -> p < length (theta n) -> e < length (nth p (theta n) []) ->
  (forall b v, In b bs -> reports (layer b) fuel g (set_param theta n p e v) (loss b v)) ->
  derivable_pt_lim (fun v => rsum (fun b => loss b v) bs) (param theta n p e) d -> d = rsum (fun b => param (G b) n p e) bs.
Proof.
  intros Hb Hn Hp He Hl Dl. destruct (summed_coordinate G bs n p e Hb Hn Hp He) as (loss' & Hl' & Dl').
  apply (derive_unique (fun v => rsum (fun b => loss b v) bs) (param theta n p e)); [exact Dl|]. eapply derive_ext; [|exact Dl'].
  intros v. apply rsum_ext. intros b Hin. apply (reports_unique history g (parts b) (olds b) fuel (set_param theta n p e v)); auto.
Qed.

Variable rate : nat -> R.
Variables (cfg : settings R) (dl : data_layer R) (calculate_lr : nat -> R).
Notation TR := (trainer R (network_state R)).

Lemma iteration_ok (t : TR) its i es : optimization cfg = GradientDescent -> (Z.of_nat (sample_count dl * sbatchsize cfg) < 2 ^ 32)%Z ->
  Trainer_Spec.fits t -> layers t = map (fun n => (rate n, theta n)) (nodes g) ->
  let b0 := s_batches (world t) in
  (forall b, b0 <= b < b0 + sbatchsize cfg -> meets_no_kink (layer b) fuel g theta history (parts b)) ->
  let lr := calculate_lr (to_u32 (epoch t * its + i)) in
  exists (t' : TR) acc evs (G : nat -> nat -> list (list R)) L,
    one_iteration R real_arith cfg dl (network_state R) (network_pass layer fuel g) calculate_lr its (t, es) i =
      Ok (t', es ++ evs ++ [EUpdate lr acc; EIteration (rsum L (seq b0 (sbatchsize cfg)) / (loss_probability dl * INR (sample_count dl) * INR (sbatchsize cfg)))%R]) /\
    length evs = sbatchsize cfg /\ Forall (fun e => exists ls gs, e = EPass ls gs) evs /\
    s_batches (world t') = b0 + sbatchsize cfg /\ Trainer_Spec.fits t' /\ Trainer_Spec.structure t' = Trainer_Spec.structure t /\ epoch t' = epoch t /\
    (forall b, In b (seq b0 (sbatchsize cfg)) -> reports (layer b) fuel g theta (L b) /\ gradients history g (parts b) (olds b) fuel theta (G b)) /\
    forall l n p e, nth_error (nodes g) l = Some n -> p < length (theta n) -> e < length (nth p (theta n) []) ->
      exists s, Trainer_Spec.elem (last_deltas t) (Trainer_Spec.position t l p) e = Some s /\
        let x := param theta n p e in
        let average := (loss_probability dl * rsum (fun b => param (G b) n p e) (seq b0 (sbatchsize cfg)) / (INR (sample_count dl) * INR (sbatchsize cfg)))%R in
        let step := (lr * rate n * (average + l2_weight cfg * x + l1_weight cfg * Rsign x) + momentum cfg * s)%R in
        Trainer_Spec.weight t' l p e = Some (x - step)%R /\ Trainer_Spec.elem (last_deltas t') (Trainer_Spec.position t l p) e = Some step.
Proof.
  intros Go Bd F Ht b0 Sm lr. unfold one_iteration. pose proof F as (F1 & F2 & F3).
  set (t0 := with_accumulated R (network_state R) t (clear_all R real_arith (accumulated t))).
  assert (F0 : Trainer_Spec.fits t0).
  { split; [exact F1|split; [exact F2|]]. transitivity (Trainer_Spec.shape (accumulated t)); [|exact F3]. apply (TrainerLoop_Proofs.shape_clear R real_arith). }
  destruct (passes_ok h0 history g parts olds (fun b => ready b (olds b)) all_fit fuel enough theta (fun b n => tr_same _ _ _ _ tr b n) (tr_params _ _ _ _ tr) (tr_none _ _ _ _ tr)
    rate real_arith eq_refl (sbatchsize cfg) 0 t0 0%R es F0 Ht) as (G & L & evs & t1 & E & (K1 & K2 & K3 & K4 & K5) & Ft & Bt & Le & Fe & Hb & Hv).
  { exact Sm. }
  change (zero real_arith) with 0%R. rewrite E. cbn [bind]. change (world t0) with (world t) in *. fold b0 in Bt, Hb, Hv |- *.
  change (epoch t0) with (epoch t) in K4. rewrite K4. fold lr.
  destruct (C23_gradient_descent real_arith cfg dl t1 lr real_order_ok Go Ft) as (t2 & E2 & Ft2 & St2 & V & Ew & _ & Ee & _).
  rewrite E2. cbn [bind]. exists t2, (accumulated t1), evs, G, L. split; [|split; [exact Le|split; [exact Fe|split; [|split; [exact Ft2|split; [|split; [|split]]]]]]].
  - f_equal. f_equal. rewrite <- app_assoc. f_equal. f_equal. f_equal. f_equal. f_equal. cbn [div mul of_Z real_arith]. rewrite Rplus_0_l, !INR_IZR_INZ. reflexivity.
  - rewrite Ew. exact Bt.
  - rewrite St2. unfold Trainer_Spec.structure. rewrite K1. reflexivity.
  - rewrite Ee. exact K4.
  - intros b Hin. apply in_seq in Hin. apply Hb. lia.
  - intros l n p e En Hp He.
    assert (Hr : Trainer_Spec.local_rate t1 l = Some (rate n)).
    { unfold Trainer_Spec.local_rate. rewrite K1. cbn [t0 with_accumulated layers]. rewrite Ht, nth_error_map, En. reflexivity. }
    assert (Hw : Trainer_Spec.weight t1 l p e = Some (param theta n p e)).
    { unfold Trainer_Spec.weight. rewrite K1. cbn [t0 with_accumulated layers]. rewrite Ht, nth_error_map, En. cbn [option_map]. unfold Trainer_Spec.elem.
      rewrite (nth_error_nth' (theta n) [] Hp). now apply nth_error_nth'. }
    destruct (V l p e (rate n) (param theta n p e) Hr Hw) as (gr & s & Hg & Hs & Hx & Hd & _).
    assert (Pos : Trainer_Spec.position t1 l p = Trainer_Spec.position t l p).
    { unfold Trainer_Spec.position. rewrite K1. reflexivity. }
    rewrite Pos in Hg, Hs, Hd. rewrite K2 in Hs. cbn [t0 with_accumulated last_deltas] in Hs. exists s. split; [exact Hs|].
    assert (Hz : Trainer_Spec.elem (accumulated t0) (Trainer_Spec.position t l p) e = Some 0%R).
    { destruct (Trainer_Proofs.elem_shape R (accumulated t0) (last_deltas t) (Trainer_Spec.position t l p) e s) as (z & Ez); [|exact Hs|].
      - destruct F0 as (_ & _ & ->). rewrite F1. reflexivity.
      - rewrite Ez. f_equal. exact (TrainerLoop_Proofs.elem_zero R real_arith (accumulated t) _ _ _ Ez). }
    pose proof (Hv l n p e 0%R En Hp He Hz) as Ha. change (Trainer_Spec.position t0 l p) with (Trainer_Spec.position t l p) in Ha. rewrite Hg in Ha. injection Ha as Ha. rewrite Rplus_0_l in Ha.
    pose proof (C23_real_rule cfg dl (rate n) (param theta n p e) s lr gr Bd) as Hc. cbv zeta in Hc. rewrite Hc in Hx, Hd. cbn [fst snd] in Hx, Hd.
    rewrite Ha in Hx, Hd. cbv zeta. split; [exact Hx|exact Hd].
Qed.
End Iteration.

(** One iteration of gradient descent on the network a program has built and initialized,
    over the real numbers: whatever earlier passes left behind, the iteration ends
    normally, uses the next [sbatchsize] batches, changes every parameter by exactly the
    documented step computed from the derivative of the sum of the losses of these
    batches with respect to this parameter, remembers the step, and reports the average
    of these losses. *)
Theorem C76_iteration h0 history parts theta : trainable h0 history parts theta ->
  exists g0 g, add_nodes (new_graph h0) (map Some history) = Ok g0 /\ insert_sweeps 2 g0 = Ok g /\
    forall olds fuel rate cfg dl calculate_lr (t : trainer R (network_state R)) its i es,
      let layer b k := acts (stack history (parts b) (olds b) (heap g) k) in
      let batches := seq (s_batches (world t)) (sbatchsize cfg) in
      let lr := calculate_lr (to_u32 (epoch t * its + i)) in
      length (nodes g) < fuel -> (forall b x, In x (nodes g) -> fits (stack history (parts b) (olds b) (heap g) x)) ->
      optimization cfg = GradientDescent -> (Z.of_nat (sample_count dl * sbatchsize cfg) < 2 ^ 32)%Z ->
      Trainer_Spec.fits t -> layers t = map (fun n => (rate n, theta n)) (nodes g) ->
      (forall b, In b batches -> meets_no_kink (layer b) fuel g theta history (parts b)) ->
      exists (t' : trainer R (network_state R)) acc evs (losses : nat -> R),
        (forall b, In b batches -> reports (layer b) fuel g theta (losses b)) /\
        one_iteration R real_arith cfg dl (network_state R) (network_pass layer fuel g) calculate_lr its (t, es) i =
          Ok (t', es ++ evs ++ [EUpdate lr acc; EIteration (rsum losses batches / (loss_probability dl * INR (sample_count dl) * INR (sbatchsize cfg)))%R]) /\
        length evs = sbatchsize cfg /\ Forall (fun e => exists ls gs, e = EPass ls gs) evs /\
        s_batches (world t') = s_batches (world t) + sbatchsize cfg /\
        Trainer_Spec.fits t' /\ Trainer_Spec.structure t' = Trainer_Spec.structure t /\ epoch t' = epoch t /\
        forall l n p d e, nth_error history l = Some n -> nth_error (tunes (parts 0 n)) p = Some d -> e < size d ->
          exists (loss : nat -> R -> R) G s,
            (forall b v, In b batches -> reports (layer b) fuel g (set_param theta n p e v) (loss b v)) /\
            derivable_pt_lim (fun v => rsum (fun b => loss b v) batches) (param theta n p e) G /\
            Trainer_Spec.elem (last_deltas t) (Trainer_Spec.position t l p) e = Some s /\
            let x := param theta n p e in
            let average := (loss_probability dl * G / (INR (sample_count dl) * INR (sbatchsize cfg)))%R in
            let step := (lr * rate n * (average + l2_weight cfg * x + l1_weight cfg * Rsign x) + momentum cfg * s)%R in
            Trainer_Spec.weight t' l p e = Some (x - step)%R /\
            Trainer_Spec.elem (last_deltas t') (Trainer_Spec.position t l p) e = Some step.
Proof.
  intros Tr. destruct (trainable_ready h0 history parts theta Tr) as (g0 & g & E0 & E & Rd). exists g0, g. split; [exact E0|]. split; [exact E|].
  intros olds fuel rate cfg dl calculate_lr t its i es layer batches lr Hf Fi Go Bd F Ht Sm.
  destruct (iteration_ok h0 history g parts olds theta Tr Rd Fi fuel Hf rate cfg dl calculate_lr t its i es Go Bd F Ht) as
    (t' & acc & evs & G & L & Ei & Le & Fe & Bt & Ft & St & Et & Hb & V).
  { intros b Hb. apply Sm. apply in_seq. exact Hb. }
  exists t', acc, evs, L. split; [intros b Hin; now apply Hb|]. split; [exact Ei|]. split; [exact Le|]. split; [exact Fe|]. split; [exact Bt|].
  split; [exact Ft|]. split; [exact St|]. split; [exact Et|].
  intros l n p d e El Ep He. pose proof (nth_error_In _ _ El) as Hn.
  assert (En : nth_error (nodes g) l = Some n).
  { destruct (nr_nodes _ _ _ _ _ (Rd 0 (olds 0))) as (extra & ->). rewrite nth_error_app1; [exact El|]. apply nth_error_Some. congruence. }
  pose proof (tr_params _ _ _ _ Tr n Hn) as Tn. assert (Hp : p < length (theta n)).
  { rewrite <- (Forall2_length Tn). apply nth_error_Some. congruence. }
  assert (He' : e < length (nth p (theta n) [])).
  { destruct (forall2_nth_error _ _ _ _ _ Tn Ep) as (x & Ex & Sx). rewrite (nth_error_nth _ _ [] Ex). now rewrite Sx. }
  destruct (V l n p e En Hp He') as (s & Hs & Hv). cbv zeta in Hv.
  destruct (summed_coordinate h0 history g parts olds theta Tr fuel G batches n p e) as (loss & Hl & Dl); auto.
  { intros b Hin. now apply Hb. }
  exists loss, (rsum (fun b => param (G b) n p e) batches), s. split; [exact Hl|]. split; [exact Dl|]. split; [exact Hs|exact Hv].
Qed.
Print Assumptions C76_iteration.

(** ** Descent *)
Section Grid.
Variable shape_of : list (list R).
(** Tensors of the shapes of [shape_of] with these elements. *)
Definition grid (f : nat -> nat -> R) : list (list R) :=
  map (fun p => map (f p) (seq 0 (length (nth p shape_of [])))) (seq 0 (length shape_of)).
Lemma grid_nth f p : p < length shape_of -> nth p (grid f) [] = map (f p) (seq 0 (length (nth p shape_of []))).
Proof. intros H. unfold grid. now rewrite nth_map_seq. Qed.
Lemma grid_at f p e : p < length shape_of -> e < length (nth p shape_of []) -> nth e (nth p (grid f) []) 0%R = f p e.
Proof. intros Hp He. rewrite grid_nth by exact Hp. now rewrite nth_map_seq. Qed.
Lemma grid_length f : length (grid f) = length shape_of.
Proof. unfold grid. now rewrite map_length, seq_length. Qed.
Lemma grid_shape f : shape (grid f) = shape shape_of.
Proof.
  apply shape_nth. rewrite grid_length. split; [reflexivity|]. intros p Hp. rewrite grid_nth by exact Hp. now rewrite map_length, seq_length.
Qed.
Lemma grid_eq (x : list (list R)) f : shape x = shape shape_of ->
  (forall p e, p < length shape_of -> e < length (nth p shape_of []) -> nth e (nth p x []) 0%R = f p e) -> x = grid f.
Proof.
  intros Hs H. apply shape_nth in Hs as [S1 S2]. apply nth_ext with (d := []) (d' := []); [now rewrite grid_length|]. intros p Hp.
  rewrite S1 in Hp. assert (Lp : length (nth p x []) = length (nth p shape_of [])) by (apply S2; lia).
  apply nth_ext with (d := 0%R) (d' := 0%R); [rewrite grid_nth, map_length, seq_length; auto|]. intros e He. rewrite Lp in He. rewrite grid_at by assumption. now apply H.
Qed.
Lemma grid_moves (f : R -> nat -> nat -> R) v0 f' : (forall p e, derivable_pt_lim (fun v => f v p e) v0 (f' p e)) ->
  all_move (fun v => grid (f v)) v0 (grid f').
Proof.
  intros H. split; [intros v; now rewrite !grid_length|]. intros p Hp. rewrite grid_length in Hp. split.
  - intros v. rewrite !grid_nth by exact Hp. now rewrite !map_length.
  - intros e He. rewrite grid_nth, map_length, seq_length in He by exact Hp. rewrite grid_at by assumption.
    eapply derive_ext; [|apply (H p e)]. intros v. cbv beta. now rewrite grid_at.
Qed.
Lemma dots_grid a f : dots a (grid f) = rsum (fun p => rsum (fun e => nth e (nth p a []) 0 * f p e)%R (seq 0 (length (nth p shape_of [])))) (seq 0 (length shape_of)).
Proof.
  unfold dots. rewrite grid_length. apply rsum_ext. intros p Hp. apply in_seq in Hp. rewrite grid_nth by lia. unfold dot. rewrite map_length, seq_length.
  apply rsum_ext. intros e He. apply in_seq in He. now rewrite nth_map_seq by lia.
Qed.
End Grid.

Lemma rsum_nonpos {A} (f : A -> R) l : (forall a, In a l -> f a <= 0)%R -> (rsum f l <= 0)%R.
Proof. induction l as [|a l IH]; intros H; cbn [rsum]; [lra|]. pose proof (H a (or_introl eq_refl)). specialize (IH (fun b Hb => H b (or_intror Hb))). lra. Qed.
Lemma rsum_neg {A} (f : A -> R) l a : (forall a, In a l -> f a <= 0)%R -> In a l -> (f a < 0)%R -> (rsum f l < 0)%R.
Proof.
  induction l as [|b l IH]; intros H Ha Hn; [destruct Ha|]. cbn [rsum]. destruct Ha as [->|Ha].
  - pose proof (rsum_nonpos f l (fun b Hb => H b (or_intror Hb))). lra.
  - specialize (IH (fun b Hb => H b (or_intror Hb)) Ha Hn). pose proof (H b (or_introl eq_refl)). lra.
Qed.
Lemma decreases f d : derivable_pt_lim f 0 d -> (d < 0)%R -> exists eta, (0 < eta)%R /\ forall v, (0 < v < eta)%R -> (f v < f 0)%R.
Proof.
  intros H Hd. destruct (H (- d / 2)%R) as (delta & Hdel); [lra|]. exists delta. split; [apply cond_pos|]. intros v [Hv1 Hv2].
  specialize (Hdel v). rewrite Rplus_0_l in Hdel. assert (Hq := Hdel ltac:(lra) ltac:(rewrite Rabs_right; lra)).
  apply Rabs_def2 in Hq as [Hq _]. assert (Q : ((f v - f 0) / v < d / 2)%R) by lra.
  assert (P : (((f v - f 0) / v) * v < 0)%R) by nra. replace ((f v - f 0) / v * v)%R with (f v - f 0)%R in P by (field; lra). lra.
Qed.

(** Without regularization and momentum (or with no earlier steps to remember), and unless
    all derivatives are 0 already, an iteration with any sufficiently small learning
    rate makes the sum of the losses of its batches strictly smaller. *)
Theorem C76_descent h0 history parts theta : trainable h0 history parts theta ->
  exists g0 g, add_nodes (new_graph h0) (map Some history) = Ok g0 /\ insert_sweeps 2 g0 = Ok g /\
    forall olds fuel rate cfg dl (t : trainer R (network_state R)) its i es,
      let layer b k := acts (stack history (parts b) (olds b) (heap g) k) in
      let batches := seq (s_batches (world t)) (sbatchsize cfg) in
      length (nodes g) < fuel -> (forall b x, In x (nodes g) -> fits (stack history (parts b) (olds b) (heap g) x)) ->
      optimization cfg = GradientDescent -> (Z.of_nat (sample_count dl * sbatchsize cfg) < 2 ^ 32)%Z ->
      Trainer_Spec.fits t -> layers t = map (fun n => (rate n, theta n)) (nodes g) ->
      (forall b, In b batches -> meets_no_kink (layer b) fuel g theta history (parts b)) ->
      l1_weight cfg = 0%R -> l2_weight cfg = 0%R ->
      (forall i e s, Trainer_Spec.elem (last_deltas t) i e = Some s -> momentum cfg * s = 0)%R ->
      (0 < loss_probability dl)%R -> 0 < sample_count dl -> 0 < sbatchsize cfg -> (forall n, In n history -> 0 < rate n)%R ->
      (exists n p d e (loss : nat -> R -> R) slope, In n history /\ nth_error (tunes (parts 0 n)) p = Some d /\ e < size d /\
         (forall b v, In b batches -> reports (layer b) fuel g (set_param theta n p e v) (loss b v)) /\
         derivable_pt_lim (fun v => rsum (fun b => loss b v) batches) (param theta n p e) slope /\ slope <> 0%R) ->
      exists eta, (0 < eta)%R /\ forall calculate_lr, (0 < calculate_lr (to_u32 (epoch t * its + i)) < eta)%R ->
        exists t' es' (before after : nat -> R),
          one_iteration R real_arith cfg dl (network_state R) (network_pass layer fuel g) calculate_lr its (t, es) i = Ok (t', es') /\
          (forall b, In b batches -> reports (layer b) fuel g theta (before b)) /\
          (forall b, In b batches -> reports (layer b) fuel g (params_of (nodes g) (map snd (layers t'))) (after b)) /\
          (rsum after batches < rsum before batches)%R.
Proof.
  intros Tr. destruct (trainable_ready h0 history parts theta Tr) as (g0 & g & E0 & E & Rd). exists g0, g. split; [exact E0|]. split; [exact E|].
  intros olds fuel rate cfg dl t its i es layer batches Hf Fi Go Bd F Ht Sm L1 L2 Mo Lp Sc Sb Ra (n1 & p1 & d1 & e1 & loss1 & slope & Hn1 & Ed1 & He1 & Hl1 & Dl1 & Hs1).
  assert (Sm' : forall b, s_batches (world t) <= b < s_batches (world t) + sbatchsize cfg -> meets_no_kink (layer b) fuel g theta history (parts b)).
  { intros b Hb. apply Sm. now apply in_seq. }
  destruct (iteration_ok h0 history g parts olds theta Tr Rd Fi fuel Hf rate cfg dl (fun _ => 0%R) t its i es Go Bd F Ht Sm') as
    (q1 & q2 & q3 & G & q4 & Q1 & Q2 & Q3 & Q4 & Q5 & Q6 & Q7 & Hb & Q8).
  assert (Gr : forall b, In b batches -> gradients history g (parts b) (olds b) fuel theta (G b)) by (intros b Hin; now apply Hb). clear Hb Q1 Q2 Q3 Q4 Q5 Q6 Q7 Q8 q4.
  set (gs := fun n p e => rsum (fun b => param (G b) n p e) batches).
  set (c := fun n => (rate n * (loss_probability dl / (INR (sample_count dl) * INR (sbatchsize cfg))))%R).
  set (curve := fun (v : R) n => grid (theta n) (fun p e => param theta n p e - v * (c n * gs n p e))%R).
  set (dp := fun n => grid (theta n) (fun p e => - (c n * gs n p e))%R).
  assert (Hc : forall n, In n history -> (0 < c n)%R).
  { intros n Hn. unfold c. apply Rmult_lt_0_compat; [now apply Ra|]. apply Rdiv_lt_0_compat; [exact Lp|]. apply Rmult_lt_0_compat; now apply lt_0_INR. }
  assert (C0 : forall n, curve 0%R n = theta n).
  { intros n. unfold curve. symmetry. apply grid_eq; [reflexivity|]. intros p e _ _. unfold param. ring. }
  destruct (summed_gradients h0 history g parts olds theta Tr fuel G batches curve 0%R dp Gr C0) as (loss & Hl & Dl).
  { intros v n Hn. apply (shaped_same _ (theta n)); [now apply (tr_params _ _ _ _ Tr)|]. apply grid_shape. }
  { intros v n Hn. unfold curve. rewrite (tr_none _ _ _ _ Tr n Hn). reflexivity. }
  { intros n Hn. apply (grid_moves (theta n)). intros p e. set (k := (c n * gs n p e)%R). set (x := param theta n p e).
    replace (- k)%R with (0 - (1 * k + 0 * 0))%R by ring.
    apply (derivable_pt_lim_minus (fun _ => x) (fun v => v * k)%R); [exact (derive_const x 0)|].
    apply (derivable_pt_lim_mult (fun v => v) (fun _ => k)); [apply derivable_pt_lim_id|exact (derive_const k 0)]. }
  assert (Neg : (rsum (fun b => rsum (fun n => dots (G b n) (dp n)) history) batches < 0)%R).
  { replace (rsum (fun b => rsum (fun n => dots (G b n) (dp n)) history) batches) with
      (rsum (fun n => rsum (fun p => rsum (fun e => - (c n * (gs n p e * gs n p e)))%R (seq 0 (length (nth p (theta n) [])))) (seq 0 (length (theta n)))) history).
    - pose proof (tr_params _ _ _ _ Tr n1 Hn1) as Tn. assert (Hp1 : p1 < length (theta n1)).
      { rewrite <- (Forall2_length Tn). apply nth_error_Some. congruence. }
      assert (He1' : e1 < length (nth p1 (theta n1) [])).
      { destruct (forall2_nth_error _ _ _ _ _ Tn Ed1) as (x & Ex & Sx). rewrite (nth_error_nth _ _ [] Ex). now rewrite Sx. }
      assert (Es : slope = gs n1 p1 e1) by (apply (summed_unique h0 history g parts olds theta Tr fuel G batches n1 p1 e1 loss1); auto).
      assert (Np : forall n, In n history -> forall p e, (- (c n * (gs n p e * gs n p e)) <= 0)%R) by (intros n Hn p e; pose proof (Hc n Hn); nra).
      assert (Np1 : forall n, In n history -> forall p, (rsum (fun e => - (c n * (gs n p e * gs n p e)))%R (seq 0 (length (nth p (theta n) []))) <= 0)%R).
      { intros n Hn p. apply rsum_nonpos. intros e _. now apply Np. }
      assert (Np2 : forall n, In n history -> (rsum (fun p => rsum (fun e => - (c n * (gs n p e * gs n p e)))%R (seq 0 (length (nth p (theta n) [])))) (seq 0 (length (theta n))) <= 0)%R).
      { intros n Hn. apply rsum_nonpos. intros p _. now apply Np1. }
      apply (rsum_neg _ history n1 Np2 Hn1). apply (rsum_neg _ _ p1 (fun p _ => Np1 n1 Hn1 p)); [apply in_seq; lia|].
      apply (rsum_neg _ _ e1 (fun e _ => Np n1 Hn1 p1 e)); [apply in_seq; lia|]. cbv beta. rewrite <- Es. pose proof (Hc n1 Hn1).
      assert (0 < slope * slope)%R by nra. nra.
    - rewrite rsum_swap. apply rsum_ext. intros n _. unfold dp.
      rewrite (rsum_ext (fun b => dots (G b n) (grid (theta n) (fun p e => - (c n * gs n p e))%R)) _ batches (fun b _ => dots_grid (theta n) (G b n) _)).
      rewrite rsum_swap. apply rsum_ext. intros p _. rewrite rsum_swap. apply rsum_ext. intros e _.
      replace (- (c n * (gs n p e * gs n p e)))%R with ((- (c n * gs n p e)) * gs n p e)%R by ring. unfold gs at 2.
      rewrite <- rsum_scale. apply rsum_ext. intros b _. unfold param. ring. }
  destruct (decreases _ _ Dl Neg) as (eta & He & Hd). exists eta. split; [exact He|]. intros calculate_lr Hlr.
  destruct (iteration_ok h0 history g parts olds theta Tr Rd Fi fuel Hf rate cfg dl calculate_lr t its i es Go Bd F Ht Sm') as
    (t' & acc & evs & G' & L & Ei & _ & _ & _ & Ft' & St' & _ & Hb' & V).
  set (lr := calculate_lr (to_u32 (epoch t * its + i))) in *.
  assert (Gr' : forall b, In b batches -> gradients history g (parts b) (olds b) fuel theta (G' b)) by (intros b Hin; now apply Hb').
  assert (Lb : forall b, In b batches -> reports (layer b) fuel g theta (loss b 0%R)).
  { intros b Hin. assert (Ec : curve 0%R = theta) by (apply functional_extensionality; exact C0). rewrite <- Ec. now apply Hl. }
  assert (Moved : params_of (nodes g) (map snd (layers t')) = curve lr).
  { apply functional_extensionality. intros n. destruct (nr_nodes _ _ _ _ _ (Rd 0 (olds 0))) as (extra & Eg).
    destruct (in_dec Nat.eq_dec n (nodes g)) as [Hn|Hn].
    2:{ rewrite params_of_out by exact Hn. unfold curve. rewrite (tr_none _ _ _ _ Tr n); [reflexivity|]. intros Hh. apply Hn. rewrite Eg. apply in_or_app. now left. }
    apply In_nth_error in Hn as (l & El). pose proof (f_equal (fun x => nth_error x l) St') as Sl. unfold Trainer_Spec.structure in Sl. cbv beta in Sl.
    rewrite !nth_error_map, Ht, nth_error_map, El in Sl. cbn [option_map] in Sl. destruct (nth_error (layers t') l) as [[r ps]|] eqn:Epl; [|discriminate].
    cbn [option_map] in Sl. injection Sl as Er Sp.
    rewrite (params_of_nth _ _ l n ps); [|apply (sound_once g), (nr_sound _ _ _ _ _ (Rd 0 (olds 0)))|exact El|rewrite nth_error_map, Epl; reflexivity].
    unfold curve. apply grid_eq; [exact Sp|]. intros p e Hp He'. destruct (V l n p e El Hp He') as (s & Hs & Hw & _). cbv zeta in Hw.
    unfold Trainer_Spec.weight in Hw. rewrite Epl in Hw. unfold Trainer_Spec.elem in Hw. destruct (nth_error ps p) as [x|] eqn:Ex; [|discriminate].
    rewrite (nth_error_nth _ _ [] Ex), (nth_error_nth _ _ 0%R Hw).
    destruct (in_dec Nat.eq_dec n history) as [Hh|Hh].
    2:{ rewrite (tr_none _ _ _ _ Tr n Hh) in Hp. cbn in Hp. lia. }
    assert (Eg' : rsum (fun b => param (G' b) n p e) batches = gs n p e).
    { unfold gs. destruct (summed_coordinate h0 history g parts olds theta Tr fuel G batches n p e Gr Hh Hp He') as (loss2 & Hl2 & Dl2).
      symmetry. apply (summed_unique h0 history g parts olds theta Tr fuel G' batches n p e loss2); auto. }
    fold batches lr. rewrite Eg'. rewrite (Mo _ _ _ Hs), L1, L2. unfold c. assert (0 < INR (sample_count dl))%R by now apply lt_0_INR. assert (0 < INR (sbatchsize cfg))%R by now apply lt_0_INR. field. lra. }
  exists t'. eexists. exists (fun b => loss b 0%R), (fun b => loss b lr). split; [exact Ei|]. split; [exact Lb|]. split.
  - intros b Hin. rewrite Moved. now apply Hl.
  - apply Hd. exact Hlr.
Qed.
Print Assumptions C76_descent.

(** ** Networks that meet the hypotheses *)
Definition fit_heap : list node :=
  [ mkNode (Some (mkKind false false true false)) [] [] 4 String.EmptyString false true;
    mkNode (Some (mkKind false false false false)) [mkConn (Some 0) 0 true] [] 1 String.EmptyString true false;
    mkNode (Some (mkKind false true false false)) [mkConn (Some 1) 0 true; mkConn (Some 0) 1 true; mkConn (Some 0) 3 true] [] 0 String.EmptyString false false ].
Definition fit_conv : conv := mkConv 1 1 1 1 1 0 0 1.
Definition fit_dims : dims := mkDims 1 1 1 1.
Definition fit_parts (st : @conv_state R) (b n : nat) : part :=
  match n with
  | 0 => PInput [fit_dims; fit_dims; fit_dims; fit_dims] [[if b =? 0 then 1 else 2]; [if b =? 0 then 3 else 4]; [0]; [1]]%R
  | 1 => PConvolution fit_conv fit_dims st [0%R] [0%R]
  | _ => PLoss fit_dims 1%R [0%R]
  end.
Definition fit_g : graph := graph_of (insert_sweeps 2 (graph_of (add_nodes (new_graph fit_heap) (map Some [0; 1; 2])))).

Definition fit_theta (n : nat) : list (list R) := match n with 1 => [[0%R]; [0%R]] | _ => [] end.
Definition fit_loss (b : nat) (v : R) : option R :=
  match conv_state_of R_num (fun _ => 0%R) fit_conv 1 1 1 1 1 1 with
  | Ok st =>
    match gradient_pass R_num (fun k => acts (stack [0; 1; 2] (fit_parts st b) (fun _ => []) (heap fit_g) k)) (set_param fit_theta 1 1 0 v) 4 fit_g [] []
      (mkMemory (fun _ _ => []) (fun _ _ => []) (fun _ => [])) with
    | Ok (l, _) => Some l
    | _ => None
    end
  | _ => None
  end.

Lemma fit_loss_value b v : b < 2 -> fit_loss b v = Some (((v - (if b =? 0 then 3 else 4)) * (v - (if b =? 0 then 3 else 4))) / 2)%R.
Proof.
  intros Hb. destruct b as [|[|b]]; [| |lia]; cbv -[Rplus Rmult Ropp Rdiv Rminus IZR INR]; (destruct (Req_EM_T 0 0) as [_|n]; [|now destruct n]);
    cbv -[Rplus Rmult Ropp Rdiv Rminus IZR INR]; f_equal; (destruct (Req_EM_T 1 0) as [n|_]; [lra|]); field.
Qed.
Lemma fit_slope v : derivable_pt_lim (fun v => rsum (fun b => (((v - (if b =? 0 then 3 else 4)) * (v - (if b =? 0 then 3 else 4))) / 2)%R) (seq 0 2)) v ((v - 3) + (v - 4))%R.
Proof.
  cbn [rsum seq Nat.eqb]. assert (D : forall c, derivable_pt_lim (fun v => v - c)%R v 1%R).
  { intros c. replace 1%R with (1 - 0)%R by ring. apply (derivable_pt_lim_minus (fun v => v) (fun _ => c)); [apply derivable_pt_lim_id|exact (derive_const c v)]. }
  assert (Q : forall c, derivable_pt_lim (fun v => (v - c) * (v - c) / 2)%R v (v - c)%R).
  { intros c. replace (v - c)%R with ((1 * (v - c) + (v - c) * 1) * / 2 + ((v - c) * (v - c)) * 0)%R by field.
    apply (derivable_pt_lim_mult (fun v => (v - c) * (v - c))%R (fun _ => / 2)%R); [|exact (derive_const (/ 2) v)].
    apply (derivable_pt_lim_mult (fun v => v - c)%R (fun v => v - c)%R); apply D. }
  replace (v - 3 + (v - 4))%R with ((v - 3) + ((v - 4) + 0))%R by ring.
  apply (derivable_pt_lim_plus (fun v => (v - 3) * (v - 3) / 2)%R (fun v => (v - 4) * (v - 4) / 2 + 0)%R); [apply Q|].
  apply (derivable_pt_lim_plus (fun v => (v - 4) * (v - 4) / 2)%R (fun _ => 0)%R); [apply Q|exact (derive_const 0 v)].
Qed.
Definition fit_trainer : trainer R (network_state R) :=
  mkTrainer (mkState [] [] (mkMemory (fun _ _ => []) (fun _ _ => []) (fun _ => [])) 0) (map (fun n => (1%R, fit_theta n)) [0; 1; 2]) [[0%R]; [0%R]] [[0%R]; [0%R]] [[0%R]; [0%R]] 0 true.
Definition fit_settings : settings R := mkSettings 0%R 0%R (1 / 2)%R 1%R 1%R 1%R GradientDescent false 2 1.
Definition fit_data : data_layer R := mkData 1 1 1%R 2 0.

(** A linear model with a weight and a bias, fitted to the points (1, 3) and (2, 4), from 0:
    the derivative of the summed loss with respect to the bias is -7. *)
Example C76_descent_hypotheses : exists st, trainable fit_heap [0; 1; 2] (fit_parts st) fit_theta /\
  exists g0, add_nodes (new_graph fit_heap) (map Some [0; 1; 2]) = Ok g0 /\ insert_sweeps 2 g0 = Ok fit_g /\ length (nodes fit_g) < 4 /\
    let layer b k := acts (stack [0; 1; 2] (fit_parts st b) (fun _ => []) (heap fit_g) k) in
    (forall b x, In x (nodes fit_g) -> fits (stack [0; 1; 2] (fit_parts st b) (fun _ => []) (heap fit_g) x)) /\
    Trainer_Spec.fits fit_trainer /\ layers fit_trainer = map (fun n => (1%R, fit_theta n)) (nodes fit_g) /\
    (forall b, meets_no_kink (layer b) 4 fit_g fit_theta [0; 1; 2] (fit_parts st b)) /\
    (forall i e s, Trainer_Spec.elem (last_deltas fit_trainer) i e = Some s -> momentum fit_settings * s = 0)%R /\
    exists (loss : nat -> R -> R) slope,
      (forall b v, In b (seq 0 2) -> reports (layer b) 4 fit_g (set_param fit_theta 1 1 0 v) (loss b v)) /\
      derivable_pt_lim (fun v => rsum (fun b => loss b v) (seq 0 2)) (param fit_theta 1 1 0) slope /\ slope = (-7)%R.
Proof.
  destruct (Conv_Props.C35_connected R_num (fun _ => 0%R) fit_conv 1 1 1 1) as (st & Est & Rd & _); [reflexivity|cbn; lia..|reflexivity|].
  exists st. assert (Fi : forall b n, In n [0; 1; 2] -> fits (fit_parts st b n)).
  { intros b n Hn. cbn in Hn. decompose [or] Hn; subst; try contradiction; cbn [fit_parts fits]; unfold shaped.
    - repeat constructor.
    - split; [eauto|]. cbn. repeat split; lia.
    - cbn. repeat split; lia. }
  assert (Tr : trainable fit_heap [0; 1; 2] (fit_parts st) fit_theta).
  { constructor.
    - repeat constructor; cbn; intuition lia.
    - intros n Hn. cbn in Hn. decompose [or] Hn; subst; try contradiction; (eexists; split; [reflexivity|]); cbn [n_inputs In];
        intros c Hc; decompose [or] Hc; subst; try contradiction; eexists; (split; [reflexivity|]); cbn; auto 10.
    - intros n nd Hn E. cbn in Hn. decompose [or] Hn; subst; try contradiction; injection E as <-; discriminate.
    - intros n nd E. do 3 (destruct n as [|n]; [injection E as <-; reflexivity|]). destruct n; discriminate.
    - assert (L : forall x y, reads fit_heap x y -> y < x).
      { intros x y (nd & c & E & Hc & Ec). do 3 (destruct x as [|x]; [injection E as <-; cbn in Hc; decompose [or] Hc; subst; try contradiction;
          injection Ec as <-; lia|]). destruct x; discriminate. }
      intros n _ Hc. assert (T : forall a b, clos_trans nat (reads fit_heap) a b -> b < a) by (intros a b H; induction H; [auto|lia]).
      specialize (T n n Hc). lia.
    - intros b. constructor.
      + intros n nd Hn E. cbn in Hn. decompose [or] Hn; subst; try contradiction; injection E as <-; cbn [n_inputs takes fit_parts]; repeat constructor;
          cbn [c_node c_buffer]; (eexists; split; [reflexivity|reflexivity]).
      + intros n nd Hn E. cbn in Hn. decompose [or] Hn; subst; try contradiction; injection E as <-; reflexivity.
      + intros n nd Hn E. cbn in Hn. decompose [or] Hn; subst; try contradiction; injection E as <-; cbn; auto.
      + exact (Fi b).
      + intros n nd Hn E. cbn in Hn. decompose [or] Hn; subst; try contradiction; injection E as <-; cbn; intuition (try discriminate; lia).
      + intros n Hn Hi Hm. cbn in Hn. decompose [or] Hn; subst; try contradiction; try discriminate Hi; try (cbn in Hm; congruence).
        exists 2. split; [cbn; auto|]. do 2 eexists. split; [reflexivity|]. split; [now left|]. split; reflexivity.
    - intros b n Hn. cbn in Hn. decompose [or] Hn; subst; try contradiction; reflexivity.
    - intros n Hn. cbn in Hn. decompose [or] Hn; subst; try contradiction; cbn [tunes fit_parts fit_theta]; repeat constructor.
    - intros n Hn. destruct n as [|[|n]]; try reflexivity. exfalso. apply Hn. cbn. auto. }
  assert (En : nodes fit_g = [0; 1; 2]) by (vm_compute; reflexivity).
  assert (Fa : forall b x, In x (nodes fit_g) -> fits (stack [0; 1; 2] (fit_parts st b) (fun _ => []) (heap fit_g) x)).
  { intros b x Hx. rewrite En in Hx. unfold stack. replace (existsb (Nat.eqb x) [0; 1; 2]) with true by (cbn in Hx; decompose [or] Hx; subst; try contradiction; reflexivity). now apply Fi. }
  destruct (trainable_ready _ _ _ _ Tr) as (g0 & g & E0 & Eg & Rdy). assert (g = fit_g) as ->.
  { vm_compute in E0. injection E0 as <-. vm_compute in Eg. injection Eg as <-. reflexivity. }
  split; [exact Tr|]. exists g0. split; [exact E0|]. split; [exact Eg|]. split; [rewrite En; cbn; lia|]. cbv zeta. split; [exact Fa|].
  split; [repeat split|]. split; [now rewrite En|]. split.
  { intros b ff m ff1 m1 _ k Hk. cbn in Hk. decompose [or] Hk; subst; try contradiction; exact I. }
  split.
  { intros i e s Es. cbn in Es. unfold Trainer_Spec.elem in Es. destruct i as [|[|i]]; cbn in Es; [..|destruct i; discriminate];
      (destruct e as [|e]; [injection Es as <-; ring|destruct e; discriminate]). }
  exists (fun b v => ((v - (if b =? 0 then 3 else 4)) * (v - (if b =? 0 then 3 else 4))) / 2)%R, ((0 - 3) + (0 - 4))%R. split; [|split; [apply fit_slope|ring]].
  intros b v Hb. apply in_seq in Hb.
  set (m := mkMemory (fun _ _ => []) (fun _ _ => []) (fun _ => []) : memory R).
  destruct (gradient_pass R_num (fun k => acts (stack [0; 1; 2] (fit_parts st b) (fun _ => []) (heap fit_g) k)) (set_param fit_theta 1 1 0 v) 4 fit_g [] [] m) as [[l s]| |] eqn:Ep.
  - assert (El : fit_loss b v = Some l).
    { unfold fit_loss. change (conv_state_of R_num (fun _ => 0%R) fit_conv 1 1 1 1 1 1 = Ok st) in Est. rewrite Est. fold m. rewrite Ep. reflexivity. }
    rewrite fit_loss_value in El by lia. injection El as <-. apply (reports_some _ _ _ _ _ (Rdy b (fun _ => [])) (Fa b) 4 ltac:(rewrite En; cbn; lia) _) with (3 := Ep).
    + intros n Hn. rewrite (tr_same _ _ _ _ Tr b n Hn). unfold set_param. destruct (Nat.eqb_spec n 1) as [->|_]; [|now apply (tr_params _ _ _ _ Tr)]. repeat constructor.
    + intros n Hn. unfold set_param. destruct (Nat.eqb_spec n 1) as [->|_]; [exfalso; apply Hn; cbn; auto|now apply (tr_none _ _ _ _ Tr)].
  - exfalso. assert (El : fit_loss b v = None).
    { unfold fit_loss. change (conv_state_of R_num (fun _ => 0%R) fit_conv 1 1 1 1 1 1 = Ok st) in Est. rewrite Est. fold m. rewrite Ep. reflexivity. }
    rewrite fit_loss_value in El by lia. discriminate.
  - exfalso. assert (El : fit_loss b v = None).
    { unfold fit_loss. change (conv_state_of R_num (fun _ => 0%R) fit_conv 1 1 1 1 1 1 = Ok st) in Est. rewrite Est. fold m. rewrite Ep. reflexivity. }
    rewrite fit_loss_value in El by lia. discriminate.
Qed.

Example C76_descent_example : exists st eta, (0 < eta)%R /\ forall calculate_lr : nat -> R, (0 < calculate_lr 0%nat < eta)%R ->
  let layer b k := acts (stack [0; 1; 2] (fit_parts st b) (fun _ => []) (heap fit_g) k) in
  exists t' es' (before after : nat -> R),
    one_iteration R real_arith fit_settings fit_data (network_state R) (network_pass layer 4 fit_g) calculate_lr 1 (fit_trainer, []) 0 = Ok (t', es') /\
    (forall b, In b (seq 0 2) -> reports (layer b) 4 fit_g fit_theta (before b)) /\
    (forall b, In b (seq 0 2) -> reports (layer b) 4 fit_g (params_of (nodes fit_g) (map snd (layers t'))) (after b)) /\
    (rsum after (seq 0 2) < rsum before (seq 0 2))%R.
Proof.
  destruct C76_descent_hypotheses as (st & Tr & g0 & E0 & Eg & Hf & Fa & Ft & Ly & Sm & Mo & loss & slope & Hl & Dl & Hs).
  destruct (C76_descent _ _ _ _ Tr) as (g0' & g' & E0' & Eg' & H). assert (g0' = g0) by congruence. subst g0'. assert (g' = fit_g) by congruence. subst g'.
  destruct (H (fun _ _ => []) 4 (fun _ => 1%R) fit_settings fit_data fit_trainer 1 0 []) as (eta & He & Hd); try reflexivity; try exact Hf; try exact Fa; try exact Ft; try exact Ly; try exact Mo.
  - intros b _. apply Sm.
  - cbn. lra.
  - cbn. lia.
  - cbn. lia.
  - intros n _. lra.
  - exists 1, 1, (mkDims 1 1 1 1), 0, loss, slope. split; [cbn; auto|]. split; [reflexivity|]. split; [cbn; lia|]. split; [exact Hl|]. split; [exact Dl|]. lra.
  - exists st, eta. split; [exact He|]. exact Hd.
Qed.

(** The network of C75's example, with a different image in every pass. *)
Example C76_network_hypotheses : exists st theta, trainable net_heap net_history
  (fun b n => match n with 0 => PInput [net_image; net_map; net_map; weight_dims net_map] [repeat (INR b) 6; repeat 0%R 8; repeat 0%R 8; repeat 1%R 4] | _ => net_parts st n end) theta.
Proof.
  destruct C75_network_hypotheses as (st & theta & H1 & H2 & H3 & H4 & H5 & [C1 C2 C3 C4 C5 C6] & H7 & H8 & _). exists st, theta.
  constructor; auto.
  - intros b. constructor.
    + intros n nd Hn E. specialize (C1 n nd Hn E). replace (takes _) with (takes (net_parts st n)) by (destruct n; reflexivity).
      induction C1 as [|c d cs ds (q & Eq & Em) _ IH]; constructor; [|exact IH]. exists q. split; [exact Eq|]. destruct q; exact Em.
    + intros n nd Hn E. specialize (C2 n nd Hn E). destruct n; exact C2.
    + intros n nd Hn E. specialize (C3 n nd Hn E). destruct n; exact C3.
    + intros n Hn. specialize (C4 n Hn). destruct n; [|exact C4]. repeat constructor.
    + intros n nd Hn E. specialize (C5 n nd Hn E). destruct n; exact C5.
    + intros n Hn. specialize (C6 n Hn). destruct n; exact C6.
  - intros b n Hn. destruct n; reflexivity.
  - intros n Hn. specialize (H7 n Hn). destruct n; exact H7.
Qed.

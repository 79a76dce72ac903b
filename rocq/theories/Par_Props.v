(** C56: parallel loops.  Every execution of the loops marked [#pragma omp parallel for], with any
    number of threads and any schedule, is free of data races and ends with the result of the
    sequential loop.  See [Par_Model.always_ends_in]. *)
From Verif Require Import Base BaseFacts LoopFacts Tensor_Model Tensor_Spec Tensor_Proofs Num Math_Model Math_Spec Math_Proofs
  Conv_Proofs Conv_Props Layers_Model Layers_Proofs Pool_Model Pool_Proofs LRN_Model LRN_Proofs Act_Model Act_Proofs Accumulate_Model
  FloatOps Float32 Dataset_Model Par_Model Par_Proofs.

(** Every execution ends: each step makes the remaining work smaller. *)
Theorem C56_terminates : forall {D} (comb : D -> D -> D) st st', step comb st st' -> work st' < work st.
Proof. intros. eapply step_work; eauto. Qed.
Print Assumptions C56_terminates.

(** Any loop: what is needed is that the sequential loop succeeds and that different iterations
    store to different elements. *)
Theorem C56_loop : forall {D} (comb : D -> D -> D) b b' n ops, exec_with comb (for_ n ops) b = Ok b' ->
  (forall i j a v v', i < n -> j < n -> i <> j -> In (a, Ok v) (ops i) -> In (a, Ok v') (ops j) -> False) ->
  always_ends_in comb [b] n (fun i => on 0 (ops i)) [b'].
Proof. intros. now apply parallel_one. Qed.
Print Assumptions C56_loop.

(** Without the second condition the statement is false: two iterations adding to one element
    may lose an update. *)
Theorem C56_shared_element_refuted : exists n ops b b', exec_with Z.add (for_ n ops) b = Ok b' /\
  exists m ts, steps Z.add (start [b] n (fun i => on 0 (ops i))) (Running m ts) /\ done ts /\ m <> [b'].
Proof.
  exists 2, (fun _ => [(0, Ok 1%Z)]), [0%Z], [2%Z]. split; [reflexivity|]. exists [[1%Z]], [([], None); ([], None)].
  split; [|split; [intros t [<-|[<-|[]]]; reflexivity|discriminate]].
  eapply steps_next; [eapply steps_next; [eapply steps_next; [eapply steps_next; [apply steps_refl|]|]|]|].
  - apply step_read with (i := 0) (k := 0) (a := 0) (v := 1%Z) (rest := []) (old := 0%Z); reflexivity.
  - apply step_read with (i := 1) (k := 0) (a := 0) (v := 1%Z) (rest := []) (old := 0%Z); reflexivity.
  - apply step_write with (i := 0) (k := 0) (a := 0) (v := 1%Z) (rest := []) (old := 0%Z); reflexivity.
  - exact (step_write Z.add 1 0 0 1%Z [] 0%Z [[1%Z]] [([], None); ([(0, 0, Ok 1%Z)], Some 0%Z)] eq_refl).
Qed.
Print Assumptions C56_shared_element_refuted.

(** ** TensorMath *)
Theorem C56_gemm : forall {D} (K : num D) transA transB m n k alpha A smA ldA B smB ldB beta C smC ldC C', n <= ldC ->
  gemm K true transA transB m n k alpha A smA ldA B smB ldB beta C smC ldC = Ok C' ->
  always_ends_in (scale_add K alpha beta) [buf C] m (fun i => on 0 (gemm_row K transA transB n k A smA ldA B smB ldB C smC ldC i)) [buf C'].
Proof.
  intros D K transA transB m n k alpha A smA ldA B smB ldB beta C smC ldC C' Hn E. apply parallel_run; [exact E|].
  intros i j a v v' _ _ Hne H1 H2. apply in_for_one in H1 as (x & Hx & E1), H2 as (y & Hy & E2). injection E1 as -> _. injection E2 as E2 _.
  apply Hne. apply (block_inj ldC i x j y n); lia.
Qed.
Print Assumptions C56_gemm.

Theorem C56_gemv : forall {D} (K : num D) transA m n alpha A smA ldA X smX incX beta Y smY incY Y', 0 < incY ->
  gemv K true transA m n alpha A smA ldA X smX incX beta Y smY incY = Ok Y' ->
  always_ends_in (scale_add K alpha beta) [buf Y] m (fun i => on 0 [(offset Y 0 0 0 smY + i * incY, gemv_sum K transA n A smA ldA X smX incX i)]) [buf Y'].
Proof.
  intros D K transA m n alpha A smA ldA X smX incX beta Y smY incY Y' Hi E. apply parallel_run; [exact E|].
  intros i j a v v' _ _ Hne [H1|[]] [H2|[]]. injection H1 as <- _. injection H2 as H2 _. apply Hne.
  apply (Nat.mul_cancel_r i j incY); lia.
Qed.
Print Assumptions C56_gemv.

Theorem C56_im2col : forall {D} (K : num D) g (source target target' : tensor D) img, geometry_ok g -> wf source ->
  has_shape source (g_samples g) (g_width g) (g_height g) (g_maps g) -> contents source img ->
  has_shape target (col_maps g) (o_width g) (o_height g) (g_samples g) ->
  im2col K g source target = Ok target' ->
  always_ends_in overwrite [buf target] (g_samples g) (fun s => on 0 (im2col_sample K g source target s)) [buf target'].
Proof.
  intros D K g source target target' img Hg Ws Hs Ci Ht E. unfold im2col in E. rewrite (zero_stride_ok g Hg), (size_matches_ok g target Hg Ht) in E.
  apply parallel_stores; [exact E|]. intros i j a v v' Hi Hj Hne H1 H2.
  apply (im2col_sample_in K g source target img) in H1, H2; auto.
  destruct H1 as (tm & oy & ox & A1 & A2 & A3 & -> & _), H2 as (tm' & oy' & ox' & B1 & B2 & B3 & E2 & _).
  destruct Ht as (T1 & T2 & T3 & T4). apply offset_inj in E2; [tauto| |]; repeat split; lia.
Qed.
Print Assumptions C56_im2col.

Lemma element_disjoint {D} n (val : nat -> res D) : disjoint n (fun e => [(e, val e)]).
Proof. intros i j a v v' _ _ Hne [H1|[]] [H2|[]]. injection H1 as <- _. injection H2 as <- _. now apply Hne. Qed.

Theorem C56_add : forall {D} (K : num D) (a b target target' : tensor D), add_tensors K a b target = Ok target' ->
  always_ends_in overwrite [buf target] (elements a) (fun e => on 0 (add_elt K a b e)) [buf target'].
Proof.
  intros D K a b target target' E. unfold add_tensors in E. destruct (_ || _); [discriminate|]. apply parallel_stores; [exact E|]. apply element_disjoint.
Qed.
Print Assumptions C56_add.

(** ** Activations (all activation layers are instances of these loops) *)
Theorem C56_activation_forward : forall {D} (fwd : D -> D) (input output output' : tensor D), act_ff fwd input output = Ok output' ->
  always_ends_in overwrite [buf output] (elements input) (fun e => on 0 [(e, v <- elt input e ;; Ok (fwd v))]) [buf output'].
Proof. intros D fwd input output output' E. apply parallel_stores; [exact E|]. apply element_disjoint. Qed.
Print Assumptions C56_activation_forward.
Theorem C56_activation_backward : forall {D} (bwd : D -> D -> D) (from output_delta input_delta input_delta' : tensor D),
  act_bp bwd from output_delta input_delta = Ok input_delta' ->
  always_ends_in overwrite [buf input_delta] (elements from)
    (fun e => on 0 [(e, od <- elt output_delta e ;; v <- elt from e ;; Ok (bwd od v))]) [buf input_delta'].
Proof. intros D bwd from od id id' E. apply parallel_stores; [exact E|]. apply element_disjoint. Qed.
Print Assumptions C56_activation_backward.
Theorem C56_softmax_forward : forall {D} (K : num D) ndiv nexp (input output output' : tensor D), same_shape output input ->
  0 < height input -> 0 < maps input -> softmax_ff K ndiv nexp input output = Ok output' ->
  always_ends_in overwrite [buf output] (samples input) (fun s => on 0 (softmax_ff_sample K ndiv nexp input output s)) [buf output'].
Proof.
  intros D K ndiv nexp input output output' (S1 & S2 & S3 & S4) Hh Hm E. apply parallel_stores; [exact E|]. apply (sample_disjoint output).
  intros s a v Hs Hin. apply in_for_one in Hin as (x & Hx & E1). injection E1 as -> _. exists x, 0, 0. split; [repeat split; lia|reflexivity].
Qed.
Print Assumptions C56_softmax_forward.
Theorem C56_softmax_backward : forall {D} (output_delta input_delta input_delta' : tensor D), softmax_bp output_delta input_delta = Ok input_delta' ->
  always_ends_in overwrite [buf input_delta] (elements input_delta) (fun e => on 0 [(e, elt output_delta e)]) [buf input_delta'].
Proof. intros D od id id' E. apply parallel_stores; [exact E|]. apply element_disjoint. Qed.
Print Assumptions C56_softmax_backward.

(** ** Gradient accumulation *)
Theorem C56_accumulate : forall {D} (zero : D) add samples eps deltas_out delta_in delta_in',
  accumulate D zero add samples eps deltas_out delta_in = Ok delta_in' ->
  exists cleared, accumulate_clear D zero delta_in = Ok cleared /\
    always_ends_in add [cleared] samples (fun s => on 0 (accumulate_sample D eps deltas_out s)) [delta_in'].
Proof.
  intros D zero add samples eps outs di di' E. unfold accumulate in E. destruct (accumulate_clear D zero di) as [c| |]; [|discriminate|discriminate].
  exists c. split; [reflexivity|]. cbn [bind] in E. apply parallel_one; [exact E|].
  intros i j a v v' _ _ Hne H1 H2. apply in_for in H1 as (e & He & H1), H2 as (e' & He' & H2).
  apply in_for_one in H1 as (x & Hx & E1), H2 as (y & Hy & E2). injection E1 as -> _. injection E2 as E2 _.
  apply Hne. apply (mix_inj i j e e' eps); auto.
Qed.
Print Assumptions C56_accumulate.

(** ** Pooling *)

(** One output of the forward loop stores to three tensors. *)
Definition pool_acts rw rh (input mix miy output : tensor f32) (s : nat) : list (action f32) :=
  pool_loop (maps input) (width output) (height output) (fun map ox oy =>
    let best := window_max f32_order input (region_cells rw rh ox oy) map s in
    [(0, offset mix ox oy map s, b <- best ;; Ok (uint_to_f (fst (snd b))));
     (1, offset miy ox oy map s, b <- best ;; Ok (uint_to_f (snd (snd b))));
     (2, offset output ox oy map s, b <- best ;; Ok (fst b))]).

Lemma pool_loop_in {A} mm ow oh (body : nat -> nat -> nat -> list A) v : In v (pool_loop mm ow oh body) <->
  exists m ox oy, m < mm /\ ox < ow /\ oy < oh /\ In v (body m ox oy).
Proof.
  unfold pool_loop. rewrite in_for. split.
  - intros (m & Hm & H). apply in_for in H as (ox & Hx & H). apply in_for in H as (oy & Hy & H). exists m, ox, oy. auto.
  - intros (m & ox & oy & Hm & Hx & Hy & H). exists m. split; [exact Hm|]. apply in_for. exists ox. split; [exact Hx|]. apply in_for. eauto.
Qed.
Lemma only_pool_loop {D} k mm ow oh (body : nat -> nat -> nat -> list (action D)) :
  only k (pool_loop mm ow oh body) = pool_loop mm ow oh (fun m x y => only k (body m x y)).
Proof.
  unfold pool_loop. rewrite only_for. apply for_ext. intros m _. rewrite only_for. apply for_ext. intros x _. now rewrite only_for.
Qed.
Lemma pool_disjoint (t : tensor f32) ss mm ow oh n (val : nat -> nat -> nat -> nat -> res f32) : has_shape t ss ow oh mm -> n <= ss ->
  disjoint n (fun s => pool_loop mm ow oh (fun m x y => [(offset t x y m s, val m x y s)])).
Proof.
  intros (H1 & H2 & H3 & H4) Hn. apply (sample_disjoint t). intros s a v Hs Hin. apply pool_loop_in in Hin as (m & x & y & Hm & Hx & Hy & [E|[]]).
  injection E as <- _. exists x, y, m. split; [repeat split; lia|reflexivity].
Qed.

Theorem C56_pooling_forward : forall rw rh w h mm ss (input mix miy output mix' miy' output' : tensor f32),
  samples input = ss -> maps input = mm -> has_shape mix ss w h mm -> has_shape miy ss w h mm -> has_shape output ss w h mm ->
  pool_ff f32_order rw rh input mix miy output = Ok (mix', miy', output') ->
  always_ends_in overwrite [buf mix; buf miy; buf output] ss (pool_acts rw rh input mix miy output) [buf mix'; buf miy'; buf output'].
Proof.
  intros rw rh w h mm ss input mix miy output mix' miy' output' Hs Hm H1 H2 H3 E. unfold pool_ff in E. rewrite Hs, Hm in E.
  pose proof H3 as (O1 & O2 & O3 & O4). rewrite O2, O3 in E.
  destruct (run_stores mix _) as [m1| |] eqn:E1; [|discriminate|discriminate]. cbn [bind] in E.
  destruct (run_stores miy _) as [m2| |] eqn:E2; [|discriminate|discriminate]. cbn [bind] in E.
  destruct (run_stores output _) as [m3| |] eqn:E3; [|discriminate|discriminate]. cbn [bind] in E. injection E as -> -> ->.
  assert (P : forall k (t : tensor f32) what, (forall s, only k (pool_acts rw rh input mix miy output s) =
    pool_ff_sample f32_order rw rh mm w h input t what s) -> has_shape t ss w h mm ->
    disjoint ss (fun s => only k (pool_acts rw rh input mix miy output s))).
  { intros k t what Ho Ht i j a v v' Hi Hj Hne A B. rewrite Ho in A, B. revert i j a v v' Hi Hj Hne A B.
    apply (pool_disjoint t ss mm w h ss (fun m x y s => best <- window_max f32_order input (region_cells rw rh x y) m s ;; Ok (what best)) Ht). lia. }
  assert (P0 : forall s, only 0 (pool_acts rw rh input mix miy output s) = pool_ff_sample f32_order rw rh mm w h input mix (fun best => uint_to_f (fst (snd best))) s)
    by (intros s; unfold pool_acts, pool_ff_sample; rewrite only_pool_loop, Hm, O2, O3; reflexivity).
  assert (P1 : forall s, only 1 (pool_acts rw rh input mix miy output s) = pool_ff_sample f32_order rw rh mm w h input miy (fun best => uint_to_f (snd (snd best))) s)
    by (intros s; unfold pool_acts, pool_ff_sample; rewrite only_pool_loop, Hm, O2, O3; reflexivity).
  assert (P2 : forall s, only 2 (pool_acts rw rh input mix miy output s) = pool_ff_sample f32_order rw rh mm w h input output (fun best => fst best) s)
    by (intros s; unfold pool_acts, pool_ff_sample; rewrite only_pool_loop, Hm, O2, O3; reflexivity).
  apply parallel_three.
  - intros i k a rv _ Hin. apply pool_loop_in in Hin as (m & x & y & _ & _ & _ & [X|[X|[X|[]]]]); injection X as <- _ _; lia.
  - rewrite (for_ext _ _ ss (fun s _ => P0 s)). now apply run_stores_buf.
  - rewrite (for_ext _ _ ss (fun s _ => P1 s)). now apply run_stores_buf.
  - rewrite (for_ext _ _ ss (fun s _ => P2 s)). now apply run_stores_buf.
  - eapply P; eauto.
  - eapply P; eauto.
  - eapply P; eauto.
Qed.
Print Assumptions C56_pooling_forward.

(** Backward: the recorded positions are inside the image (the forward loop records such). *)
Theorem C56_pooling_backward : forall mix miy output_delta input_delta input_delta' : tensor f32,
  (forall x y m s fx fy ix iy, get mix x y m s = Ok fx -> get miy x y m s = Ok fy -> f_to_uint fx = Ok ix -> f_to_uint fy = Ok iy ->
     ix < width input_delta /\ iy < height input_delta) ->
  pool_bp f32_num mix miy output_delta input_delta = Ok input_delta' ->
  exists cleared, clear input_delta f32_zero None = Ok cleared /\
    always_ends_in overwrite [buf cleared] (samples input_delta)
      (fun s => on 0 (pool_bp_sample (maps input_delta) (width output_delta) (height output_delta) mix miy output_delta cleared s)) [buf input_delta'].
Proof.
  intros mix miy od id id' Hpos E. unfold pool_bp in E. change (n0 f32_num) with f32_zero in E. destruct (clear id f32_zero None) as [c| |] eqn:Ec; [|discriminate|discriminate].
  exists c. split; [reflexivity|]. cbn [bind] in E. apply parallel_stores; [exact E|]. apply (sample_disjoint c).
  assert (Sc : same_shape c id) by (eapply run_stores_shape; exact Ec).
  intros s a v Hs Hin. apply pool_loop_in in Hin as (m & x & y & Hm & Hx & Hy & [X|[]]).
  destruct (get mix x y m s) as [fx| |] eqn:Ex; [|discriminate|discriminate]. cbn [bind] in X.
  destruct (f_to_uint fx) as [ix| |] eqn:Fx; [|discriminate|discriminate]. cbn [bind] in X.
  destruct (get miy x y m s) as [fy| |] eqn:Ey; [|discriminate|discriminate]. cbn [bind] in X.
  destruct (f_to_uint fy) as [iy| |] eqn:Fy; [|discriminate|discriminate]. cbn [bind store_at] in X. injection X as <- _.
  destruct (Hpos x y m s fx fy ix iy Ex Ey Fx Fy) as [Bx By]. destruct Sc as (C1 & C2 & C3 & C4).
  exists ix, iy, m. split; [repeat split; lia|reflexivity].
Qed.
Print Assumptions C56_pooling_backward.

(** Two tensors. *)
Definition apool_acts rw rh sw sh (input mask output : tensor f32) (s : nat) : list (action f32) :=
  pool_loop (maps input) (width output) (height output) (fun map ox oy =>
    let best := window_max f32_order input (window_cells rw rh sw sh ox oy) map s in
    [(0, offset mask ox oy map s, b <- best ;; Ok (uint_to_f (width input * snd (snd b) + fst (snd b))));
     (1, offset output ox oy map s, b <- best ;; Ok (fst b))]).
Theorem C56_strided_pooling_forward : forall rw rh sw sh w h mm ss (input mask output mask' output' : tensor f32),
  samples input = ss -> maps input = mm -> has_shape mask ss w h mm -> has_shape output ss w h mm ->
  apool_ff f32_order rw rh sw sh input mask output = Ok (mask', output') ->
  always_ends_in overwrite [buf mask; buf output] ss (apool_acts rw rh sw sh input mask output) [buf mask'; buf output'].
Proof.
  intros rw rh sw sh w h mm ss input mask output mask' output' Hs Hm H1 H3 E. unfold apool_ff in E. rewrite Hs, Hm in E.
  pose proof H3 as (O1 & O2 & O3 & O4). rewrite O2, O3 in E.
  destruct (run_stores mask _) as [m1| |] eqn:E1; [|discriminate|discriminate]. cbn [bind] in E.
  destruct (run_stores output _) as [m3| |] eqn:E3; [|discriminate|discriminate]. cbn [bind] in E. injection E as -> ->.
  assert (P : forall k (t : tensor f32) what, (forall s, only k (apool_acts rw rh sw sh input mask output s) =
    apool_ff_sample f32_order rw rh sw sh mm w h input t what s) -> has_shape t ss w h mm ->
    disjoint ss (fun s => only k (apool_acts rw rh sw sh input mask output s))).
  { intros k t what Ho Ht i j a v v' Hi Hj Hne A B. rewrite Ho in A, B. revert i j a v v' Hi Hj Hne A B.
    apply (pool_disjoint t ss mm w h ss (fun m x y s => best <- window_max f32_order input (window_cells rw rh sw sh x y) m s ;; Ok (what best)) Ht). lia. }
  assert (P0 : forall s, only 0 (apool_acts rw rh sw sh input mask output s) =
    apool_ff_sample f32_order rw rh sw sh mm w h input mask (fun best => uint_to_f (width input * snd (snd best) + fst (snd best))) s)
    by (intros s; unfold apool_acts, apool_ff_sample; rewrite only_pool_loop, Hm, O2, O3; reflexivity).
  assert (P1 : forall s, only 1 (apool_acts rw rh sw sh input mask output s) = apool_ff_sample f32_order rw rh sw sh mm w h input output (fun best => fst best) s)
    by (intros s; unfold apool_acts, apool_ff_sample; rewrite only_pool_loop, Hm, O2, O3; reflexivity).
  apply parallel_two.
  - intros i k a rv _ Hin. apply pool_loop_in in Hin as (m & x & y & _ & _ & _ & [X|[X|[]]]); injection X as <- _ _; lia.
  - rewrite (for_ext _ _ ss (fun s _ => P0 s)). now apply run_stores_buf.
  - rewrite (for_ext _ _ ss (fun s _ => P1 s)). now apply run_stores_buf.
  - eapply P; eauto.
  - eapply P; eauto.
Qed.
Print Assumptions C56_strided_pooling_forward.

Theorem C56_strided_pooling_backward : forall rw rh sw sh (mask output_delta input_delta input_delta' : tensor f32),
  apool_bp f32_num rw rh sw sh mask output_delta input_delta = Ok input_delta' ->
  always_ends_in overwrite [buf input_delta] (samples input_delta)
    (fun s => on 0 (apool_bp_sample f32_num rw rh sw sh mask output_delta input_delta s)) [buf input_delta'].
Proof.
  intros rw rh sw sh mask od id id' E. unfold apool_bp in E. destruct ((sw =? 0) || (sh =? 0)); [discriminate|].
  apply parallel_stores; [exact E|]. apply (sample_disjoint id). intros s a v Hs Hin.
  apply in_for in Hin as (m & Hm & Hin). apply in_for in Hin as (x & Hx & Hin). apply in_for_one in Hin as (y & Hy & X). injection X as -> _.
  exists x, y, m. split; [repeat split; lia|reflexivity].
Qed.
Print Assumptions C56_strided_pooling_backward.

(** ** Concatenation *)
Theorem C56_concat_forward : forall {D} (K : num D) (a b output output' : tensor D) ss w h ma mb,
  has_shape a ss w h ma -> has_shape b ss w h mb -> has_shape output ss w h (ma + mb) ->
  concat_ff K a b output = Ok output' ->
  always_ends_in overwrite [buf output] ss (fun s => on 0 (flat_map (copy_stores output) (concat_ff_sample a b s))) [buf output'].
Proof.
  intros D K a b output output' ss w h ma mb (A1 & A2 & A3 & A4) (B1 & B2 & B3 & B4) (O1 & O2 & O3 & O4) E.
  unfold concat_ff in E. rewrite A1 in E. apply (parallel_copies K); [exact E|].
  intros s c Hs Hin. apply in_app_or in Hin as [Hin|Hin]; apply in_for_one in Hin as (m & Hm & ->); cbn; repeat split; lia.
Qed.
Print Assumptions C56_concat_forward.

Lemma flat_map_on {D} k (f : copy_call (D := D) -> list (nat * res D)) l : on k (flat_map f l) = flat_map (fun c => on k (f c)) l.
Proof. unfold on. induction l as [|c l IH]; [reflexivity|]. cbn [flat_map]. now rewrite map_app, IH. Qed.

(** Backward: the iteration of a sample copies to both inputs. *)
Theorem C56_concat_backward : forall {D} (K : num D) (output_delta a_delta b_delta a' b' : tensor D) ss w h ma mb,
  has_shape output_delta ss w h (ma + mb) -> has_shape a_delta ss w h ma -> has_shape b_delta ss w h mb ->
  concat_bp K output_delta a_delta b_delta = Ok (a', b') ->
  always_ends_in overwrite [buf a_delta; buf b_delta] ss
    (fun s => on 0 (flat_map (copy_stores a_delta) (concat_bp_a output_delta ma s)) ++
              on 1 (flat_map (copy_stores b_delta) (concat_bp_b output_delta ma mb s))) [buf a'; buf b'].
Proof.
  intros D K od a b a' b' ss w h ma mb (O1 & O2 & O3 & O4) (A1 & A2 & A3 & A4) (B1 & B2 & B3 & B4) E.
  unfold concat_bp in E. rewrite A1, A4, B4 in E.
  destruct (copy_maps K _ a) as [a1| |] eqn:Ea; [|discriminate|discriminate]. cbn [bind] in E.
  destruct (copy_maps K _ b) as [b1| |] eqn:Eb; [|discriminate|discriminate]. cbn [bind] in E. injection E as -> ->.
  assert (Fa : forall s c, s < ss -> In c (concat_bp_a od ma s) -> copy_fits a c /\ let '(_, _, _, ts, _) := c in ts = s)
    by (intros s c Hs Hin; apply in_for_one in Hin as (m & Hm & ->); cbn; repeat split; lia).
  assert (Fb : forall s c, s < ss -> In c (concat_bp_b od ma mb s) -> copy_fits b c /\ let '(_, _, _, ts, _) := c in ts = s)
    by (intros s c Hs Hin; apply in_for_one in Hin as (m & Hm & ->); cbn; repeat split; lia).
  rewrite (copy_maps_stores K a) in Ea; [|apply same_shape_refl|intros c Hc; apply in_for in Hc as (s & Hs & Hc); exact (proj1 (Fa s c Hs Hc))].
  rewrite (copy_maps_stores K b) in Eb; [|apply same_shape_refl|intros c Hc; apply in_for in Hc as (s & Hs & Hc); exact (proj1 (Fb s c Hs Hc))].
  rewrite flat_map_for in Ea, Eb.
  assert (P0 : forall s, only 0 (on 0 (flat_map (copy_stores a) (concat_bp_a od ma s)) ++ on 1 (flat_map (copy_stores b) (concat_bp_b od ma mb s))) =
    flat_map (copy_stores a) (concat_bp_a od ma s)) by (intros s; rewrite only_app, !only_on; apply app_nil_r).
  assert (P1 : forall s, only 1 (on 0 (flat_map (copy_stores a) (concat_bp_a od ma s)) ++ on 1 (flat_map (copy_stores b) (concat_bp_b od ma mb s))) =
    flat_map (copy_stores b) (concat_bp_b od ma mb s)) by (intros s; rewrite only_app, !only_on; reflexivity).
  apply parallel_two.
  - intros i k x rv _ Hin. apply in_app_or in Hin as [Hin|Hin]; apply in_on in Hin as [-> _]; lia.
  - rewrite (for_ext _ _ ss (fun s _ => P0 s)). now apply run_stores_buf.
  - rewrite (for_ext _ _ ss (fun s _ => P1 s)). now apply run_stores_buf.
  - apply (sample_disjoint a). intros s x v Hs Hin. rewrite P0 in Hin. apply in_flat_map in Hin as (c & Hc & Hin). destruct (Fa s c Hs Hc) as [Hf Ht].
    pose proof (copy_stores_sample a c x (Ok v) Hf Hin) as Hsam. destruct c as [[[[source sx] sm] ts] tm]. now subst ts.
  - apply (sample_disjoint b). intros s x v Hs Hin. rewrite P1 in Hin. apply in_flat_map in Hin as (c & Hc & Hin). destruct (Fb s c Hs Hc) as [Hf Ht].
    pose proof (copy_stores_sample b c x (Ok v) Hf Hin) as Hsam. destruct c as [[[[source sx] sm] ts] tm]. now subst ts.
Qed.
Print Assumptions C56_concat_backward.

(** ** Borders *)
Theorem C56_border_forward : forall {D} (K : num D) bx by_ (input output output' : tensor D) ss w h mm,
  has_shape input ss w h mm -> has_shape output ss (w + bx) (h + by_) mm ->
  resize_ff K bx by_ input output = Ok output' ->
  exists cleared, clear output (n0 K) None = Ok cleared /\
    always_ends_in overwrite [buf cleared] ss (fun s => on 0 (resize_ff_sample bx by_ input cleared s)) [buf output'].
Proof.
  intros D K bx by_ input output output' ss w h mm (I1 & I2 & I3 & I4) (O1 & O2 & O3 & O4) E. unfold resize_ff in E. rewrite I1 in E.
  destruct (clear output (n0 K) None) as [c| |] eqn:Ec; [|discriminate|discriminate]. exists c. split; [reflexivity|]. cbn [bind] in E.
  assert (Sc : same_shape c output) by (eapply run_stores_shape; exact Ec). destruct Sc as (C1 & C2 & C3 & C4).
  apply parallel_stores; [exact E|]. apply (sample_disjoint c). intros s a v Hs Hin.
  apply in_for in Hin as (m & Hm & Hin). apply in_for in Hin as (y & Hy & Hin). apply in_for_one in Hin as (x & Hx & X). injection X as -> _.
  pose proof (Nat.div_le_upper_bound bx 2 bx ltac:(lia) ltac:(lia)) as Q1. pose proof (Nat.div_le_upper_bound by_ 2 by_ ltac:(lia) ltac:(lia)) as Q2.
  exists (bx / 2 + x), (y + by_ / 2), m. split; [repeat split; lia|]. change (fst (Nat.divmod bx 1 0 1)) with (bx / 2). change (fst (Nat.divmod by_ 1 0 1)) with (by_ / 2). unfold offset. ring.
Qed.
Print Assumptions C56_border_forward.
Theorem C56_border_backward : forall {D} (K : num D) bx by_ (output_delta input_delta input_delta' : tensor D),
  resize_bp K true bx by_ output_delta input_delta = Ok input_delta' ->
  exists cleared, clear input_delta (n0 K) None = Ok cleared /\
    always_ends_in overwrite [buf cleared] (samples input_delta) (fun s => on 0 (resize_bp_sample bx by_ output_delta cleared s)) [buf input_delta'].
Proof.
  intros D K bx by_ od id id' E. unfold resize_bp in E.
  destruct (clear id (n0 K) None) as [c| |] eqn:Ec; [|discriminate|discriminate]. exists c. split; [reflexivity|]. cbn [bind] in E.
  assert (Sc : same_shape c id) by (eapply run_stores_shape; exact Ec). destruct Sc as (C1 & C2 & C3 & C4).
  apply parallel_stores; [exact E|]. apply (sample_disjoint c). intros s a v Hs Hin.
  apply in_for in Hin as (m & Hm & Hin). apply in_for in Hin as (y & Hy & Hin). apply in_for_one in Hin as (x & Hx & X). injection X as -> _.
  exists x, y, m. split; [repeat split; lia|]. unfold offset. ring.
Qed.
Print Assumptions C56_border_backward.

(** ** Spatial prior *)
Definition prior_sample {D} (ratio : nat -> nat -> D) (input output : tensor D) (s : nat) : list (nat * res D) :=
  flat_map (copy_stores output) (prior_copies input s) ++ prior_coordinates ratio input output s.
Theorem C56_prior_forward : forall {D} (K : num D) ratio (input output output' : tensor D) ss w h mm,
  has_shape input ss w h mm -> has_shape output ss w h (mm + 2) ->
  prior_ff K ratio input output = Ok output' ->
  exists cleared, clear output (n1 K) None = Ok cleared /\
    always_ends_in overwrite [buf cleared] ss (fun s => on 0 (prior_sample ratio input cleared s)) [buf output'].
Proof.
  intros D K ratio input output output' ss w h mm (I1 & I2 & I3 & I4) (O1 & O2 & O3 & O4) E. unfold prior_ff in E. rewrite I1 in E.
  destruct (clear output (n1 K) None) as [c| |] eqn:Ec; [|discriminate|discriminate]. exists c. split; [reflexivity|]. cbn [bind] in E.
  assert (Sc : same_shape c output) by (eapply run_stores_shape; exact Ec). destruct Sc as (C1 & C2 & C3 & C4).
  assert (Fc : forall s cl, s < ss -> In cl (prior_copies input s) -> copy_fits c cl /\ let '(_, _, _, ts, _) := cl in ts = s).
  { intros s cl Hs Hin. apply in_for_from in Hin as (m & Hm & Hin). apply in_for_one in Hin as (y & Hy & ->). cbn. repeat split; lia. }
  apply parallel_stores.
  - rewrite <- E. unfold for_. clear E. assert (Hall : forall s, In s (seq 0 ss) -> s < ss) by (intros s Hs; apply in_seq in Hs; lia).
    assert (G : forall l t, (forall s, In s l -> s < ss) -> same_shape t c ->
      run_stores t (flat_map (prior_sample ratio input c) l) =
      foldm (fun t0 sample => t1 <- copy_maps K (prior_copies input sample) t0 ;; run_stores t1 (prior_coordinates ratio input t1 sample)) l t).
    { clear Hall. induction l as [|s l IH]; intros t Hl St; [reflexivity|]. cbn [flat_map foldm].
      rewrite (copy_maps_stores K c _ t St) by (intros cl Hcl; exact (proj1 (Fc s cl (Hl s (or_introl eq_refl)) Hcl))).
      unfold prior_sample at 1. rewrite <- app_assoc, run_stores_app.
      destruct (run_stores t (flat_map (copy_stores c) (prior_copies input s))) as [t1| |] eqn:E1; [|reflexivity|reflexivity]. cbn [bind].
      assert (S1 : same_shape t1 c) by (eapply same_shape_trans; [eapply run_stores_shape; exact E1|exact St]).
      rewrite run_stores_app. replace (prior_coordinates ratio input t1 s) with (prior_coordinates ratio input c s).
      2:{ unfold prior_coordinates. apply for_ext. intros y _. apply for_ext. intros x _. now rewrite !(same_shape_offset t1 c _ _ _ _ S1). }
      destruct (run_stores t1 (prior_coordinates ratio input c s)) as [t2| |] eqn:E2; [|reflexivity|reflexivity]. cbn [bind].
      apply IH; [intros; apply Hl; now right|]. eapply same_shape_trans; [eapply run_stores_shape; exact E2|exact S1]. }
    apply G; [exact Hall|apply same_shape_refl].
  - apply (sample_disjoint c). intros s a v Hs Hin. apply in_app_or in Hin as [Hin|Hin].
    + apply in_flat_map in Hin as (cl & Hcl & Hin). destruct (Fc s cl Hs Hcl) as [Hf Ht].
      pose proof (copy_stores_sample c cl a (Ok v) Hf Hin) as Hsam. destruct cl as [[[[source sx] sm] ts] tm]. now subst ts.
    + apply in_for in Hin as (y & Hy & Hin). apply in_for in Hin as (x & Hx & [X|[X|[]]]); injection X as <- _;
        [exists x, y, 0|exists x, y, 1]; (split; [repeat split; lia|reflexivity]).
Qed.
Print Assumptions C56_prior_forward.
Theorem C56_prior_backward : forall {D} (K : num D) (output_delta input_delta input_delta' : tensor D) ss w h mm,
  has_shape output_delta ss w h (mm + 2) -> has_shape input_delta ss w h mm ->
  prior_bp K output_delta input_delta = Ok input_delta' ->
  always_ends_in overwrite [buf input_delta] ss (fun s => on 0 (flat_map (copy_stores input_delta) (prior_bp_sample output_delta input_delta s))) [buf input_delta'].
Proof.
  intros D K od id id' ss w h mm (O1 & O2 & O3 & O4) (I1 & I2 & I3 & I4) E. unfold prior_bp in E. rewrite I1 in E.
  apply (parallel_copies K); [exact E|]. intros s c Hs Hin. apply in_for_from in Hin as (m & Hm & Hin). apply in_for_one in Hin as (y & Hy & ->).
  cbn. repeat split; lia.
Qed.
Print Assumptions C56_prior_backward.

(** ** Local response normalization (images not higher than wide) *)
Definition lrn_acts {D} (K : num D) scale (power : D -> D) (ndiv : D -> D -> D) method size (input sums output : tensor D) (s : nat) : list (action D) :=
  lrn_loop input s (fun x y map =>
    [(0, offset sums x y map s, lrn_sum K method size input x y map s);
     (1, offset output x y map s,
      r <- lrn_sum K method size input x y map s ;; v <- get input x y map s ;;
      Ok (ndiv v (power (lrn_base K scale (length (lrn_region method size (width input) (height input) (maps input) x y map)) r))))]).
Lemma lrn_loop_in {D A} (input : tensor D) s (body : nat -> nat -> nat -> list A) v : In v (lrn_loop input s body) <->
  exists x y m, x < height input /\ y < height input /\ m < maps input /\ In v (body x y m).
Proof.
  unfold lrn_loop. rewrite in_for. split.
  - intros (m & Hm & H). apply in_for in H as (y & Hy & H). apply in_for in H as (x & Hx & H). exists x, y, m. auto.
  - intros (x & y & m & Hx & Hy & Hm & H). exists m. split; [exact Hm|]. apply in_for. exists y. split; [exact Hy|]. apply in_for. eauto.
Qed.
Lemma only_lrn_loop {D} k (input : tensor D) s (body : nat -> nat -> nat -> list (action D)) :
  only k (lrn_loop input s body) = lrn_loop input s (fun x y m => only k (body x y m)).
Proof.
  unfold lrn_loop. rewrite only_for. apply for_ext. intros m _. rewrite only_for. apply for_ext. intros x _. now rewrite only_for.
Qed.

Theorem C56_lrn_forward : forall {D} (K : num D) scale power ndiv method size (input sums output sums' output' : tensor D),
  same_shape sums input -> same_shape output input -> height input <= width input ->
  lrn_ff K scale power ndiv method size input sums output = Ok (sums', output') ->
  always_ends_in overwrite [buf sums; buf output] (samples input) (lrn_acts K scale power ndiv method size input sums output) [buf sums'; buf output'].
Proof.
  intros D K scale power ndiv method size input sums output sums' output' S1 S2 Hle E. unfold lrn_ff in E.
  destruct (run_stores sums _) as [a| |] eqn:Ea; [|discriminate|discriminate]. cbn [bind] in E.
  destruct (run_stores output _) as [b| |] eqn:Eb; [|discriminate|discriminate]. cbn [bind] in E. injection E as -> ->.
  assert (P0 : forall s, only 0 (lrn_acts K scale power ndiv method size input sums output s) = lrn_sums_sample K method size input sums s)
    by (intros s; unfold lrn_acts, lrn_sums_sample; rewrite only_lrn_loop; reflexivity).
  assert (P1 : forall s, only 1 (lrn_acts K scale power ndiv method size input sums output s) = lrn_ff_sample K scale power ndiv method size input output s)
    by (intros s; unfold lrn_acts, lrn_ff_sample; rewrite only_lrn_loop; reflexivity).
  apply parallel_two.
  - intros i k x rv _ Hin. unfold lrn_acts in Hin. apply lrn_loop_in in Hin as (x0 & y & m & _ & _ & _ & Hin). cbn [In] in Hin. destruct Hin as [X|[X|[]]]; injection X; lia.
  - rewrite (for_ext _ _ _ (fun s _ => P0 s)). now apply run_stores_buf.
  - rewrite (for_ext _ _ _ (fun s _ => P1 s)). now apply run_stores_buf.
  - apply (sample_disjoint sums). destruct S1 as (A1 & A2 & A3 & A4). intros s a v Hs Hin. rewrite P0 in Hin.
    unfold lrn_sums_sample, lrn_ff_sample in Hin. apply lrn_loop_in in Hin as (x & y & m & Hx & Hy & Hm & [X|[]]). injection X as <- _. exists x, y, m. split; [repeat split; lia|reflexivity].
  - apply (sample_disjoint output). destruct S2 as (A1 & A2 & A3 & A4). intros s a v Hs Hin. rewrite P1 in Hin.
    unfold lrn_sums_sample, lrn_ff_sample in Hin. apply lrn_loop_in in Hin as (x & y & m & Hx & Hy & Hm & [X|[]]). injection X as <- _. exists x, y, m. split; [repeat split; lia|reflexivity].
Qed.
Print Assumptions C56_lrn_forward.

Theorem C56_lrn_backward : forall {D} (K : num D) scale power power1 ndiv two beta method size (input sums output_delta input_delta input_delta' : tensor D),
  0 < size -> same_shape input_delta input -> height input <= width input ->
  lrn_bp K scale power power1 ndiv two beta method size input sums output_delta input_delta = Ok input_delta' ->
  exists cleared, clear input_delta (n0 K) None = Ok cleared /\
    always_ends_in (nadd K) [buf cleared] (samples input)
      (fun s => on 0 (lrn_bp_sample K scale power power1 ndiv two beta method size input sums output_delta cleared s)) [buf input_delta'].
Proof.
  intros D K scale power power1 ndiv two beta method size input sums od id id' Hsz Sd Hle E. unfold lrn_bp in E.
  destruct (clear id (n0 K) None) as [c| |] eqn:Ec; [|discriminate|discriminate]. exists c. split; [reflexivity|]. cbn [bind] in E.
  assert (Sc : same_shape c input) by (eapply same_shape_trans; [eapply run_stores_shape; exact Ec|exact Sd]). pose proof Sc as (C1 & C2 & C3 & C4).
  apply parallel_run; [exact E|]. apply (sample_disjoint c). intros s a v Hs Hin.
  unfold lrn_bp_sample in Hin. apply lrn_loop_in in Hin as (x & y & m & Hx & Hy & Hm & Hin). unfold lrn_bp_element in Hin. apply in_app_or in Hin as [Hin|[X|[]]].
  - apply in_map_iff in Hin as ([[ix iy] im] & X & Hin). injection X as <- _.
    assert (V : valid_pos input ix iy im s).
    { apply (lrn_region_valid method size input x y m s (ix, iy, im) Hsz); [lia|lia|lia|lia|exact Hin]. }
    exists ix, iy, im. split; [now apply (same_shape_valid _ _ _ _ _ _ Sc)|reflexivity].
  - injection X as <- _. exists x, y, m. split; [repeat split; lia|reflexivity].
Qed.
Print Assumptions C56_lrn_backward.

(** ** Error weights of a sample (TensorStreamDataset) *)
Theorem C56_sample_weights : forall error_function mul d (label weight weight' : tensor f32) sample dw dh,
  sample < samples weight -> dw <= width weight -> dh <= height weight -> 0 < maps weight ->
  run_stores weight (weight_stores error_function mul d label weight sample dw dh) = Ok weight' ->
  always_ends_in overwrite [buf weight] dh
    (fun y => on 0 (for_ dw (fun x => [(offset weight x y 0 sample,
       c <- pixel_maximum fgt f32_lowest label x y sample ;; cw <- load (ds_class_weights d) c ;; Ok (mul (error_function x y dw dh) cw))]))) [buf weight'].
Proof.
  intros ef mul d label weight weight' sample dw dh Hs Hw Hh Hm E. apply parallel_stores; [exact E|].
  intros i j a v v' Hi Hj Hne H1 H2. apply in_for_one in H1 as (x & Hx & E1), H2 as (x' & Hx' & E2). injection E1 as -> _. injection E2 as E2 _.
  apply offset_inj in E2; [tauto| |]; repeat split; lia.
Qed.
Print Assumptions C56_sample_weights.

(** Concrete cases: the hypotheses of the theorems above are met, and the loops do something. *)
Example C56_gemm_case : exists C', gemm Z_num true false false 2 2 2 2%Z (zt 1 2 2 1 [1;2;3;4]%Z) 0 2 (zt 1 2 2 1 [5;6;7;8]%Z) 0 2 3%Z (zt 1 2 2 1 [1;1;1;1]%Z) 0 2 = Ok C'
  /\ buf C' = [41;47;89;103]%Z.
Proof. eexists. split; vm_compute; reflexivity. Qed.
Example C56_pooling_case : exists mix' miy' output', pool_ff f32_order 2 2 (mkTensor 2 4 2 1 16 (Some (map (fun n => f_of_Z (Z.of_nat n)) (seq 1 16))))
    (mkTensor 2 2 1 1 4 (Some (repeat f32_zero 4))) (mkTensor 2 2 1 1 4 (Some (repeat f32_zero 4))) (mkTensor 2 2 1 1 4 (Some (repeat f32_zero 4)))
    = Ok (mix', miy', output') /\ buf output' = map f_of_Z [6; 8; 14; 16]%Z.
Proof. eexists _, _, _. split; vm_compute; reflexivity. Qed.
Example C56_concat_case : exists output', concat_ff Z_num (zt 2 1 2 1 [1;2;3;4]%Z) (zt 2 1 2 1 [5;6;7;8]%Z) (zt 2 1 2 2 [0;0;0;0;0;0;0;0]%Z) = Ok output'
  /\ buf output' = [1;2;5;6;3;4;7;8]%Z.
Proof. eexists. split; vm_compute; reflexivity. Qed.
Example C56_border_case : exists output', resize_ff Z_num 2 2 (zt 2 1 1 1 [1;2]%Z) (zt 2 3 3 1 (repeat 9 18)%Z) = Ok output'
  /\ buf output' = [0;0;0;0;1;0;0;0;0;0;0;0;0;2;0;0;0;0]%Z.
Proof. eexists. split; vm_compute; reflexivity. Qed.
Example C56_lrn_case : exists s' o', lrn_ff Z_num (fun _ => 1%Z) (fun z => z) Z.div Across 3 (zt 2 2 2 1 [1;2;3;4;5;6;7;8]%Z)
  (zt 2 2 2 1 (repeat 0 8)%Z) (zt 2 2 2 1 (repeat 0 8)%Z) = Ok (s', o') /\ buf s' = [1;4;9;16;25;36;49;64]%Z.
Proof. eexists _, _. split; vm_compute; reflexivity. Qed.
Example C56_accumulate_case : accumulate Z 0%Z Z.add 2 2 [[1;2;3;4]; [10;20;30;40]]%Z [7;7;7;7]%Z = Ok [11;22;33;44]%Z.
Proof. vm_compute; reflexivity. Qed.

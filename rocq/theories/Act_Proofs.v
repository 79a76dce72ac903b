(** Proofs about activations, HMax and the loss. *)
From Coq Require Import Reals Lra.
From Verif Require Import Base BaseFacts LoopFacts Tensor_Model Tensor_Spec Tensor_Proofs Num RealNum Math_Model Math_Spec Math_Proofs
  Conv_Proofs Conv2_Proofs Layers_Proofs LRN_Grad Act_Model Act_Spec.

Section Elementwise.
Context {D : Type}.

Lemma elt_contents (t u : tensor D) f x y m s : same_shape t u -> contents t f -> valid_pos u x y m s -> elt t (offset u x y m s) = Ok (f x y m s).
Proof.
  intros S C V. rewrite <- (same_shape_offset _ _ _ _ _ _ S). change (get t x y m s = Ok (f x y m s)).
  apply contents_get; [exact C|]. now apply (same_shape_valid _ _ _ _ _ _ S).
Qed.

Lemma elements_shape (t u : tensor D) : wf t -> wf u -> same_shape t u -> elements t = elements u.
Proof. intros [-> _] [-> _] (-> & -> & -> & ->). reflexivity. Qed.

Lemma elementwise_fill (t : tensor D) n (val : nat -> res D) g : wf t -> n = elements t ->
  (forall x y m s, valid_pos t x y m s -> val (offset t x y m s) = Ok (g x y m s)) ->
  exists t', run_stores t (for_ n (fun e => [(e, val e)])) = Ok t' /\ wf t' /\ same_shape t' t /\ contents t' g.
Proof.
  intros W -> Hv. apply run_stores_fill; [exact W| |].
  - intros a rv Hin. apply in_for_one in Hin as (e & He & E). injection E as -> ->. rewrite (proj1 W) in He.
    destruct (offset_surj _ _ He) as (x & y & m & s & V & <-). exists x, y, m, s. auto.
  - intros x y m s V. apply in_for_one. exists (offset t x y m s). split; [rewrite (proj1 W); now apply offset_lt|]. now rewrite Hv.
Qed.

Lemma act_ff_spec fwd (input output : tensor D) f : wf input -> wf output -> same_shape output input -> contents input f ->
  exists output', act_ff fwd input output = Ok output' /\ wf output' /\ same_shape output' output /\ contents output' (fun x y m s => fwd (f x y m s)).
Proof.
  intros Wi Wo So Ci. apply elementwise_fill; [exact Wo|symmetry; now apply elements_shape|].
  intros x y m s V. rewrite (elt_contents input output f); auto using same_shape_sym.
Qed.

Lemma act_bp_spec bwd (from output_delta input_delta : tensor D) g dl : wf from -> wf output_delta -> wf input_delta ->
  same_shape input_delta from -> same_shape output_delta from -> contents from g -> contents output_delta dl ->
  exists t', act_bp bwd from output_delta input_delta = Ok t' /\ wf t' /\ same_shape t' input_delta /\
    contents t' (fun x y m s => bwd (dl x y m s) (g x y m s)).
Proof.
  intros Wf Wo Wi Si So Cf Co. apply elementwise_fill; [exact Wi|symmetry; now apply elements_shape|].
  intros x y m s V. rewrite (elt_contents output_delta input_delta dl), (elt_contents from input_delta g); auto using same_shape_sym.
  apply same_shape_trans with from; auto using same_shape_sym.
Qed.

(** Sum over all elements in memory order. *)
Lemma nsum_elements (K : num D) (HK : ring_laws K) (t : tensor D) F : wf t ->
  nsum K (elements t) F = tensor_sum K (samples t) (width t) (height t) (maps t) (fun x y m s => F (offset t x y m s)).
Proof.
  intros W. rewrite (proj1 W). rewrite (nsum_mix K HK), (nsum_mix K HK), (nsum_mix K HK). unfold tensor_sum.
  apply nsum_ext. intros s _. apply nsum_ext. intros m _. apply nsum_ext. intros y _. apply nsum_ext. intros x _. now rewrite offset_mix.
Qed.
End Elementwise.

Open Scope R_scope.

(** ** The functions *)
Lemma exp_plus_pos x : 0 < 1 + exp x.
Proof. pose proof (exp_pos x). lra. Qed.

Lemma sigmoid_logistic x : sigmoid R_num Rdiv exp x = logistic x.
Proof. unfold sigmoid, logistic. cbn. field. pose proof (exp_plus_pos (- x)). lra. Qed.

Lemma logistic_range x : 0 < logistic x < 1.
Proof.
  unfold logistic. pose proof (exp_pos (- x)). split; [apply Rinv_0_lt_compat; lra|].
  rewrite <- Rinv_1 at 2. apply Rinv_lt_contravar; lra.
Qed.

Lemma logistic_derivative x : derivable_pt_lim logistic x (logistic x * (1 - logistic x)).
Proof.
  pose proof (exp_plus_pos (- x)) as H. pose proof (exp_pos (- x)) as Hp.
  assert (H1 : derivable_pt_lim (fun v => exp (- v)) x (exp (- x) * -1)).
  { apply (derivable_pt_lim_comp Ropp exp); [|apply derivable_pt_lim_exp].
    pose proof (derivable_pt_lim_opp _ _ _ (derivable_pt_lim_id x)) as O. exact O. }
  assert (H2 : derivable_pt_lim (fun v => 1 + exp (- v)) x (0 + exp (- x) * -1)).
  { apply (derivable_pt_lim_plus (fun _ => 1) (fun v => exp (- v))); [apply derive_const|exact H1]. }
  assert (H3 : derivable_pt_lim (fun v => 1 / (1 + exp (- v))) x ((0 * (1 + exp (- x)) - (0 + exp (- x) * -1) * 1) / (1 + exp (- x))²)).
  { apply (derivable_pt_lim_div (fun _ => 1) (fun v => 1 + exp (- v))); [apply derive_const|exact H2|lra]. }
  replace (logistic x * (1 - logistic x)) with ((0 * (1 + exp (- x)) - (0 + exp (- x) * -1) * 1) / (1 + exp (- x))²).
  - eapply derive_ext; [|exact H3]. intros v. unfold logistic. cbv beta. unfold Rdiv. ring.
  - unfold logistic, Rsqr. field. lra.
Qed.

Lemma tangent_tanh x : tangent R_num Rdiv exp 2 x = tanh x.
Proof.
  unfold tangent, tanh, sinh, cosh. cbn. pose proof (exp_pos x) as Hp. pose proof (exp_pos (- x)) as Hn.
  assert (E : exp (2 * x) = exp x * exp x) by (rewrite <- exp_plus; f_equal; ring).
  assert (E1 : exp x * exp (- x) = 1) by (rewrite <- exp_plus, Rplus_opp_r; apply exp_0).
  rewrite E. replace (exp (- x)) with (/ exp x) by (apply Rmult_eq_reg_l with (exp x); [rewrite E1; field; lra|lra]).
  assert (0 < exp x * exp x) by (apply Rmult_lt_0_compat; lra). field. lra.
Qed.

Lemma tanh_range x : -1 < tanh x < 1.
Proof.
  rewrite <- tangent_tanh. unfold tangent. cbn. pose proof (exp_pos (2 * x)) as H.
  assert (0 < 2 / (exp (2 * x) + 1) < 2); [|lra]. split.
  - apply Rdiv_lt_0_compat; lra.
  - unfold Rdiv. apply Rmult_lt_reg_r with (exp (2 * x) + 1); [lra|]. rewrite Rmult_assoc, Rinv_l by lra. lra.
Qed.

Lemma tanh_derivative x : derivable_pt_lim tanh x (1 - tanh x * tanh x).
Proof.
  assert (Hc : cosh x <> 0). { unfold cosh. pose proof (exp_pos x). pose proof (exp_pos (- x)). lra. }
  assert (H : derivable_pt_lim (fun v => sinh v / cosh v) x ((cosh x * cosh x - sinh x * sinh x) / (cosh x)²)).
  { apply (derivable_pt_lim_div sinh cosh); [apply derivable_pt_lim_sinh|apply derivable_pt_lim_cosh|exact Hc]. }
  replace (1 - tanh x * tanh x) with ((cosh x * cosh x - sinh x * sinh x) / (cosh x)²); [exact H|].
  unfold tanh, Rsqr. field. exact Hc.
Qed.


Lemma rectify_ramp x : rectify R_num R_positive x = ramp x.
Proof.
  unfold rectify, ramp, R_positive. cbn. destruct (Rlt_dec 0 x); [rewrite Rmax_right; lra|rewrite Rmax_left; lra].
Qed.

Lemma ramp_derivative x : x <> 0 -> derivable_pt_lim ramp x (if Rlt_dec 0 x then 1 else 0).
Proof.
  intros Hx eps He. destruct (Rlt_dec 0 x) as [Hp|Hn].
  - exists (mkposreal x Hp). cbn. intros h Hh Hb. unfold ramp. apply Rabs_def2 in Hb as [? ?].
    rewrite !Rmax_right by lra. replace ((x + h - x) / h - 1) with 0 by (field; exact Hh). now rewrite Rabs_R0.
  - assert (Hp : 0 < - x) by lra. exists (mkposreal (- x) Hp). cbn. intros h Hh Hb. unfold ramp. apply Rabs_def2 in Hb as [? ?].
    rewrite !Rmax_left by lra. replace ((0 - 0) / h - 0) with 0 by (field; exact Hh). now rewrite Rabs_R0.
Qed.

(** ** Softmax *)
Lemma softmax_sum_spec (input : tensor R) f s : contents input f -> (0 < height input)%nat -> (0 < maps input)%nat -> (s < samples input)%nat ->
  softmax_sum R_num exp input s = Ok (nsum R_num (width input) (fun x => exp (f x 0%nat 0%nat s))).
Proof.
  intros C Hh Hm Hs. unfold softmax_sum. apply (foldm_nsum R_num). intros acc x Hx.
  rewrite (contents_get _ _ _ _ _ _ C) by (repeat split; lia). reflexivity.
Qed.

Lemma nsum_exp_pos n (g : nat -> R) : (0 < n)%nat -> 0 < nsum R_num n (fun x => exp (g x)).
Proof.
  intros Hn. assert (H : forall k, 0 <= nsum R_num k (fun x => exp (g x))).
  { induction k as [|k IH]; cbn; [lra|]. cbn in IH. pose proof (exp_pos (g k)). lra. }
  destruct n as [|n]; [lia|]. cbn. specialize (H n). cbn in H. pose proof (exp_pos (g n)). lra.
Qed.

Lemma softmax_ff_spec (input output : tensor R) f : wf input -> wf output -> same_shape output input -> contents input f ->
  height input = 1%nat -> maps input = 1%nat ->
  exists output', softmax_ff R_num Rdiv exp input output = Ok output' /\ wf output' /\ same_shape output' output /\
    contents output' (fun x y m s => exp (f x 0%nat 0%nat s) / nsum R_num (width input) (fun i => exp (f i 0%nat 0%nat s))).
Proof.
  intros Wi Wo (S1 & S2 & S3 & S4) C Hh Hm. unfold softmax_ff. apply run_stores_fill; [exact Wo| |].
  - intros a rv Hin. apply in_for in Hin as (s & Hs & Hin). apply in_for_one in Hin as (x & Hx & E). injection E as -> ->.
    exists x, 0%nat, 0%nat, s. split; [repeat split; lia|]. split; [reflexivity|].
    rewrite (softmax_sum_spec input f s) by (auto; lia). cbn [bind]. rewrite (contents_get _ _ _ _ _ _ C) by (repeat split; lia). reflexivity.
  - intros x y m s (Hx & Hy & Hm' & Hs). assert (y = 0)%nat by lia. assert (m = 0)%nat by lia. subst y m.
    apply in_for. exists s. split; [lia|]. apply in_for_one. exists x. split; [lia|]. f_equal.
    rewrite (softmax_sum_spec input f s) by (auto; lia). cbn [bind]. rewrite (contents_get _ _ _ _ _ _ C) by (repeat split; lia). reflexivity.
Qed.

(** ** Loss *)
Lemma error_loss_spec lw (first second third : tensor R) f label weight ss w h mm :
  wf first -> wf second -> wf third -> has_shape first ss w h mm -> has_shape second ss w h mm ->
  samples third = ss -> width third = w -> height third = h -> (0 < maps third)%nat ->
  contents first f -> contents second label -> contents third (fun x y _ s => weight x y s) ->
  error_loss R_num Rdiv 2 lw first second third = Ok (weighted_loss lw ss w h mm f label weight).
Proof.
  intros W1 W2 W3 (A1 & A2 & A3 & A4) (B1 & B2 & B3 & B4) T1 T2 T3 T4 C1 C2 C3. unfold error_loss.
  rewrite (foldm_add_list R_num _ (fun p => let '(x, y, m, s) := p in (f x y m s - label x y m s) ^ 2 * weight x y s * lw)).
  - cbn [bind]. unfold weighted_loss. f_equal. f_equal. change (fold_left (nadd R_num) ?l (n0 R_num)) with (lsum R_num l).
    rewrite A1, A2, A3, A4. unfold tensor_sum. rewrite map_for, (lsum_for R_num R_ring_laws). apply nsum_ext. intros s _.
    rewrite map_for, (lsum_for R_num R_ring_laws). apply nsum_ext. intros m _. rewrite map_for, (lsum_for R_num R_ring_laws). apply nsum_ext. intros y _.
    rewrite map_for, (lsum_for R_num R_ring_laws). apply nsum_ext. intros x _. apply (lsum_one R_num R_ring_laws).
  - intros acc [[[x y] m] s] Hin. apply in_for in Hin as (s' & Hs & Hin). apply in_for in Hin as (m' & Hm & Hin).
    apply in_for in Hin as (y' & Hy & Hin). apply in_for_one in Hin as (x' & Hx & E). injection E as -> -> -> ->.
    rewrite (contents_get _ _ _ _ _ _ C1), (contents_get _ _ _ _ _ _ C2), (contents_get _ _ _ _ _ _ C3) by (repeat split; lia).
    cbn [bind nadd nsub nmul R_num]. f_equal. ring.
Qed.

Lemma error_ff_spec lw (first second third first_delta : tensor R) f label weight ss w h mm :
  wf first -> wf second -> wf third -> wf first_delta -> has_shape first ss w h mm -> has_shape second ss w h mm -> has_shape first_delta ss w h mm ->
  samples third = ss -> width third = w -> height third = h -> (0 < maps third)%nat ->
  contents first f -> contents second label -> contents third (fun x y _ s => weight x y s) ->
  exists t', error_ff R_num lw first second third first_delta = Ok t' /\ wf t' /\ same_shape t' first_delta /\
    contents t' (fun x y m s => (f x y m s - label x y m s) * weight x y s * lw).
Proof.
  intros W1 W2 W3 W4 (A1 & A2 & A3 & A4) (B1 & B2 & B3 & B4) (D1 & D2 & D3 & D4) T1 T2 T3 T4 C1 C2 C3. unfold error_ff.
  assert (Hval : forall x y m s, (x < w)%nat -> (y < h)%nat -> (m < mm)%nat -> (s < ss)%nat ->
    (a <- get first x y m s ;; b <- get second x y m s ;; wt <- get third x y 0%nat s ;;
     Ok (nmul R_num (nmul R_num (nsub R_num a b) wt) lw)) = Ok ((f x y m s - label x y m s) * weight x y s * lw)).
  { intros x y m s Hx Hy Hm Hs.
    rewrite (contents_get _ _ _ _ _ _ C1), (contents_get _ _ _ _ _ _ C2), (contents_get _ _ _ _ _ _ C3) by (repeat split; lia). reflexivity. }
  apply run_stores_fill; [exact W4| |].
  - intros a rv Hin. apply in_for in Hin as (s & Hs & Hin). apply in_for in Hin as (m & Hm & Hin).
    apply in_for in Hin as (y & Hy & Hin). apply in_for_one in Hin as (x & Hx & E). injection E as -> ->.
    exists x, y, m, s. split; [repeat split; lia|]. split; [reflexivity|]. apply Hval; lia.
  - intros x y m s (Hx & Hy & Hm & Hs). apply in_for. exists s. split; [lia|]. apply in_for. exists m. split; [lia|].
    apply in_for. exists y. split; [lia|]. apply in_for_one. exists x. split; [lia|]. f_equal. symmetry. apply Hval; lia.
Qed.

(** Derivative of a sum over a tensor in which only the element (jx, jy, jm, js) varies. *)
Lemma derive_tensor_sum ss w h mm (F : nat -> nat -> nat -> nat -> R -> R) (d v0 : R) jx jy jm js :
  (jx < w)%nat -> (jy < h)%nat -> (jm < mm)%nat -> (js < ss)%nat ->
  derivable_pt_lim (F jx jy jm js) v0 d ->
  (forall x y m s, (x, y, m, s) <> (jx, jy, jm, js) -> forall v w, F x y m s v = F x y m s w) ->
  derivable_pt_lim (fun v => tensor_sum R_num ss w h mm (fun x y m s => F x y m s v)) v0 d.
Proof.
  intros Hx Hy Hm Hs Hd Hc.
  set (G := fun x y m s => if (x =? jx)%nat && (y =? jy)%nat && (m =? jm)%nat && (s =? js)%nat then d else 0).
  assert (HG : tensor_sum R_num ss w h mm G = d).
  { unfold tensor_sum. rewrite (nsum_single R_num R_ring_laws ss js); [|lia|].
    - rewrite (nsum_single R_num R_ring_laws mm jm); [|lia|].
      + rewrite (nsum_single R_num R_ring_laws h jy); [|lia|].
        * rewrite (nsum_single R_num R_ring_laws w jx); [|lia|].
          -- unfold G. now rewrite !Nat.eqb_refl.
          -- intros x _ Hne. unfold G. now rewrite (proj2 (Nat.eqb_neq _ _) Hne).
        * intros y _ Hne. apply (nsum_zero_ext R_num R_ring_laws). intros x _. unfold G. rewrite (proj2 (Nat.eqb_neq _ _) Hne), andb_false_r. reflexivity.
      + intros m _ Hne. apply (nsum_zero_ext R_num R_ring_laws). intros y _. apply (nsum_zero_ext R_num R_ring_laws). intros x _.
        unfold G. rewrite (proj2 (Nat.eqb_neq _ _) Hne), andb_false_r. reflexivity.
    - intros s _ Hne. apply (nsum_zero_ext R_num R_ring_laws). intros m _. apply (nsum_zero_ext R_num R_ring_laws). intros y _.
      apply (nsum_zero_ext R_num R_ring_laws). intros x _. unfold G. rewrite (proj2 (Nat.eqb_neq _ _) Hne), andb_false_r. reflexivity. }
  rewrite <- HG. unfold tensor_sum.
  apply (derive_sum ss (fun s v => nsum R_num mm (fun m => nsum R_num h (fun y => nsum R_num w (fun x => F x y m s v))))). intros s _.
  apply (derive_sum mm (fun m v => nsum R_num h (fun y => nsum R_num w (fun x => F x y m s v)))). intros m _.
  apply (derive_sum h (fun y v => nsum R_num w (fun x => F x y m s v))). intros y _.
  apply (derive_sum w (fun x v => F x y m s v)). intros x _. unfold G.
  destruct ((x =? jx)%nat && (y =? jy)%nat && (m =? jm)%nat && (s =? js)%nat) eqn:E.
  - rewrite !andb_true_iff, !Nat.eqb_eq in E. destruct E as (((-> & ->) & ->) & ->). exact Hd.
  - apply derive_ext with (f := fun _ => F x y m s v0); [|apply derive_const]. intros v. apply Hc. intros [= -> -> -> ->].
    rewrite !Nat.eqb_refl in E. discriminate.
Qed.

Lemma loss_derivative lw ss w h mm f label weight jx jy jm js : (jx < w)%nat -> (jy < h)%nat -> (jm < mm)%nat -> (js < ss)%nat ->
  derivable_pt_lim (fun v => weighted_loss lw ss w h mm (set_elt f jx jy jm js v) label weight) (f jx jy jm js)
    ((f jx jy jm js - label jx jy jm js) * weight jx jy js * lw).
Proof.
  intros Hx Hy Hm Hs. unfold weighted_loss.
  set (d := 2 * (f jx jy jm js - label jx jy jm js) * weight jx jy js * lw).
  replace ((f jx jy jm js - label jx jy jm js) * weight jx jy js * lw) with (/ 2 * d) by (unfold d; field).
  assert (H : derivable_pt_lim (fun v => tensor_sum R_num ss w h mm (fun x y m s => (set_elt f jx jy jm js v x y m s - label x y m s) ^ 2 * weight x y s * lw)) (f jx jy jm js) d).
  { apply (derive_tensor_sum ss w h mm (fun x y m s v => (set_elt f jx jy jm js v x y m s - label x y m s) ^ 2 * weight x y s * lw) d (f jx jy jm js) jx jy jm js); auto.
    - set (c := label jx jy jm js). set (wt := weight jx jy js) in *.
      apply derive_ext with (f := fun v => (wt * lw) * ((v - c) * (v - c))).
      { intros v. unfold set_elt. rewrite !Nat.eqb_refl. cbn [andb]. fold c. ring. }
      assert (H1 : derivable_pt_lim (fun v => v - c) (f jx jy jm js) (1 - 0)) by (apply (derivable_pt_lim_minus id (fun _ => c)); [apply derivable_pt_lim_id|apply derive_const]).
      pose proof (derivable_pt_lim_mult _ _ _ _ _ H1 H1) as H2. unfold mult_fct in H2.
      pose proof (derivable_pt_lim_scal _ (wt * lw) _ _ H2) as H3. unfold mult_real_fct in H3. cbv beta in H3.
      replace d with (wt * lw * ((1 - 0) * (f jx jy jm js - c) + (f jx jy jm js - c) * (1 - 0))) by (unfold d, c; ring). exact H3.
    - intros x y m s Hne v v'. unfold set_elt.
      destruct ((x =? jx)%nat && (y =? jy)%nat && (m =? jm)%nat && (s =? js)%nat) eqn:E; [|reflexivity].
      rewrite !andb_true_iff, !Nat.eqb_eq in E. destruct E as (((-> & ->) & ->) & ->). contradiction. }
  pose proof (derivable_pt_lim_scal _ (/ 2) _ _ H) as H3. unfold mult_real_fct in H3.
  eapply derive_ext; [|exact H3]. intros v. cbv beta. unfold Rdiv. ring.
Qed.

Lemma tensor_sum_nonneg ss w h mm F : (forall x y m s, (x < w)%nat -> (y < h)%nat -> (m < mm)%nat -> (s < ss)%nat -> 0 <= F x y m s) ->
  0 <= tensor_sum R_num ss w h mm F.
Proof.
  assert (P : forall n f, (forall i, (i < n)%nat -> 0 <= f i) -> 0 <= nsum R_num n f).
  { intros n f. induction n as [|n IH]; intros H; cbn; [lra|]. assert (0 <= nsum R_num n f) by (apply IH; intros; apply H; lia).
    pose proof (H n ltac:(lia)). cbn in *. lra. }
  intros H. unfold tensor_sum. apply P. intros s Hs. apply P. intros m Hm. apply P. intros y Hy. apply P. intros x Hx. now apply H.
Qed.

Lemma tensor_sum_ext {D} (K : num D) ss w h mm F G :
  (forall x y m s, (x < w)%nat -> (y < h)%nat -> (m < mm)%nat -> (s < ss)%nat -> F x y m s = G x y m s) ->
  tensor_sum K ss w h mm F = tensor_sum K ss w h mm G.
Proof.
  intros H. unfold tensor_sum. apply nsum_ext. intros s Hs. apply nsum_ext. intros m Hm. apply nsum_ext. intros y Hy. apply nsum_ext. intros x Hx. now apply H.
Qed.

(** ** HMax *)
Lemma hmax_logistic a b x : hmax R_num Rdiv exp a b x = logistic (a * x + b).
Proof. unfold hmax, logistic. cbn. field. pose proof (exp_plus_pos (- (a * x + b))). lra. Qed.

Lemma hmax_derive_x a b x : derivable_pt_lim (fun v => logistic (a * v + b)) x (logistic (a * x + b) * (1 - logistic (a * x + b)) * a).
Proof.
  apply (derivable_pt_lim_comp (fun v => a * v + b) logistic); [|apply logistic_derivative].
  assert (H : derivable_pt_lim (fun v => a * v + b) x (a * 1 + 0)).
  { apply (derivable_pt_lim_plus (fun v => a * v) (fun _ => b)); [|apply derive_const].
    apply (derivable_pt_lim_scal id). apply derivable_pt_lim_id. }
  now replace (a * 1 + 0) with a in H by ring.
Qed.
Lemma hmax_derive_a a b x : derivable_pt_lim (fun v => logistic (v * x + b)) a (logistic (a * x + b) * (1 - logistic (a * x + b)) * x).
Proof.
  apply derive_ext with (f := fun v => logistic (x * v + b)); [intros v; f_equal; ring|].
  replace (a * x + b) with (x * a + b) by ring. apply hmax_derive_x.
Qed.
Lemma hmax_derive_b a b x : derivable_pt_lim (fun v => logistic (a * x + v)) b (logistic (a * x + b) * (1 - logistic (a * x + b))).
Proof.
  apply derive_ext with (f := fun v => logistic (1 * v + a * x)); [intros v; f_equal; ring|].
  replace (logistic (a * x + b) * (1 - logistic (a * x + b))) with (logistic (1 * b + a * x) * (1 - logistic (1 * b + a * x)) * 1).
  - apply hmax_derive_x.
  - replace (1 * b + a * x) with (a * x + b) by ring. ring.
Qed.

Lemma hmax_bp_spec lambda mu lr count a b (weights input output output_delta input_delta : tensor R) f dl ss w h mm :
  wf weights -> wf input -> wf output -> wf output_delta -> wf input_delta ->
  get weights 0 0 0 0 = Ok a -> get weights 1 0 0 0 = Ok b ->
  has_shape input ss w h mm -> same_shape output input -> same_shape output_delta input -> same_shape input_delta input ->
  contents input f -> contents output (fun x y m s => logistic (a * f x y m s + b)) -> contents output_delta dl ->
  exists input', hmax_bp R_num Rdiv ln 2 lambda mu lr count weights input output output_delta input_delta =
      Ok (input', (lr * (- count / a * lambda + tensor_sum R_num ss w h mm (fun x y m s => hmax_da R_num Rdiv 2 lambda mu (f x y m s) (logistic (a * f x y m s + b)) 0)),
                   lr * (- count * lambda + tensor_sum R_num ss w h mm (fun x y m s => hmax_db R_num Rdiv 2 lambda mu (f x y m s) (logistic (a * f x y m s + b)) 0)))) /\
    wf input' /\ same_shape input' input_delta /\
    contents input' (fun x y m s => hmax_back R_num Rdiv ln a lambda mu (f x y m s) (logistic (a * f x y m s + b)) (dl x y m s)).
Proof.
  intros Ww Wi Wo Wd Wt Ga Gb (I1 & I2 & I3 & I4) So Sd St Ci Co Cd. unfold hmax_bp. rewrite Ga. cbn [bind]. rewrite Gb. cbn [bind].
  destruct (elementwise_fill input_delta (elements input)
    (fun e => x <- elt input e ;; o <- elt output e ;; od <- elt output_delta e ;; Ok (hmax_back R_num Rdiv ln a lambda mu x o od))
    (fun x y m s => hmax_back R_num Rdiv ln a lambda mu (f x y m s) (logistic (a * f x y m s + b)) (dl x y m s))) as (t' & E & W & S & C).
  { exact Wt. } { symmetry. now apply elements_shape. }
  { intros x y m s V. rewrite (elt_contents input input_delta f) by auto using same_shape_sym. cbn [bind].
    rewrite (elt_contents output input_delta _ _ _ _ _ (same_shape_trans _ _ _ So (same_shape_sym _ _ St)) Co V). cbn [bind].
    rewrite (elt_contents output_delta input_delta _ _ _ _ _ (same_shape_trans _ _ _ Sd (same_shape_sym _ _ St)) Cd V). reflexivity. }
  rewrite E. cbn [bind].
  assert (HF : forall (g : R -> R -> R -> R) init, (forall x o acc, g x o acc = acc + g x o 0) ->
    foldm (fun acc e => x <- elt input e ;; o <- elt output e ;; Ok (g x o acc)) (seq 0 (elements input)) init =
    Ok (init + tensor_sum R_num ss w h mm (fun x y m s => g (f x y m s) (logistic (a * f x y m s + b)) 0))).
  { intros g init Hg.
    set (val := fun e => match elt input e with Ok x => match elt output e with Ok o => g x o 0 | _ => 0 end | _ => 0 end).
    rewrite (foldm_add_list R_num _ val).
    - f_equal. rewrite (fold_nadd R_num R_ring_laws). cbn [nadd R_num]. f_equal.
      rewrite <- (for_map val (elements input)), (lsum_for R_num R_ring_laws).
      rewrite (nsum_ext R_num _ _ val) by (intros; apply (lsum_one R_num R_ring_laws)).
      rewrite (nsum_elements R_num R_ring_laws input val Wi), I1, I2, I3, I4. apply tensor_sum_ext. intros x y m s Hx Hy Hm Hs.
      assert (V : valid_pos input x y m s) by (repeat split; lia). unfold val.
      rewrite (elt_contents input input f _ _ _ _ (same_shape_refl _) Ci V), (elt_contents output input _ _ _ _ _ So Co V). reflexivity.
    - intros acc e He. apply in_seq in He. assert (He' : (e < samples input * maps input * height input * width input)%nat) by (rewrite <- (proj1 Wi); lia).
      destruct (offset_surj _ _ He') as (x & y & m & s & V & <-). unfold val.
      rewrite (elt_contents input input f _ _ _ _ (same_shape_refl _) Ci V), (elt_contents output input _ _ _ _ _ So Co V). cbn [bind]. f_equal. apply Hg. }
  rewrite (HF (hmax_da R_num Rdiv 2 lambda mu)) by (intros; unfold hmax_da; cbn; ring). cbn [bind].
  rewrite (HF (hmax_db R_num Rdiv 2 lambda mu)) by (intros; unfold hmax_db; cbn; ring). cbn [bind].
  exists t'. split; [reflexivity|]. auto.
Qed.

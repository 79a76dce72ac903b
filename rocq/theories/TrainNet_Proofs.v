(** Proofs for C76. *)
From Coq Require Import Reals Relations Permutation Lra FunctionalExtensionality.
From Verif Require Import Base BaseFacts Num RealNum Graph_Model Graph_Spec Dfs_Proofs Graph_Proofs GraphAdd_Proofs Graph_Props
  Backprop_Model Backprop_Spec Backprop_Proofs BackpropForward_Proofs BackpropBackward_Proofs BackpropBuilt_Proofs Backprop_Props
  BackpropLayers_Model BackpropLayers_Spec BackpropLayers_Proofs BackpropLayers_Props BackpropNet_Spec BackpropNet_Proofs BackpropReady_Proofs
  Trainer_Model TrainNet_Model TrainNet_Spec.
From Verif Require Trainer_Spec Trainer_Proofs TrainerLoop_Proofs.
Local Open Scope nat_scope.
Local Open Scope list_scope.

Section Ready.
Variables (h0 : list node) (history : list nat) (g : graph) (parts : nat -> part) (olds : nat -> list R).
Hypothesis ready : network_ready h0 history g parts olds.
Notation network := (stack history parts olds (heap g)).
Notation layer := (fun k => acts (network k)).
Hypothesis all_fit : forall x, In x (nodes g) -> fits (network x).
Variable fuel : nat.
Hypothesis enough : length (nodes g) < fuel.

Lemma forward_same (theta : nat -> list (list R)) ff m ff1 m1 ff' m' ff1' m1' :
  (forall n, In n history -> Forall2 shaped (tunes (parts n)) (theta n)) -> (forall n, ~ In n history -> theta n = []) ->
  feed_forward_memory layer theta fuel g ff m = Ok (ff1, m1) -> feed_forward_memory layer theta fuel g ff' m' = Ok (ff1', m1') ->
  forall k, In k (nodes g) -> input_data (heap g) m1 k = input_data (heap g) m1' k.
Proof.
  intros Th Th0 E E'. destruct (forward_runs h0 history g parts olds ready fuel ff enough) as (ffx & l & Or & Hl & _).
  pose proof (forward_shapes h0 history g parts olds ready all_fit theta fuel ff m ff1 m1 enough Th Th0 E) as F1.
  pose proof (forward_shapes h0 history g parts olds ready all_fit theta fuel ff' m' ff1' m1' enough Th Th0 E') as F2.
  assert (H : forall pre post, l = pre ++ post -> forall k, In k pre -> input_data (heap g) m1 k = input_data (heap g) m1' k).
  { induction pre as [|x pre IH] using rev_ind; intros post El k Hk; [destruct Hk|].
    rewrite <- app_assoc in El. cbn [app] in El. apply in_app_or in Hk as [Hk|[<-|[]]]; [now apply (IH (x :: post))|].
    assert (Hx : In x (nodes g)) by (apply Hl; rewrite El; apply in_or_app; right; now left).
    apply input_data_ext. intros c q Hc Eq. destruct Or as [Nd Ho].
    assert (Hq : In q pre) by (apply (before_nodup q x l pre post Nd (Ho x c q (proj2 (Hl x) Hx) Hc Eq) El)).
    assert (Hqn : In q (nodes g)) by (apply Hl; rewrite El; apply in_or_app; now left).
    destruct (nr_typed _ _ _ _ _ ready x Hx) as [_ T]. apply In_nth_error in Hc as (i & Hi).
    destruct (forall2_nth_error _ _ _ _ _ T Hi) as (d & _ & q' & _ & Eq' & Ed). assert (q' = q) by congruence. subst q'.
    destruct (nr_typed _ _ _ _ _ ready q Hqn) as [Tq _].
    assert (Hb : c_buffer c < buffers_of (heap g) q) by (rewrite Tq; apply nth_error_Some; congruence).
    destruct (F1 q Hqn) as (_ & _ & D1). destruct (F2 q Hqn) as (_ & _ & D2). rewrite (D1 _ Hb), (D2 _ Hb), (IH (x :: post) El q Hq). reflexivity. }
  intros k Hk. apply (H l [] (eq_sym (app_nil_r l)) k). now apply Hl.
Qed.

Lemma pass_runs (theta : nat -> list (list R)) ff bp m : exists l st, gradient_pass R_num layer theta fuel g ff bp m = Ok (l, st).
Proof.
  destruct (forward_runs h0 history g parts olds ready fuel ff enough) as (ff1 & l & _ & _ & Ef).
  pose proof (nr_sound _ _ _ _ _ ready) as S.
  destruct (backward_spec (fun n => (n, do_backprop (heap g) n)) g fuel (clear_flags true (nodes g) bp) (sound_closed g S) (sound_consistent g S) (nr_acyclic _ _ _ _ _ ready) enough)
    as (bp1 & l2 & Eb & _).
  { intros x Hx Hfl. apply clear_flags_out in Hfl. contradiction. }
  unfold gradient_pass. rewrite Ef. cbn [bind snd]. unfold back_propagate_memory, back_propagate, back_propagate_nodes. rewrite Eb. cbn [bind]. eauto.
Qed.

Lemma loss_node n : In n (loss_nodes g) -> In n (nodes g).
Proof. destruct (nr_losses _ _ _ _ _ ready) as [E _]. rewrite E. intros H. now apply filter_In in H. Qed.

Lemma reports_some (theta : nat -> list (list R)) :
  (forall n, In n history -> Forall2 shaped (tunes (parts n)) (theta n)) -> (forall n, ~ In n history -> theta n = []) ->
  forall ff bp m l st, gradient_pass R_num layer theta fuel g ff bp m = Ok (l, st) -> reports layer fuel g theta l.
Proof.
  intros Th Th0 ff bp m l st E ff' bp' m'. destruct (pass_runs theta ff' bp' m') as (l' & st' & E'). exists st'. rewrite E'. f_equal. f_equal.
  unfold gradient_pass in E, E'.
  destruct (feed_forward_memory layer theta fuel g ff m) as [[f1 m1]| |] eqn:F1; cbn [bind snd fst] in E; try discriminate.
  destruct (feed_forward_memory layer theta fuel g ff' m') as [[f2 m2]| |] eqn:F2; cbn [bind snd fst] in E'; try discriminate.
  destruct (back_propagate_memory layer theta fuel g bp m1) as [r1| |]; cbn [bind] in E; try discriminate.
  destruct (back_propagate_memory layer theta fuel g bp' m2) as [r2| |]; cbn [bind] in E'; try discriminate.
  injection E as <- _. injection E' as <- _. unfold aggregate_loss.
  assert (H : forall n, In n (loss_nodes g) -> input_data (heap g) m2 n = input_data (heap g) m1 n).
  { intros n Hn. apply (forward_same theta ff' m' f2 m2 ff m f1 m1 Th Th0 F2 F1). now apply loss_node. }
  revert H. generalize (n0 R_num). induction (loss_nodes g) as [|n ns IH]; intros a H; [reflexivity|]. cbn [fold_left].
  rewrite (H n (or_introl eq_refl)). apply IH. intros k Hk. apply H. now right.
Qed.

Lemma reports_unique theta l l' : reports layer fuel g theta l -> reports layer fuel g theta l' -> l = l'.
Proof.
  intros H H'. set (m := mkMemory (fun _ _ => []) (fun _ _ => []) (fun _ => []) : memory R). destruct (H [] [] m) as (s & E). destruct (H' [] [] m) as (s' & E'). congruence.
Qed.

(** The gradients [G] of a pass: for every curve of parameters through [theta] they give the
    derivative of the loss. *)
Definition gradients (theta : nat -> list (list R)) (G : nat -> list (list R)) : Prop :=
  (forall n, In n (nodes g) -> Forall2 shaped (tunes (network n)) (G n)) /\
  forall (params : R -> nat -> list (list R)) v0 dp, (forall n, params v0 n = theta n) ->
    (forall v n, In n history -> Forall2 shaped (tunes (parts n)) (params v n)) -> (forall v n, ~ In n history -> params v n = []) ->
    (forall n, In n history -> all_move (fun v => params v n) v0 (dp n)) ->
    exists loss : R -> R, (forall v, reports layer fuel g (params v) (loss v)) /\
      derivable_pt_lim loss v0 (rsum (fun n => dots (G n) (dp n)) history).

Lemma pass_gradients (theta : nat -> list (list R)) ff bp m l ff' bp' m' :
  (forall n, In n history -> Forall2 shaped (tunes (parts n)) (theta n)) -> (forall n, ~ In n history -> theta n = []) ->
  meets_no_kink layer fuel g theta history parts ->
  gradient_pass R_num layer theta fuel g ff bp m = Ok (l, (ff', bp', m')) -> gradients theta (m_grad m').
Proof.
  intros Th Th0 Sm E. split.
  - destruct (network_gradient h0 history g parts olds ready all_fit (fun _ => theta) 0%R (fun n => map (fun x => repeat 0%R (length x)) (theta n)) fuel ff bp m enough)
      as (loss & f & b & mm & H1 & H2 & H3 & H4); auto.
    + intros n _. apply all_move_const.
    + intros ff1 m1 E1. now apply (Sm ff m ff1 m1).
    + cbv beta in H2. assert (mm = m') by congruence. subst mm. exact H4.
  - intros params v0 dp Ep Ps P0 Mv. assert (Epf : params v0 = theta) by (apply functional_extensionality; exact Ep).
    destruct (network_gradient h0 history g parts olds ready all_fit params v0 dp fuel ff bp m enough) as (loss & f & b & mm & H1 & H2 & H3 & H4); auto.
    + intros ff1 m1 E1. rewrite Epf in E1. now apply (Sm ff m ff1 m1).
    + exists loss. split.
      * intros v. destruct (H1 v) as (st & E1). apply (reports_some (params v) (Ps v) (P0 v) ff bp m (loss v) st E1).
      * rewrite Epf in H2. assert (mm = m') by congruence. subst mm. exact H3.
Qed.
End Ready.

(** ** Parameters in the order of the nodes *)
Lemma params_of_map {D} (theta : nat -> list (list D)) ns n : In n ns -> params_of ns (map theta ns) n = theta n.
Proof.
  unfold params_of. induction ns as [|k ns IH]; intros H; [destruct H|]. cbn [map combine find fst]. destruct (Nat.eqb_spec k n) as [->|Hne]; [reflexivity|].
  apply IH. destruct H; [contradiction|assumption].
Qed.
Lemma params_of_out {D} (ps : list (list (list D))) ns n : ~ In n ns -> params_of ns ps n = [].
Proof.
  unfold params_of. revert ps. induction ns as [|k ns IH]; intros [|p ps] H; try reflexivity. cbn [combine find fst].
  destruct (Nat.eqb_spec k n) as [->|Hne]; [exfalso; apply H; now left|]. apply IH. intros Hi. apply H. now right.
Qed.
Lemma params_of_nth {D} (ps : list (list (list D))) ns i n p : NoDup ns -> nth_error ns i = Some n -> nth_error ps i = Some p -> params_of ns ps n = p.
Proof.
  unfold params_of. revert ps i. induction ns as [|k ns IH]; intros [|q ps] [|i] Nd En Ep; try discriminate; cbn [combine find fst].
  - cbn in En, Ep. injection En as ->. injection Ep as ->. now rewrite Nat.eqb_refl.
  - inversion Nd as [|? ? N1 N2]; subst. cbn in En, Ep. destruct (Nat.eqb_spec k n) as [->|Hne]; [exfalso; apply N1; eapply nth_error_In; exact En|].
    now apply (IH ps i).
Qed.

Lemma concat_at {A} (f : nat -> list A) ns l n p : nth_error ns l = Some n -> p < length (f n) ->
  nth_error (concat (map f ns)) (length (concat (map f (firstn l ns))) + p) = nth_error (f n) p.
Proof.
  revert l. induction ns as [|k ns IH]; intros [|l] En Hp; try discriminate; cbn [map concat firstn].
  - injection En as ->. cbn. now apply nth_error_app1.
  - rewrite app_length, nth_error_app2 by lia. rewrite <- (IH l En Hp). f_equal. lia.
Qed.
Lemma concat_length_same {A B} (f : nat -> list A) (f' : nat -> list B) ns : (forall n, In n ns -> length (f n) = length (f' n)) ->
  length (concat (map f ns)) = length (concat (map f' ns)).
Proof.
  induction ns as [|k ns IH]; intros H; [reflexivity|]. cbn [map concat]. rewrite !app_length, (H k (or_introl eq_refl)), IH; [reflexivity|]. intros n Hn. apply H. now right.
Qed.
Lemma concat_shape_same (f f' : nat -> list (list R)) ns : (forall n, In n ns -> shape (f n) = shape (f' n)) ->
  shape (concat (map f ns)) = shape (concat (map f' ns)).
Proof.
  induction ns as [|k ns IH]; intros H; [reflexivity|]. cbn [map concat]. unfold shape in *. rewrite !map_app, (H k (or_introl eq_refl)), IH; [reflexivity|]. intros n Hn. apply H. now right.
Qed.
Lemma shaped_shape ds (xs ys : list (list R)) : Forall2 shaped ds xs -> Forall2 shaped ds ys -> shape xs = shape ys.
Proof.
  intros H. revert ys. induction H as [|d x ds xs Hx H IH]; intros ys H2; inversion H2 as [|? y ? ys' Hy H3]; subst; [reflexivity|].
  unfold shape in *. cbn. rewrite (IH ys' H3). unfold shaped in *. congruence.
Qed.
Lemma firstn_in {A} (l : list A) i x : In x (firstn i l) -> In x l.
Proof. revert l. induction i as [|i IH]; intros [|a l] H; try destruct H; [now left|right; now apply IH]. Qed.
Lemma map_fst_layers (rate : nat -> R) (theta : nat -> list (list R)) ns : map snd (map (fun n => (rate n, theta n)) ns) = map theta ns.
Proof. rewrite map_map. now apply map_ext. Qed.

(** ** The passes of an iteration *)
Section Training.
Variables (h0 : list node) (history : list nat) (g : graph) (parts : nat -> nat -> part) (olds : nat -> nat -> list R).
Hypothesis ready : forall b, network_ready h0 history g (parts b) (olds b).
Notation network := (fun b => stack history (parts b) (olds b) (heap g)).
Notation layer := (fun b k => acts (stack history (parts b) (olds b) (heap g) k)).
Hypothesis all_fit : forall b x, In x (nodes g) -> fits (network b x).
Variable fuel : nat.
Hypothesis enough : length (nodes g) < fuel.
Variable theta : nat -> list (list R).
Hypothesis same : forall b n, In n history -> tunes (parts b n) = tunes (parts 0 n).
Hypothesis theta_shaped : forall n, In n history -> Forall2 shaped (tunes (parts 0 n)) (theta n).
Hypothesis theta_none : forall n, ~ In n history -> theta n = [].

Lemma theta_shaped_at b n : In n history -> Forall2 shaped (tunes (parts b n)) (theta n).
Proof. intros Hn. rewrite (same b n Hn). now apply theta_shaped. Qed.

Lemma theta_of_nodes : params_of (nodes g) (map theta (nodes g)) = theta.
Proof.
  apply functional_extensionality. intros n. destruct (in_dec Nat.eq_dec n (nodes g)) as [Hn|Hn]; [now apply params_of_map|].
  rewrite params_of_out by exact Hn. symmetry. apply theta_none. intros Hh. apply Hn. destruct (nr_nodes _ _ _ _ _ (ready 0)) as (extra & ->). apply in_or_app. now left.
Qed.

Lemma grads_shape b G n : gradients history g (parts b) (olds b) fuel theta G -> In n (nodes g) -> shape (G n) = shape (theta n).
Proof.
  intros [Gs _] Hn. apply (shaped_shape (tunes (network b n))); [now apply Gs|].
  apply (tunes_shaped h0 history g (parts b) (olds b) (ready b)); [intros; now apply theta_shaped_at|apply theta_none|exact Hn].
Qed.

Lemma network_pass_ok w : meets_no_kink (layer (s_batches w)) fuel g theta history (parts (s_batches w)) ->
  exists w' losses G L, network_pass layer fuel g w (map theta (nodes g)) = (w', losses, concat (map G (nodes g))) /\
    s_batches w' = S (s_batches w) /\ (forall x, fold_left Rplus losses x = (x + L)%R) /\
    reports (layer (s_batches w)) fuel g theta L /\ gradients history g (parts (s_batches w)) (olds (s_batches w)) fuel theta G.
Proof.
  intros Sm. set (b := s_batches w) in *.
  destruct (pass_runs h0 history g (parts b) (olds b) (ready b) fuel enough theta (s_ff w) (s_bp w) (s_memory w)) as (L & [[ff' bp'] m'] & E).
  pose proof (reports_some h0 history g (parts b) (olds b) (ready b) (all_fit b) fuel enough theta (fun n => theta_shaped_at b n) theta_none _ _ _ _ _ E) as Rp.
  pose proof (pass_gradients h0 history g (parts b) (olds b) (ready b) (all_fit b) fuel enough theta _ _ _ _ _ _ _ (fun n => theta_shaped_at b n) theta_none Sm E) as Gr.
  unfold network_pass. fold b. cbv zeta. rewrite theta_of_nodes. unfold gradient_pass in E.
  destruct (feed_forward_memory (layer b) theta fuel g (s_ff w) (s_memory w)) as [[f1 m1]| |]; cbn [bind snd fst] in E |- *; try discriminate.
  destruct (back_propagate_memory (layer b) theta fuel g (s_bp w) m1) as [[f2 m2]| |]; cbn [bind snd fst] in E |- *; try discriminate.
  injection E as El <- <- <-. eexists. eexists. exists (m_grad m2), L. split; [reflexivity|]. split; [reflexivity|]. split; [|split; [exact Rp|exact Gr]].
  intros x. rewrite <- El. unfold aggregate_loss. rewrite (fold_left_rsum (fun n => b_loss (acts (stack history (parts b) (olds b) (heap g) n)) (input_data (heap g) m1 n) (theta n))).
  cbn [n0 R_num]. rewrite Rplus_0_l. generalize x. induction (loss_nodes g) as [|n ns IH]; intros y; cbn [map fold_left rsum]; [ring|]. rewrite IH. ring.
Qed.

Variable rate : nat -> R.
Notation TR := (trainer R (network_state R)).
Definition holds_params (t : TR) : Prop := layers t = map (fun n => (rate n, theta n)) (nodes g).
Variable A : arith R.
Hypothesis A_add : add A = Rplus.

Lemma position_of (t : TR) l p (f : nat -> list (list R)) : holds_params t -> (forall n, In n (nodes g) -> length (f n) = length (theta n)) ->
  Trainer_Spec.position t l p = length (concat (map f (firstn l (nodes g)))) + p.
Proof.
  intros Ht Hf. unfold Trainer_Spec.position. rewrite Ht, firstn_map, map_fst_layers. f_equal. symmetry. apply concat_length_same.
  intros n Hn. apply Hf. now apply firstn_in in Hn.
Qed.

(** Element [e] of gradient [p] of node [n] where the trainer looks for it. *)
Lemma gradient_at (t : TR) l n p e b G : holds_params t -> gradients history g (parts b) (olds b) fuel theta G -> nth_error (nodes g) l = Some n ->
  p < length (theta n) -> e < length (nth p (theta n) []) ->
  Trainer_Spec.elem (concat (map G (nodes g))) (Trainer_Spec.position t l p) e = Some (nth e (nth p (G n) []) 0%R).
Proof.
  intros Ht Gr En Hp He. pose proof (grads_shape b G n Gr (nth_error_In _ _ En)) as Sn.
  assert (Lg : forall k, In k (nodes g) -> length (G k) = length (theta k)).
  { intros k Hk. pose proof (grads_shape b G k Gr Hk) as H. apply (f_equal (@length _)) in H. unfold shape in H. now rewrite !map_length in H. }
  rewrite (position_of t l p G Ht Lg). unfold Trainer_Spec.elem. apply shape_nth in Sn as [S1 S2].
  rewrite (concat_at G (nodes g) l n p En) by (rewrite S1; exact Hp).
  rewrite (nth_error_nth' (G n) []) by (rewrite S1; exact Hp). apply nth_error_nth'. rewrite S2 by (rewrite S1; exact Hp). exact He.
Qed.

Lemma passes_ok : forall n a (t : TR) loss es, Trainer_Spec.fits t -> holds_params t ->
  (forall b, s_batches (world t) <= b < s_batches (world t) + n -> meets_no_kink (layer b) fuel g theta history (parts b)) ->
  exists (G : nat -> nat -> list (list R)) (L : nat -> R) evs t',
    foldm (one_pass R A (network_state R) (network_pass layer fuel g)) (seq a n) (t, loss, es) = Ok (t', (loss + rsum L (seq (s_batches (world t)) n))%R, es ++ evs) /\
    TrainerLoop_Proofs.same_but_passes R (network_state R) t t' /\ Trainer_Spec.fits t' /\ s_batches (world t') = s_batches (world t) + n /\
    length evs = n /\ Forall (fun e => exists ls gs, e = EPass ls gs) evs /\
    (forall b, s_batches (world t) <= b < s_batches (world t) + n ->
       reports (layer b) fuel g theta (L b) /\ gradients history g (parts b) (olds b) fuel theta (G b)) /\
    forall l k p e x, nth_error (nodes g) l = Some k -> p < length (theta k) -> e < length (nth p (theta k) []) ->
      Trainer_Spec.elem (accumulated t) (Trainer_Spec.position t l p) e = Some x ->
      Trainer_Spec.elem (accumulated t') (Trainer_Spec.position t l p) e =
        Some (x + rsum (fun b => nth e (nth p (G b k) []) 0) (seq (s_batches (world t)) n))%R.
Proof.
  induction n as [|n IH]; intros a t loss es F Ht Sm.
  - exists (fun _ _ => []), (fun _ => 0%R), [], t. cbn [seq foldm rsum]. rewrite app_nil_r, Rplus_0_r, Nat.add_0_r. split; [reflexivity|].
    split; [repeat split|]. split; [exact F|]. split; [reflexivity|]. split; [reflexivity|]. split; [constructor|]. split; [intros b Hb; lia|].
    intros l k p e x _ _ _ Hx. now rewrite Rplus_0_r.
  - cbn [seq foldm]. unfold one_pass at 1. set (b0 := s_batches (world t)) in *.
    destruct (network_pass_ok (world t)) as (w' & losses & G0 & L0 & Ep & Eb & El & Rp & Gr); [apply Sm; fold b0; lia|]. fold b0 in Eb, Rp, Gr.
    assert (Epar : map snd (layers t) = map theta (nodes g)) by (rewrite Ht; apply map_fst_layers). rewrite Epar, Ep.
    pose proof F as (F1 & F2 & F3).
    assert (Pt : Trainer_Spec.parameters t = concat (map theta (nodes g))) by (unfold Trainer_Spec.parameters; now rewrite Epar).
    assert (Sg : Trainer_Spec.shape (concat (map G0 (nodes g))) = Trainer_Spec.shape (accumulated t)).
    { rewrite F3, Pt. apply concat_shape_same. intros k Hk. now apply (grads_shape b0). }
    destruct (TrainerLoop_Proofs.accumulate_gradients_ok R A (concat (map G0 (nodes g))) 0 (accumulated t)) as (acc & E & Sa & _ & V).
    { intros j gr Hj. cbn [Nat.add]. apply (Trainer_Proofs.shape_nth R (accumulated t) _ j gr (eq_sym Sg) Hj). }
    rewrite E. cbn [bind]. set (t1 := with_accumulated R (network_state R) (with_world R (network_state R) t w') acc).
    assert (F' : Trainer_Spec.fits t1) by (split; [exact F1|split; [exact F2|transitivity (Trainer_Spec.shape (accumulated t)); [exact Sa|exact F3]]]).
    destruct (IH (S a) t1 (sum_losses R A loss losses) (es ++ [EPass losses (concat (map G0 (nodes g)))]) F') as
      (G & L & evs & t' & E' & (K1 & K2 & K3 & K4 & K5) & Ft & Bt & Le & Fe & Hb & Hv).
    { exact Ht. }
    { change (world t1) with w'. rewrite Eb. intros b Hb. apply Sm. lia. }
    change (world t1) with w' in *. rewrite Eb in *.
    exists (fun b => if b =? b0 then G0 else G b), (fun b => if b =? b0 then L0 else L b), (EPass losses (concat (map G0 (nodes g))) :: evs), t'.
    split; [|split; [|split; [exact Ft|split; [|split; [|split; [|split]]]]]].
    + rewrite E'. f_equal. f_equal; [f_equal|now rewrite <- app_assoc].
      unfold sum_losses. rewrite A_add, El. cbn [rsum]. rewrite Nat.eqb_refl, (rsum_ext (fun b => if b =? b0 then L0 else L b) L); [ring|].
      intros b Hin. apply in_seq in Hin. rewrite (proj2 (Nat.eqb_neq b b0)) by lia. reflexivity.
    + repeat split; cbn in *; congruence.
    + rewrite Bt. lia.
    + cbn. now rewrite Le.
    + constructor; [eauto|exact Fe].
    + intros b Hin. destruct (Nat.eqb_spec b b0) as [->|Hne]; [auto|]. apply Hb. lia.
    + intros l k p e x En Hp He Hx. pose proof (gradient_at t l k p e b0 G0 Ht Gr En Hp He) as Hg.
      pose proof (V _ e x _ Hx Hg) as Hx'. cbn [Nat.add] in Hx'. rewrite A_add in Hx'.
      change (Trainer_Spec.position t1) with (Trainer_Spec.position t) in Hv. rewrite (Hv l k p e _ En Hp He Hx').
      cbn [rsum]. rewrite Nat.eqb_refl. f_equal.
      rewrite (rsum_ext (fun b => nth e (nth p ((if b =? b0 then G0 else G b) k) []) 0%R) (fun b => nth e (nth p (G b k) []) 0%R)); [ring|].
      intros b Hin. apply in_seq in Hin. rewrite (proj2 (Nat.eqb_neq b b0)) by lia. reflexivity.
Qed.
End Training.

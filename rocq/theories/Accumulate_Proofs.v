(** Proofs about [Accumulate_Model]. *)
From Verif Require Import Base BaseFacts LoopFacts Accumulate_Model Tensor_Proofs.

Section Accumulate.
Variable D : Type.
Variable zero : D.
Variable add : D -> D -> D.

Lemma exec_fill (l : list D) v : exec (for_ (length l) (fun e => [(e, Ok v)])) l = Ok (repeat v (length l)).
Proof.
  destruct (@exec_total D (for_ (length l) (fun e => [(e, Ok v)])) l) as (l' & E & Hl).
  - intros a rv Hin. apply in_for in Hin as (i & Hi & [Heq|[]]). injection Heq as <- <-. eauto.
  - rewrite E. f_equal. apply list_ext. intros i. destruct (Nat.lt_ge_cases i (length l)) as [Hi|Hi].
    + rewrite nth_error_repeat by exact Hi. apply (exec_in E).
      * apply in_for. exists i. split; [exact Hi|]. now left.
      * intros v' Hin. apply in_for in Hin as (j & _ & [Heq|[]]). congruence.
    + rewrite (proj2 (nth_error_None l' i)), (proj2 (nth_error_None _ i)); [reflexivity| |]; rewrite ?repeat_length; lia.
Qed.

Lemma sample_ok samples eps (outs : list (list D)) s a rv : s < samples ->
  Forall (fun d => length d = samples * eps) outs ->
  In (a, rv) (accumulate_sample D eps outs s) -> a < samples * eps /\ exists v, rv = Ok v.
Proof.
  intros Hs Ho Hin. apply in_for in Hin as (e & He & Hin). apply in_for in Hin as (i & Hi & [Heq|[]]).
  injection Heq as <- <-. assert (Ha := mix_lt s e samples eps Hs He). split; [exact Ha|].
  destruct (nth_error_lt outs Hi) as (d & Ed). rewrite (load_ok _ _ _ Ed). cbn [bind].
  assert (Ld : length d = samples * eps) by (rewrite Forall_forall in Ho; apply Ho; eapply nth_error_In; exact Ed).
  rewrite <- Ld in Ha. destruct (nth_error_lt d Ha) as (v & Ev). exists v. now apply load_ok.
Qed.

Lemma sample_vals samples eps (outs : list (list D)) s0 e0 s : e0 < eps -> s0 < samples ->
  Forall (fun d => length d = samples * eps) outs ->
  vals_at (s0 * eps + e0) (accumulate_sample D eps outs s) =
  if s =? s0 then map (fun d => nth (s0 * eps + e0) d zero) outs else [].
Proof.
  intros He Hs0 Ho. unfold accumulate_sample. rewrite vals_at_for.
  destruct (Nat.eqb_spec s s0) as [->|Hs].
  - rewrite (for_single _ _ e0 He).
    + rewrite vals_at_for. rewrite <- (map_id outs) at 2. 
      rewrite (for_ext _ (fun i => [nth (s0 * eps + e0) (nth i outs []) zero])).
      * rewrite for_map, map_id.
        assert (Ha := mix_lt s0 e0 samples eps Hs0 He). clear. 
        apply list_ext. intros i. rewrite !nth_error_map.
        destruct (Nat.lt_ge_cases i (length outs)) as [Hi|Hi].
        -- rewrite (nth_error_nth' _ 0) by (rewrite seq_length; exact Hi). rewrite seq_nth by exact Hi. cbn [option_map Nat.add].
           rewrite (nth_error_nth' outs [] Hi). reflexivity.
        -- rewrite (proj2 (nth_error_None (seq _ _) i)), (proj2 (nth_error_None outs i)) by (rewrite ?seq_length; exact Hi). reflexivity.
      * intros i Hi. rewrite vals_at_one, Nat.eqb_refl.
        destruct (nth_error_lt outs Hi) as (d & Ed). rewrite (load_ok _ _ _ Ed). cbn [bind].
        assert (Ld : length d = samples * eps) by (rewrite Forall_forall in Ho; apply Ho; eapply nth_error_In; exact Ed).
        assert (Ha := mix_lt s0 e0 samples eps Hs0 He). rewrite <- Ld in Ha.
        rewrite (nth_error_nth outs i [] Ed). destruct (nth_error_lt d Ha) as (v & Ev). rewrite (load_ok _ _ _ Ev).
        now rewrite (nth_error_nth d _ zero Ev).
    + intros e He' Hne. rewrite vals_at_for. apply for_nil. intros i Hi. rewrite vals_at_one.
      destruct (Nat.eqb_spec (s0 * eps + e) (s0 * eps + e0)); [lia|reflexivity].
  - apply for_nil. intros e He'. rewrite vals_at_for. apply for_nil. intros i Hi. rewrite vals_at_one.
    destruct (Nat.eqb_spec (s * eps + e) (s0 * eps + e0)) as [E|]; [|reflexivity].
    apply mix_inj in E as [? _]; auto. contradiction.
Qed.

Lemma accumulate_spec samples eps (outs : list (list D)) din :
  length din = samples * eps -> Forall (fun d => length d = samples * eps) outs ->
  exists r, accumulate D zero add samples eps outs din = Ok r /\ length r = length din /\
    forall e, e < length din -> nth_error r e = Some (fold_left add (map (fun d => nth e d zero) outs) zero).
Proof.
  intros Hl Ho. unfold accumulate, accumulate_clear. rewrite exec_fill. cbn [bind].
  destruct (@exec_with_total D add (for_ samples (accumulate_sample D eps outs)) (repeat zero (length din))) as (r & E & Lr).
  - intros a rv Hin. rewrite repeat_length, Hl. apply in_for in Hin as (s & Hs & Hin). now apply (sample_ok samples eps outs s).
  - exists r. rewrite E. rewrite repeat_length in Lr. split; [reflexivity|]. split; [exact Lr|]. intros e He.
    rewrite (exec_with_nth E e), nth_error_repeat by exact He. cbn [option_map]. f_equal. f_equal.
    rewrite Hl in He. apply mix_surj in He as (s & e' & Hs & He' & ->). rewrite vals_at_for.
    rewrite (for_single _ _ s Hs).
    + rewrite (sample_vals samples) by auto. now rewrite Nat.eqb_refl.
    + intros j Hj Hne. rewrite (sample_vals samples) by auto. now rewrite (proj2 (Nat.eqb_neq _ _) Hne).
Qed.
End Accumulate.

(** The aggregator refines the log book. *)
From Verif Require Import Base BaseFacts Stat_Model Stat_Spec.

Section StatProofs.
Variable D : Type.
Variable zero : D.
Notation fresh := (mkStat zero false).

Definition stats_match (ds : list (descriptor D)) (ss : list (stat D)) (us : list (nat * D)) : Prop :=
  length ss = length ds /\
  forall id d, nth_error ds id = Some d -> nth_error ss id = Some (accumulated fresh d id us).

Definition related (a : aggregator D) (l : logbook D) : Prop :=
  state a = l_mode l /\ start_time a = l_since l /\ hc a = l_hc l /\ descs a = l_descs l /\
  sinks a = l_sinks l /\ trace a = l_reports l /\
  match l_mode l with
  | INIT => stats a = [] /\ l_updates l = []
  | _ => stats_match (l_descs l) (stats a) (l_updates l)
  end.

Lemma init_all_ok ds ss :
  Forall resets ds -> length ss = length ds ->
  exists ss', init_all ds ss = Ok ss' /\ stats_match ds ss' [].
Proof.
  intros Hr Hl.
  assert (G : exists ss', init_all ds ss = Ok ss' /\ length ss' = length ds /\
              forall id d, nth_error ds id = Some d -> nth_error ss' id = Some (d_init d fresh)).
  { revert ss Hl. induction Hr as [|d ds Hd _ IH]; intros [|s ss] Hl; simpl in Hl; try lia.
    - exists []. simpl. repeat split; auto. intros [|id] d; discriminate.
    - destruct (IH ss ltac:(lia)) as (ss' & E & HL & HN). simpl. rewrite E. simpl.
      eexists. split; [reflexivity|]. split; [simpl; lia|].
      intros [|id] d' H; simpl in *; auto. inversion H; subst. f_equal. apply Hd. }
  destruct G as (ss' & E & HL & HN). exists ss'. split; [exact E|]. split; auto.
Qed.

Lemma outputs_from h us : forall ds ss k,
  length ss = length ds ->
  (forall id d, nth_error ds id = Some d -> nth_error ss id = Some (accumulated fresh d (k + id) us)) ->
  outputs h ds ss = Ok (map (fun '(id, d) => d_output d h (accumulated fresh d id us)) (combine (seq k (length ds)) ds)).
Proof.
  induction ds as [|d ds IH]; intros [|s ss] k Hl HN; simpl in *; try lia; auto.
  rewrite (IH ss (S k)); [|lia|].
  - simpl. pose proof (HN 0 d eq_refl) as H. rewrite Nat.add_0_r in H. simpl in H. inversion H. reflexivity.
  - intros id d' H. specialize (HN (S id) d' H). simpl in HN. rewrite HN. do 2 f_equal. lia.
Qed.

Lemma outputs_ok h ds ss us : stats_match ds ss us -> outputs h ds ss = Ok (report fresh h ds us).
Proof. intros [Hl HN]. unfold report. now apply outputs_from. Qed.

Lemma values_for_app id us (u : nat * D) :
  values_for id (us ++ [u]) = if fst u =? id then values_for id us ++ [snd u] else values_for id us.
Proof.
  unfold values_for. rewrite filter_app, map_app. simpl. destruct (fst u =? id); simpl; auto.
  now rewrite app_nil_r.
Qed.

Lemma stats_match_update ds ss us id d s v :
  stats_match ds ss us -> nth_error ds id = Some d -> nth_error ss id = Some s ->
  stats_match ds (upd ss id (d_update d s v)) (us ++ [(id, v)]).
Proof.
  intros [Hl HN] Hd Hs. split; [now rewrite upd_length|].
  intros id' d' H'. rewrite nth_error_upd. unfold accumulated. rewrite values_for_app. simpl.
  destruct (Nat.eqb_spec id id') as [->|Hne].
  - assert (id' < length ss) by (apply nth_error_Some; congruence).
    destruct (Nat.ltb_spec id' (length ss)); [|lia].
    rewrite fold_left_app. simpl. rewrite H' in Hd. inversion Hd; subst.
    rewrite (HN _ _ H') in Hs. inversion Hs; subst. reflexivity.
  - now apply HN.
Qed.

Lemma step_related a l c :
  related a l -> Forall resets (l_descs l) ->
  disciplined (match l_mode l with INIT => false | _ => true end) [c] = true ->
  exists a', step zero a c = Ok a' /\ related a' (log_step fresh l c).
Proof.
  destruct a as [sa ta ha ssa dsa na tra]. destruct l as [m ds n since h us rs].
  unfold related. cbn [state start_time hc stats descs sinks trace l_mode l_since l_hc l_descs l_sinks l_reports l_updates].
  intros (-> & -> & -> & -> & -> & -> & Hst) Hr Hd.
  assert (Htriv : forall (st : mode) t0 h0, exists a' : aggregator D, Ok (mkAgg st t0 h0 ssa ds n rs) = Ok a' /\
            state a' = st /\ start_time a' = t0 /\ hc a' = h0 /\ descs a' = ds /\ sinks a' = n /\ trace a' = rs /\ stats a' = ssa).
  { intros. eexists. split; [reflexivity|]. cbn. auto 10. }
  destruct c; cbn [step log_step].
  - (* RegisterStat *) eexists. split; [reflexivity|]. cbn. repeat (split; [reflexivity|]).
    destruct m; try discriminate. exact Hst.
  - eexists. split; [reflexivity|]. cbn. repeat (split; [reflexivity|]). exact Hst.
  - (* Initialize *) destruct m.
    + unfold initialize, reset. cbn [state descs stats start_time hc sinks trace].
      destruct Hst as [-> _]. cbn [app].
      destruct (init_all_ok ds (map (fun _ => new_stat D zero) ds) Hr) as (ss' & E & Hm); [now rewrite map_length|].
      rewrite E. cbn [bind]. eexists. split; [reflexivity|]. cbn.
      repeat (split; [reflexivity|]). split; [now rewrite <- app_assoc|]. exact Hm.
    + eexists. split; [reflexivity|]. cbn. repeat (split; [reflexivity|]). exact Hst.
    + eexists. split; [reflexivity|]. cbn. repeat (split; [reflexivity|]). exact Hst.
  - (* Update *) unfold update. cbn [state descs stats start_time hc sinks trace]. destruct m.
    + eexists. split; [reflexivity|]. cbn. repeat (split; [reflexivity|]). exact Hst.
    + eexists. split; [reflexivity|]. cbn. repeat (split; [reflexivity|]). exact Hst.
    + destruct (Nat.ltb_spec id (length ds)) as [H|H].
      * destruct (nth_error_lt ds H) as [d Hdd]. rewrite Hdd.
        destruct Hst as [Hl HN]. pose proof (HN _ _ Hdd) as Hs.
        rewrite (load_ok _ _ _ Hs). cbn [bind].
        eexists. split; [reflexivity|]. cbn. repeat (split; [reflexivity|]).
        apply stats_match_update; auto. split; auto.
      * apply nth_error_None in H. rewrite H.
        eexists. split; [reflexivity|]. cbn. repeat (split; [reflexivity|]). exact Hst.
  - (* Generate *) unfold generate. cbn [state descs stats start_time hc sinks trace].
    destruct m; try discriminate; (rewrite (outputs_ok h ds ssa us Hst); cbn [bind];
      eexists; split; [reflexivity|]; cbn; repeat (split; [reflexivity|]); exact Hst).
  - (* Start *) destruct m; (eexists; split; [reflexivity|]; cbn; repeat (split; [reflexivity|]); exact Hst).
  - (* Stop *) destruct m; (eexists; split; [reflexivity|]; cbn; repeat (split; [reflexivity|]); exact Hst).
  - (* Reset *) unfold reset. cbn [state descs stats start_time hc sinks trace]. destruct m.
    + eexists. split; [reflexivity|]. cbn. repeat (split; [reflexivity|]). exact Hst.
    + destruct (init_all_ok ds ssa Hr) as (ss' & E & Hm); [apply Hst|].
      rewrite E. cbn [bind]. eexists. split; [reflexivity|]. cbn.
      repeat (split; [reflexivity|]). exact Hm.
    + eexists. split; [reflexivity|]. cbn. repeat (split; [reflexivity|]). exact Hst.
  - (* Snapshot *) unfold snapshot. cbn [state]. destruct m.
    + eexists. split; [reflexivity|]. cbn. repeat (split; [reflexivity|]). exact Hst.
    + eexists. split; [reflexivity|]. cbn. repeat (split; [reflexivity|]). exact Hst.
    + unfold generate, stop_recording, reset. cbn [state descs stats start_time hc sinks trace].
      rewrite (outputs_ok _ ds ssa us Hst). cbn [bind state descs stats start_time hc sinks trace].
      destruct (init_all_ok ds ssa Hr) as (ss' & E & Hm); [apply Hst|].
      rewrite E. cbn [bind]. eexists. split; [reflexivity|]. cbn.
      repeat (split; [reflexivity|]). exact Hm.
  - (* SetExperiment *) destruct m; (eexists; split; [reflexivity|]; cbn; repeat (split; [reflexivity|]); exact Hst).
  - eexists. split; [reflexivity|]. cbn. repeat (split; [reflexivity|]). exact Hst.
  - eexists. split; [reflexivity|]. cbn. repeat (split; [reflexivity|]). exact Hst.
  - eexists. split; [reflexivity|]. cbn. repeat (split; [reflexivity|]). exact Hst.
  - eexists. split; [reflexivity|]. cbn. repeat (split; [reflexivity|]). exact Hst.
Qed.

Lemma log_step_mode l c :
  disciplined (match l_mode l with INIT => false | _ => true end) [c] = true ->
  (match l_mode (log_step fresh l c) with INIT => false | _ => true end) =
  match c with Initialize => true | _ => match l_mode l with INIT => false | _ => true end end.
Proof.
  destruct l as [m ds n since h us rs]. destruct c, m; cbn; auto.
  match goal with |- context [l_mode (if ?b then _ else _)] => destruct b; reflexivity end.
Qed.

Lemma disciplined_cons b (c : call D) t :
  disciplined b (c :: t) = true ->
  disciplined b [c] = true /\
  disciplined (match c with Initialize => true | _ => b end) t = true.
Proof. destruct c; simpl; rewrite ?andb_true_iff; intuition. Qed.

Lemma log_step_descs l c :
  l_descs (log_step fresh l c) = l_descs l ++ match c with RegisterStat d => [d] | _ => [] end.
Proof.
  destruct l as [m ds n since h us rs]. destruct c; cbn; rewrite ?app_nil_r; auto;
    destruct m; cbn; auto.
  match goal with |- context [l_descs (if ?b then _ else _)] => destruct b; reflexivity end.
Qed.

Lemma run_related history : forall a l,
  related a l -> Forall resets (l_descs l) -> Forall resets (registered history) ->
  disciplined (match l_mode l with INIT => false | _ => true end) history = true ->
  exists a', foldm (step zero) history a = Ok a' /\ related a' (fold_left (log_step fresh) history l).
Proof.
  induction history as [|c history IH]; intros a l Hrel Hr Hreg Hd.
  - exists a. split; [reflexivity|exact Hrel].
  - apply disciplined_cons in Hd as [Hd1 Hd2].
    destruct (step_related a l c Hrel Hr Hd1) as (a1 & E & Hrel1).
    cbn [foldm fold_left]. rewrite E. cbn [bind]. apply IH; auto.
    + rewrite log_step_descs. apply Forall_app. split; auto.
      unfold registered in Hreg. cbn [flat_map] in Hreg. apply Forall_app in Hreg. apply Hreg.
    + unfold registered in Hreg. cbn [flat_map] in Hreg. apply Forall_app in Hreg. apply Hreg.
    + rewrite (log_step_mode l c Hd1). exact Hd2.
Qed.

Lemma run_ok history :
  Forall resets (registered history) -> disciplined false history = true ->
  exists a, run zero history = Ok a /\ related a (log_of fresh history).
Proof.
  intros Hr Hd. apply run_related; auto.
  - unfold related. cbn. auto 10.
  - constructor.
Qed.
End StatProofs.

(** Proofs about the commands of trainNetwork. *)
From Coq Require Import Ascii String List ZArith NArith Lia.
From Verif Require Import Base BaseFacts LoopFacts Str_Model Config_Model Stat_Model Stat_Spec Trainer_Model Trainer_Spec Session_Model Session_Spec Session_Proofs.
Local Open Scope list_scope.
Local Open Scope nat_scope.

Lemma exec_all {X} (f : nat -> res X) : forall n (l : list X), n <= length l -> (forall p, p < n -> exists x, f p = Ok x) ->
  exists l', exec (for_ n (fun p => [(p, f p)])) l = Ok l' /\ length l' = length l /\
    forall p, nth_error l' p = if p <? n then (match f p with Ok x => Some x | _ => None end) else nth_error l p.
Proof.
  unfold exec. intros n l Hn Hf.
  assert (Ho : ops_ok (length l) (for_ n (fun p => [(p, f p)]))).
  { intros b rv Hin. apply in_for in Hin as (i & Hi & [Heq|[]]). injection Heq as <- <-. split; [lia|]. now apply Hf. }
  destruct (exec_with_total overwrite Ho) as (l' & E & Ln). exists l'. split; [exact E|]. split; [exact Ln|].
  intros p. rewrite (exec_with_nth E p). destruct (Nat.ltb_spec p n) as [H|H].
  - destruct (Hf p H) as (x & Ex). destruct (nth_error l p) eqn:El; [|apply nth_error_None in El; lia].
    rewrite vals_at_for. rewrite (for_single _ _ p H).
    + rewrite vals_at_one, Nat.eqb_refl, Ex. reflexivity.
    + intros j Hj Hne. rewrite vals_at_one. destruct (Nat.eqb_spec j p); [congruence|reflexivity].
  - rewrite vals_at_none; [destruct (nth_error l p); reflexivity|].
    intros rv Hin. apply in_for in Hin as (i & Hi & [Heq|[]]). injection Heq as Heq _. lia.
Qed.

Lemma nth_error_ext' {X} : forall l l' : list X, (forall p, nth_error l p = nth_error l' p) -> l = l'.
Proof.
  induction l as [|x l IH]; intros [|y l'] H; [reflexivity|specialize (H 0); discriminate|specialize (H 0); discriminate|].
  pose proof (H 0) as H0. cbn in H0. injection H0 as ->. f_equal. apply IH. intros p. exact (H (S p)).
Qed.
Lemma nth_error_skipn' {X} : forall n (l : list X) p, nth_error (skipn n l) p = nth_error l (n + p).
Proof. induction n as [|n IH]; intros [|x l] p; cbn; auto. now destruct p. Qed.

(** ** The memory of the parameters *)
Lemma index_of_nth : forall bs p b, NoDup bs -> nth_error bs p = Some b -> index_of b bs = Some p.
Proof.
  induction bs as [|x bs IH]; intros p b Hn E; [destruct p; discriminate|]. inversion Hn as [|? ? H1 H2]; subst.
  destruct p as [|p]; cbn in E |- *.
  - injection E as ->. now rewrite Nat.eqb_refl.
  - destruct (Nat.eqb_spec x b) as [->|Hne]; [exfalso; apply H1; eapply nth_error_In; eauto|]. now rewrite (IH p b H2 E).
Qed.

Lemma moved_ok {D} : forall (old new : list (list D)) bs f, length old = length new -> length bs = length old ->
  NoDup bs -> Forall (fun b => b < f) bs ->
  let '(bs', f') := moved old new bs f in
  length bs' = length bs /\ NoDup bs' /\ Forall (fun b => b < f') bs' /\ f <= f' /\
  Forall (fun b => In b bs \/ f <= b) bs' /\
  (map (@length D) old = map (@length D) new -> bs' = bs).
Proof.
  induction old as [|o old IH]; intros new bs f L Lb Hn Hf; destruct new as [|n new]; try discriminate; destruct bs as [|b bs]; try discriminate; cbn [moved].
  - auto 10.
  - cbn in L, Lb. injection L as L. injection Lb as Lb. inversion Hn as [|? ? N1 N2]; subst. inversion Hf as [|? ? F1 F2]; subst.
    destruct (Nat.eqb_spec (length o) (length n)) as [El|El].
    + specialize (IH new bs f L Lb N2 F2). destruct (moved old new bs f) as [r f'] eqn:Em. destruct IH as (I1 & I2 & I3 & I4 & I5 & I6).
      split; [cbn; lia|]. split; [|split; [|split; [|split]]].
      * constructor; [|exact I2]. intros Hin. rewrite Forall_forall in I5. destruct (I5 _ Hin); [contradiction|lia].
      * constructor; [lia|exact I3].
      * exact I4.
      * constructor; [left; now left|]. eapply Forall_impl; [|exact I5]. cbn. intros x [?|?]; auto.
      * intros E. cbn in E. injection E as _ E. now rewrite (I6 E).
    + assert (F2' : Forall (fun b => b < S f) bs) by (eapply Forall_impl; [|exact F2]; cbn; lia).
      specialize (IH new bs (S f) L Lb N2 F2'). destruct (moved old new bs (S f)) as [r f'] eqn:Em. destruct IH as (I1 & I2 & I3 & I4 & I5 & I6).
      split; [cbn; lia|]. split; [|split; [|split; [|split]]].
      * constructor; [|exact I2]. intros Hin. rewrite Forall_forall in I5, F2. destruct (I5 _ Hin) as [Hi|Hi]; [specialize (F2 _ Hi)|]; lia.
      * constructor; [lia|exact I3].
      * lia.
      * constructor; [right; lia|]. eapply Forall_impl; [|exact I5]. cbn. intros x [?|?]; [left; auto|right; lia].
      * intros E. cbn in E. injection E as E _. congruence.
Qed.

Lemma concat_layout {D} (ls : list (D * list (list D))) : length (all_params ls) = list_sum (layout ls).
Proof. unfold all_params, layout. induction ls as [|[r ps] ls IH]; [reflexivity|]. cbn. now rewrite app_length, IH. Qed.

Lemma regroup_same {D} : forall (ls ls' : list (D * list (list D))), layout ls = layout ls' -> map snd (regroup ls (all_params ls')) = map snd ls'.
Proof.
  unfold all_params. induction ls as [|[r ps] ls IH]; intros [|[r' ps'] ls'] E; try discriminate; [reflexivity|].
  cbn in E. injection E as E1 E2. cbn. rewrite E1. rewrite firstn_app, firstn_all, Nat.sub_diag, firstn_O, app_nil_r.
  f_equal. rewrite skipn_app, skipn_all, Nat.sub_diag. cbn. apply IH. exact E2.
Qed.

Section Commands.
Context {D W V B : Type}.
Variable A : arith D.
Variable hybrid : bool.
Variable cfg : settings D.
Variable dl : data_layer D.
Variable pass : W -> list (list (list D)) -> W * list D * list (list D).
Variable forward : W -> list (list (list D)) -> W * list D.
Variable set_mode : bool -> W -> W.
Variable lr_at : nat -> D.
Variable scaling : nat -> D -> nat.
Variable weight_count : nat.
Variable tcfg : settings D.
Variable tdl : data_layer D.
Variable tforward : W -> list (list (list D)) -> W * list D.
Variable tset_mode : bool -> W -> W.
Variable tweight_count : nat.
Variable loss_stat : nat.
Variable to_double : D -> V.
Variable updates : nat -> list (nat * V).
Variable clock : nat -> Z.
Variable experiment : str -> nat.
Variable init_weights : W -> list (D * list (list D)) -> W * list (D * list (list D)).
Variable save_params : list (D * list (list D)) -> list B.
Variable load_params : list B -> Z -> list (D * list (list D)) -> res (list (D * list (list D))).
Variable writable : str -> bool.
Variable dot : bool -> list B.

Notation exec1 := (exec_command A hybrid cfg dl pass forward set_mode lr_at scaling weight_count tcfg tdl tforward tset_mode tweight_count
  loss_stat to_double updates clock experiment init_weights save_params load_params writable dot).
Notation sess := (session D W V B).

(** The counters of the trainers. *)
Lemma do_train_ok (s s' : sess) n snap :
  do_train A cfg dl pass set_mode lr_at scaling weight_count loss_stat to_double updates clock s n snap = Ok s' ->
  exists t es, train D A (with_stats cfg (training_stats s)) dl W pass set_mode lr_at scaling n snap (training s, []) = Ok (t, es) /\
    s' = with_calls (with_training s t) (note_events loss_stat to_double updates clock weight_count (calls s ++ [SetWeights weight_count]) es).
Proof. unfold do_train. intros E. apply bind_ok in E as ([t es] & E1 & E). exists t, es. split; [exact E1|congruence]. Qed.

Lemma shadow_ok (s s' : sess) : shadow s = Ok s' -> length (blocks s) <= length (view s) /\
  s' = with_view s (map Shadow (blocks s) ++ skipn (length (blocks s)) (view s)).
Proof.
  unfold shadow. intros E. apply bind_ok in E as (v & E1 & E). injection E as <-.
  destruct (Nat.le_gt_cases (length (blocks s)) (length (view s))) as [H|H].
  - split; [exact H|]. f_equal.
    destruct (exec_all (fun p => b <- load (blocks s) p ;; Ok (Shadow (D := D) b)) (length (blocks s)) (view s) H) as (l' & E' & L' & N').
    { intros p Hp. destruct (nth_error_lt (blocks s) Hp) as (b & Eb). rewrite (load_ok _ _ _ Eb). cbn. eauto. }
    rewrite E' in E1. injection E1 as <-. apply nth_error_ext'. intros p. rewrite N'. destruct (Nat.ltb_spec p (length (blocks s))) as [Hp|Hp].
    + rewrite nth_error_app1 by now rewrite map_length. rewrite nth_error_map. destruct (nth_error_lt (blocks s) Hp) as (b & Eb). rewrite (load_ok _ _ _ Eb), Eb. reflexivity.
    + rewrite nth_error_app2 by now rewrite map_length. rewrite map_length, nth_error_skipn'. f_equal. lia.
  - exfalso. assert (Hin : In (length (view s), b <- load (blocks s) (length (view s)) ;; Ok (Shadow (D := D) b))
      (for_ (length (blocks s)) (fun p => [(p, b <- load (blocks s) p ;; Ok (Shadow (D := D) b))]))).
    { apply in_for. exists (length (view s)). split; [exact H|]. now left. }
    unfold exec in E1. apply exec_with_ok_inv in E1. destruct (E1 _ _ Hin). lia.
Qed.

Lemma shadow_total (s : sess) : length (blocks s) <= length (view s) ->
  shadow s = Ok (with_view s (map Shadow (blocks s) ++ skipn (length (blocks s)) (view s))).
Proof.
  intros H. destruct (shadow s) eqn:E.
  - apply shadow_ok in E as (_ & ->). reflexivity.
  - exfalso. unfold shadow in E.
    destruct (exec_all (fun p => b <- load (blocks s) p ;; Ok (Shadow (D := D) b)) (length (blocks s)) (view s) H) as (l' & E' & _).
    { intros p Hp. destruct (nth_error_lt (blocks s) Hp) as (b & Eb). rewrite (load_ok _ _ _ Eb). cbn. eauto. }
    rewrite E' in E. discriminate.
  - exfalso. unfold shadow in E.
    destruct (exec_all (fun p => b <- load (blocks s) p ;; Ok (Shadow (D := D) b)) (length (blocks s)) (view s) H) as (l' & E' & _).
    { intros p Hp. destruct (nth_error_lt (blocks s) Hp) as (b & Eb). rewrite (load_ok _ _ _ Eb). cbn. eauto. }
    rewrite E' in E. discriminate.
Qed.

(** ** One set of parameters for both networks *)
Definition mem_ok (s : sess) : Prop :=
  length (blocks s) = length (all_params (layers (training s))) /\ NoDup (blocks s) /\ Forall (fun b => b < next_block s) (blocks s) /\
  view s = map Shadow (blocks s) /\ layout (layers (testing s)) = layout (layers (training s)) /\ epoch (testing s) = epoch (training s).

Lemma read_all_ext (s s' : sess) : blocks s' = blocks s -> training s' = training s -> forall ms, read_all s' ms = read_all s ms.
Proof. intros E1 E2. induction ms as [|m ms IH]; [reflexivity|]. cbn. unfold read_memory. now rewrite E1, E2, IH. Qed.

Lemma read_ok (s : sess) : mem_ok s -> read_all s (view s) = Ok (all_params (layers (training s))).
Proof.
  intros (L & Hn & _ & -> & _).
  assert (G : forall bs ps pre, (forall p b, nth_error bs p = Some b -> nth_error (blocks s) (pre + p) = Some b) ->
    (forall p, nth_error ps p = nth_error (all_params (layers (training s))) (pre + p)) -> length bs = length ps ->
    read_all s (map Shadow bs) = Ok ps).
  { induction bs as [|b bs IH]; intros [|v ps] pre Hb Hp Hl; try discriminate; [reflexivity|]. cbn [map read_all].
    specialize (Hb 0 b eq_refl) as Hb0. specialize (Hp 0) as Hp0. cbn in Hp0. unfold read_memory.
    rewrite (index_of_nth _ _ _ Hn Hb0). rewrite (load_ok _ _ _ (eq_sym Hp0)). cbn [bind].
    rewrite (IH ps (S pre)); [reflexivity| | |now injection Hl].
    - intros p x Hx. replace (S pre + p) with (pre + S p) by lia. apply Hb. exact Hx.
    - intros p. replace (S pre + p) with (pre + S p) by lia. apply (Hp (S p)). }
  apply (G _ _ 0); auto.
Qed.

Hypothesis load_layout : forall bytes last ls ls', load_params bytes last ls = Ok ls' -> layout ls' = layout ls.
Hypothesis init_layout : forall w ls, layout (snd (init_weights w ls)) = layout ls.

Lemma train_layout c n snap (t t' : trainer D W) es : train D A c dl W pass set_mode lr_at scaling n snap (t, []) = Ok (t', es) ->
  layout (layers t') = layout (layers t).
Proof using.
  unfold train. intros E. apply bind_ok in E as ([t1 es1] & E1 & E). injection E as <- _.
  change (layout (layers (fst (t1, es1))) = layout (layers t)).
  apply (foldm_inv (fun st => layout (layers (fst st)) = layout (layers t)) _ _ _ _) in E1; [exact E1| |reflexivity].
  intros [u esu] k [u' esu'] _ H Eu. apply (train_epoch_says A c dl pass set_mode lr_at scaling 0 snap k u esu u' esu' (true, 0, 0, 0, [])) in Eu as (_ & _ & Eu).
  cbn in H |- *. now rewrite Eu.
Qed.

Lemma mem_layers (s s' : sess) : mem_ok s -> layout (layers (training s')) = layout (layers (training s)) -> blocks s' = blocks s -> next_block s' = next_block s ->
  view s' = view s -> layout (layers (testing s')) = layout (layers (testing s)) -> epoch (testing s') = epoch (training s') -> mem_ok s'.
Proof using.
  intros (L & Hn & Hf & Hv & Hl & He) E1 E2 E3 E4 E5 E6. unfold mem_ok. rewrite E2, E3, E4, E5, E1, !concat_layout in *. rewrite E1. auto 10.
Qed.

Lemma regroup_layout : forall (ls : list (D * list (list D))) vs, length vs = list_sum (layout ls) -> layout (regroup ls vs) = layout ls.
Proof using.
  induction ls as [|[r ps] ls IH]; intros vs H; [reflexivity|]. change (length vs = length ps + list_sum (layout ls)) in H.
  change (length (firstn (length ps) vs) :: layout (regroup ls (skipn (length ps) vs)) = length ps :: layout ls).
  rewrite firstn_length, IH by (rewrite skipn_length; lia). f_equal. lia.
Qed.

Lemma mem_step (s s' : sess) c : hybrid = true -> mem_ok s -> exec1 s c = Ok s' -> mem_ok s'.
Proof using load_layout init_layout.
  intros Hh M E. destruct c; cbn [exec_command] in E; try (injection E as <-; exact M).
  - apply bind_ok in E as (s1 & E1 & E). apply do_train_ok in E1 as (t & es & Et & ->). injection E as <-.
    apply (mem_layers s); auto.
    + destruct (no_snapshots =? 1)%Z; unfold sync_epoch; rewrite Hh; cbn; eapply train_layout; exact Et.
    + destruct (no_snapshots =? 1)%Z; unfold sync_epoch; rewrite Hh; reflexivity.
    + destruct (no_snapshots =? 1)%Z; unfold sync_epoch; rewrite Hh; reflexivity.
    + destruct (no_snapshots =? 1)%Z; unfold sync_epoch; rewrite Hh; reflexivity.
    + destruct (no_snapshots =? 1)%Z; unfold sync_epoch; rewrite Hh; reflexivity.
    + destruct (no_snapshots =? 1)%Z; unfold sync_epoch; rewrite Hh; reflexivity.
  - rewrite Hh in E. apply bind_ok in E as (s1 & E1 & E). injection E as <-. apply bind_ok in E1 as (vs & Ev & E1). apply bind_ok in E1 as ([t' cs] & E2 & E1).
    injection E1 as <-. unfold do_test in E2. apply bind_ok in E2 as ([t1 es] & E3 & E2). injection E2 as <- <-.
    apply (test_says A _ tdl tforward tset_mode scaling 0 _ _ _ true 0 0 []) in E3 as (_ & w & ->).
    unfold sync_epoch in Ev |- *.
    assert (Lv : length vs = list_sum (layout (layers (testing s)))).
    { assert (R : read_all s (view s) = Ok (all_params (layers (training s)))) by (apply read_ok; exact M).
      assert (vs = all_params (layers (training s))) as ->. { rewrite (read_all_ext s) in Ev by reflexivity. cbn in Ev. congruence. }
      rewrite concat_layout. f_equal. symmetry. apply M. }
    apply (mem_layers s); auto. cbn. now apply regroup_layout.
  - destruct file as [|ch file]; [injection E as <-; exact M|]. destruct (files s (ch :: file)) as [bytes|]; [|injection E as <-; exact M].
    apply bind_ok in E as (ls & El & E). destruct M as (L & Hn & Hf & Hv & Hl & He).
    pose proof (load_layout _ _ _ _ El) as Ly.
    assert (Lo : length (all_params (layers (training s))) = length (all_params ls)) by now rewrite !concat_layout, Ly.
    pose proof (moved_ok (all_params (layers (training s))) (all_params ls) (blocks s) (next_block s) Lo L Hn Hf) as Mv.
    destruct (moved _ _ _ _) as [bs f]. destruct Mv as (M1 & M2 & M3 & _). rewrite Hh in E. apply shadow_ok in E as (_ & ->).
    unfold mem_ok. cbn [with_view with_training blocks training view next_block testing layers with_layers epoch Trainer_Model.reset]. rewrite <- Lo, M1, L. split; [reflexivity|]. split; [exact M2|]. split; [exact M3|].
    split; [|split; [now rewrite Ly|exact He]]. rewrite Hv, skipn_all2, app_nil_r; [reflexivity|]. rewrite map_length, L. lia.
  - destruct file as [|ch file]; injection E as <-; [exact M|]. destruct (writable _); exact M.
  - destruct name as [|ch name]; injection E as <-; exact M.
  - injection E as <-. unfold sync_epoch. rewrite Hh. apply (mem_layers s); auto.
  - pose proof (init_layout (world (training s)) (layers (training s))) as Li. destruct (init_weights _ _) as [w ls]. cbn [snd] in Li. rewrite Hh in E.
    apply shadow_ok in E as (_ & ->). destruct M as (L & Hn & Hf & Hv & Hl & He). unfold mem_ok. cbn [with_view with_training blocks training view next_block testing layers with_layers epoch Trainer_Model.reset].
    rewrite !concat_layout in *. rewrite Li. split; [exact L|]. split; [exact Hn|]. split; [exact Hf|].
    split; [|split; [exact Hl|exact He]]. rewrite Hv, skipn_all2, app_nil_r; [reflexivity|]. now rewrite map_length.
  - destruct file as [|ch file]; injection E as <-; [exact M|]. destruct (writable _); exact M.
Qed.

(** ** The statistics of a session *)
Variable fresh : stat V.
Variable sink : nat.
Notation log s := (log_of fresh (calls s)).
Definition stat_ok (n : nat) (s : sess) (e last : nat) (out : list item) : Prop :=
  l_mode (log s) = STOPPED /\ l_sinks (log s) = n /\ Stat_Model.epoch (l_hc (log s)) = last /\ Stat_Model.iterations (l_hc (log s)) = 0 /\
  items sink (l_reports (log s)) = out /\ epoch (training s) = e /\ (Z.of_nat e < 2 ^ 32)%Z.

Notation its := (epoch_iterations D cfg dl scaling).
Definition tits : nat := if hybrid then scaling (testing_samples tdl / batch_size tdl + 1) (testing_ratio tcfg)
                         else scaling (testing_samples dl / batch_size dl + 1) (testing_ratio cfg).
Definition twc : nat := if hybrid then tweight_count else weight_count.

(** A recording session with [es] events, [Generate] or not. *)
Lemma record cs now wc es now' (g : bool) n last out : sink < n ->
  let l := log_of fresh cs in
  l_mode l = STOPPED -> l_sinks l = n -> Stat_Model.epoch (l_hc l) = last -> Stat_Model.iterations (l_hc l) = 0 -> items sink (l_reports l) = out ->
  let '(tr, ep, it, w, out') := ev_run (D := D) wc es (is_training (l_hc l), last, 0, wc, out) in
  let l' := log_of fresh ((note_events loss_stat to_double updates clock wc ((cs ++ [StartRecording now]) ++ [SetWeights wc]) es ++ [StopRecording now']) ++
                          (if g then [Generate; Reset] else [Reset])) in
  l_mode l' = STOPPED /\ l_sinks l' = n /\ Stat_Model.epoch (l_hc l') = ep /\ Stat_Model.iterations (l_hc l') = 0 /\
  items sink (l_reports l') = out' ++ (if g then [Row tr ep it w] else []).
Proof using.
  intros Hs l H1 H2 H3 H4 H5.
  set (cs1 := (cs ++ [StartRecording now]) ++ [SetWeights wc]).
  assert (Em : log_of fresh cs1 = log_step fresh (log_step fresh l (StartRecording now)) (SetWeights wc)) by (unfold cs1; now rewrite !log_snoc).
  destruct (log_events fresh loss_stat to_double updates clock sink wc es cs1 (log_of fresh cs1)) as (G1 & G2 & G3).
  { rewrite Em. destruct l. cbn in H1. subst. reflexivity. }
  { rewrite Em. destruct l. cbn in H1, H2. subst. exact Hs. }
  { reflexivity. }
  assert (Es : summary sink (log_of fresh cs1) = (is_training (l_hc l), last, 0, wc, out)).
  { rewrite Em. destruct l. cbn in H1. subst. unfold summary. cbn in H4 |- *. now rewrite H4. }
  assert (En : l_sinks (log_of fresh cs1) = n) by (rewrite Em; destruct l; cbn in H1, H2; subst; reflexivity).
  rewrite Es in G3. rewrite En in G2. cbv zeta in G1, G2, G3. clearbody cs1. clear Em Es En.
  set (cs2 := note_events loss_stat to_double updates clock wc cs1 es) in *. clearbody cs2.
  destruct (ev_run wc es _) as [[[[tr ep] it] w] out']. unfold summary in G3. injection G3 as G3 G4 G5 G6 G7.
  destruct g.
  - change [Generate; Reset] with ([@Generate V] ++ [Reset]). rewrite app_assoc, !log_snoc. destruct (log_of fresh cs2) as [m ds k since h us rs].
    cbn in G1, G2, G3, G4, G5, G6. subst. cbn [log_step l_mode l_sinks l_hc elapsed cleared Stat_Model.epoch Stat_Model.iterations l_reports].
    rewrite items_app, items_to_all by exact Hs. repeat split; auto.
  - rewrite !log_snoc. destruct (log_of fresh cs2) as [m ds k since h us rs].
    cbn in G1, G2, G3, G4, G5, G6. subst. cbn [log_step l_mode l_sinks l_hc elapsed cleared Stat_Model.epoch Stat_Model.iterations l_reports].
    rewrite app_nil_r. repeat split; auto.
Qed.

Lemma with_stats_its b : epoch_iterations D (with_stats cfg b) dl scaling = its.
Proof using. reflexivity. Qed.

(** The part of [rows] that one command makes, and what it leaves for the next one. *)
Definition next_epoch (e : nat) (c : command) : nat :=
  match c with CTrain n _ => to_u32 (e + Z.to_nat n) | CSetEpoch x => Z.to_nat x | _ => e end.
Definition next_last (e last : nat) (c : command) : nat :=
  match c with CTrain n _ => if Z.to_nat n =? 0 then last else to_u32 (e + (Z.to_nat n - 1)) | _ => last end.
Lemma rows_cons e last c cs : rows its weight_count tits twc experiment e last (c :: cs) =
  rows its weight_count tits twc experiment e last [c] ++ rows its weight_count tits twc experiment (next_epoch e c) (next_last e last c) cs.
Proof using.
  destruct c; cbn [rows next_epoch next_last app]; rewrite ?app_nil_r; auto; destruct name; reflexivity.
Qed.

Lemma stat_step n (s s' : sess) c e last out : sink < n -> in_range c -> stat_ok n s e last out -> exec1 s c = Ok s' ->
  stat_ok n s' (next_epoch e c) (next_last e last c) (out ++ rows its weight_count tits twc experiment e last [c]).
Proof using.
  intros Hs Hr (S1 & S2 & S3 & S4 & S5 & S6 & S7) E.
  assert (Same : forall s1 : sess, calls s1 = calls s -> epoch (training s1) = epoch (training s) -> stat_ok n s1 e last (out ++ [])).
  { intros s1 C1 C2. unfold stat_ok. rewrite C1, C2, app_nil_r. auto 10. }
  destruct c; cbn [exec_command] in E; cbn [next_epoch next_last]; try (injection E as <-; apply Same; reflexivity).
  - apply bind_ok in E as (s1 & E1 & E). apply do_train_ok in E1 as (t & es & Et & ->). injection E as <-.
    cbn [training training_stats call_ with_calls] in Et.
    assert (S7' : (Z.of_nat (epoch (training s)) < 2 ^ 32)%Z) by now rewrite S6.
    pose proof (fun tr => train_says A _ dl pass set_mode lr_at scaling weight_count _ _ _ _ _ tr last out S7' Et) as Ts.
    destruct (Ts true) as (_ & Te & _). specialize (fun tr => proj1 (Ts tr)) as Tr. clear Ts. rewrite S6 in *. rewrite with_stats_its in Tr.
    cbn [rows]. rewrite app_nil_r.
    set (nn := Z.to_nat epochs) in *. set (la := if nn =? 0 then last else to_u32 (e + (nn - 1))) in *.
    match goal with |- stat_ok n ?s2 _ _ _ => set (s3 := s2) end.
    pose proof (fun tnow => record (calls s) (clock (length (calls s))) weight_count es tnow (no_snapshots =? 1)%Z n last out Hs S1 S2 S3 S4 S5) as R.
    rewrite Tr in R.
    assert (Ec : epoch (training s3) = to_u32 (e + nn)).
    { subst s3. unfold sync_epoch. destruct (no_snapshots =? 1)%Z, hybrid; cbn; exact Te. }
    assert (Ecs : exists tnow, calls s3 = (note_events loss_stat to_double updates clock weight_count ((calls s ++ [StartRecording (clock (length (calls s)))]) ++ [SetWeights weight_count]) es ++ [StopRecording tnow]) ++
       (if (no_snapshots =? 1)%Z then [Generate; Reset] else [Reset])).
    { subst s3. eexists. destruct (no_snapshots =? 1)%Z, hybrid; cbn; rewrite <- ?app_assoc; reflexivity. }
    destruct Ecs as (tnow & Ecs). specialize (R tnow). clearbody s3. unfold stat_ok. rewrite Ecs, Ec.
    destruct (no_snapshots =? 1)%Z; cbn [negb] in R; destruct R as (R1 & R2 & R3 & R4 & R5); rewrite ?app_nil_r in R5; repeat split; auto; apply to_u32_bound.
  - apply bind_ok in E as (s1 & E1 & E). injection E as <-. cbn [rows].
    match goal with |- stat_ok n ?s2 _ _ _ => set (s3 := s2) end.
    assert (Ecs : epoch (training s3) = e /\ exists tnow es w, (forall tr, ev_run w es (tr, last, 0, w, out) = (false, last, tits, w, out)) /\ w = twc /\
      calls s3 = (note_events loss_stat to_double updates clock w ((calls s ++ [StartRecording (clock (length (calls s)))]) ++ [SetWeights w]) es ++ [StopRecording tnow]) ++ [Generate; Reset]).
    { unfold tits, twc. unfold sync_epoch in E1. destruct hybrid.
      - apply bind_ok in E1 as (vs & Ev & E1). apply bind_ok in E1 as ([t' cs] & E2 & E1). injection E1 as <-.
        unfold do_test in E2. apply bind_ok in E2 as ([t1 es] & E3 & E2). injection E2 as <- <-. split; [exact S6|].
        eexists. exists es, tweight_count. split; [|split; [reflexivity|]].
        + intros tr. apply (test_says A _ tdl tforward tset_mode scaling tweight_count _ _ _ tr last tweight_count out) in E3 as (-> & _). reflexivity.
        + subst s3. cbn. rewrite <- ?app_assoc. reflexivity.
      - apply bind_ok in E1 as ([t' cs] & E2 & E1). injection E1 as <-.
        unfold do_test in E2. apply bind_ok in E2 as ([t1 es] & E3 & E2). injection E2 as <- <-. split.
        + apply (test_says A _ dl forward set_mode scaling weight_count _ _ _ true last weight_count out) in E3 as (_ & w & ->). exact S6.
        + eexists. exists es, weight_count. split; [|split; [reflexivity|]].
          * intros tr. apply (test_says A _ dl forward set_mode scaling weight_count _ _ _ tr last weight_count out) in E3 as (-> & _). reflexivity.
          * subst s3. cbn. rewrite <- ?app_assoc. reflexivity. }
    destruct Ecs as (Ee & tnow & es & w & Er & Ew & Ecs). clearbody s3.
    pose proof (record (calls s) (clock (length (calls s))) w es tnow true n last out Hs S1 S2 S3 S4 S5) as R. rewrite Er in R.
    unfold stat_ok. rewrite Ecs, Ee. cbv zeta in R. destruct R as (R1 & R2 & R3 & R4 & R5). rewrite <- Ew. auto 10.
  - destruct file as [|ch file]; [injection E as <-; apply Same; reflexivity|]. destruct (files s (ch :: file)) as [bytes|]; [|injection E as <-; apply Same; reflexivity].
    apply bind_ok in E as (ls & El & E). destruct (moved _ _ _ _) as [bs f].
    destruct hybrid; [apply shadow_ok in E as (_ & ->)|injection E as <-]; apply Same; reflexivity.
  - destruct file as [|ch file]; injection E as <-; apply Same; try reflexivity; destruct (writable _); reflexivity.
  - destruct name as [|ch name]; injection E as <-; [apply Same; reflexivity|]. unfold stat_ok. cbn [calls call_ with_calls training rows].
    rewrite log_snoc. destruct (log s) as [m ds k since h us rs]. cbn in S1, S2, S3, S4. cbn [l_reports] in S5. subst m k.
    cbn [log_step l_mode l_sinks l_hc l_reports]. rewrite items_app, items_to_all by exact Hs. rewrite S5. auto 10.
  - injection E as <-. unfold stat_ok. cbn [rows]. rewrite app_nil_r. cbn in Hr.
    unfold sync_epoch; destruct hybrid; cbn; repeat split; auto; lia.
  - destruct (init_weights _ _) as [w ls]. destruct hybrid; [apply shadow_ok in E as (_ & ->)|injection E as <-]; apply Same; reflexivity.
  - destruct file as [|ch file]; injection E as <-; apply Same; try reflexivity; destruct (writable _); reflexivity.
Qed.

(** ** Calls to the aggregator *)
Definition harmless (c : call V) : bool := match c with RegisterStat _ | RegisterSink | Initialize => false | _ => true end.
Lemma harmless_events wc : forall es cs, exists y, note_events (D := D) loss_stat to_double updates clock wc cs es = cs ++ y /\ forallb harmless y = true.
Proof using.
  unfold note_events. induction es as [|e es IH]; intros cs; cbn [fold_left].
  - exists []. now rewrite app_nil_r.
  - destruct (IH (note_event loss_stat to_double updates clock wc cs e)) as (y & -> & Hy). unfold note_event.
    exists ((map (fun '(id, v) => Update id v) (updates (length cs)) ++ event_calls loss_stat to_double clock wc (length cs) e) ++ y).
    rewrite <- !app_assoc. split; [reflexivity|]. rewrite !forallb_app, Hy, andb_true_r. apply andb_true_iff. split.
    + apply forallb_forall. intros c Hc. apply in_map_iff in Hc as ([id v] & <- & _). reflexivity.
    + destruct e; reflexivity.
Qed.
Lemma harmless_disciplined : forall x y, disciplined true x = true -> forallb harmless y = true -> disciplined true (x ++ y) = true.
Proof using.
  assert (H : forall y, forallb harmless y = true -> disciplined true y = true).
  { induction y as [|c y IH]; intros H; [reflexivity|]. cbn in H. apply andb_true_iff in H as (H1 & H2). destruct c; try discriminate; cbn; now apply IH. }
  induction x as [|c x IH]; intros y Hx Hy; [now apply H|]. destruct c; cbn in *; try discriminate; now apply IH.
Qed.
Lemma harmless_registered : forall y, forallb harmless y = true -> registered y = [].
Proof using. unfold registered. induction y as [|c y IH]; intros H; [reflexivity|]. cbn in H. apply andb_true_iff in H as (H1 & H2). destruct c; try discriminate; cbn; now apply IH. Qed.

Lemma exec_calls (s s' : sess) c : exec1 s c = Ok s' -> exists y, calls s' = calls s ++ y /\ forallb harmless y = true.
Proof using.
  intros E. assert (Same : forall s1 : sess, calls s1 = calls s -> exists y, calls s1 = calls s ++ y /\ forallb harmless y = true).
  { intros s1 ->. exists []. now rewrite app_nil_r. }
  destruct c; cbn [exec_command] in E; try (injection E as <-; now apply Same).
  - apply bind_ok in E as (s1 & E1 & E). apply do_train_ok in E1 as (t & es & Et & ->). injection E as <-.
    destruct (harmless_events weight_count es (calls (call_ s (StartRecording (clock (length (calls s))))) ++ [SetWeights weight_count])) as (y & Hy & H).
    cbn [call_ with_calls calls] in *.
    unfold sync_epoch. destruct hybrid, (no_snapshots =? 1)%Z; eexists (([StartRecording (clock (length (calls s))); SetWeights weight_count] ++ y) ++ _); cbn [call_ with_calls calls with_training with_testing]; rewrite Hy, <- !app_assoc; (split; [reflexivity|]); cbn [app forallb harmless andb]; rewrite forallb_app, H; reflexivity.
  - apply bind_ok in E as (s1 & E1 & E). injection E as <-. unfold sync_epoch in E1. destruct hybrid.
    + apply bind_ok in E1 as (vs & Ev & E1). apply bind_ok in E1 as ([t' cs] & E2 & E1). injection E1 as <-.
      unfold do_test in E2. apply bind_ok in E2 as ([t1 es] & E3 & E2). injection E2 as <- <-.
      destruct (harmless_events tweight_count es (calls (call_ s (StartRecording (clock (length (calls s))))) ++ [SetWeights tweight_count])) as (y & Hy & H).
      cbn [call_ with_calls calls] in *.
      eexists (([StartRecording (clock (length (calls s))); SetWeights tweight_count] ++ y) ++ _).
      cbn [call_ with_calls calls with_training with_testing snd fst]; rewrite Hy, <- !app_assoc; (split; [reflexivity|]); cbn [app forallb harmless andb]; rewrite forallb_app, H; reflexivity.
    + apply bind_ok in E1 as ([t' cs] & E2 & E1). injection E1 as <-.
      unfold do_test in E2. apply bind_ok in E2 as ([t1 es] & E3 & E2). injection E2 as <- <-.
      destruct (harmless_events weight_count es (calls (call_ s (StartRecording (clock (length (calls s))))) ++ [SetWeights weight_count])) as (y & Hy & H).
      cbn [call_ with_calls calls] in *.
      eexists (([StartRecording (clock (length (calls s))); SetWeights weight_count] ++ y) ++ _).
      cbn [call_ with_calls calls with_training with_testing snd fst]; rewrite Hy, <- !app_assoc; (split; [reflexivity|]); cbn [app forallb harmless andb]; rewrite forallb_app, H; reflexivity.
  - destruct file as [|ch file]; [injection E as <-; now apply Same|]. destruct (files s (ch :: file)) as [bytes|]; [|injection E as <-; now apply Same].
    apply bind_ok in E as (ls & El & E). destruct (moved _ _ _ _) as [bs f].
    destruct hybrid; [apply shadow_ok in E as (_ & ->)|injection E as <-]; now apply Same.
  - destruct file as [|ch file]; injection E as <-; apply Same; try reflexivity; destruct (writable _); reflexivity.
  - destruct name as [|ch name]; injection E as <-; [now apply Same|]. eexists. split; [reflexivity|]. reflexivity.
  - injection E as <-. unfold sync_epoch; destruct hybrid; now apply Same.
  - destruct (init_weights _ _) as [w ls]. destruct hybrid; [apply shadow_ok in E as (_ & ->)|injection E as <-]; now apply Same.
  - destruct file as [|ch file]; injection E as <-; apply Same; try reflexivity; destruct (writable _); reflexivity.
Qed.

End Commands.

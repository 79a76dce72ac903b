(** C84: the files of the experiments record what the statistics reported. *)
From Coq Require Import Ascii String.
From Verif Require Import Base BaseFacts Str_Model Stat_Model Stat_Spec Stat_Proofs Stat_Props Csv_Model Csv_Props StatFiles_Model StatFiles_Spec Trainer_Model Session_Model Session_Spec Session_Proofs SessionSteps_Proofs Session_Props.
Local Open Scope list_scope.
Local Open Scope nat_scope.

Section Files.
Variable V : Type.
Variable zero : V.
Variable show_real : V -> str.
Variable show_count : nat -> str.
Variable writable : str -> bool.
Variable of_ticks : Z -> V.
Variables (experiment description : nat -> str).
Hypothesis Hreal : forall v, plain (show_real v).
Hypothesis Hcount : forall n, plain (show_count n).
Notation event := (csv_event V show_real show_count writable of_ticks experiment description).
Notation sink := (csv_sink V show_real show_count writable of_ticks experiment description).

(** The header and the line for a report. *)
Definition header (n : nat) : list str :=
  [s_ "IsTraining"; s_ "Epoch"; s_ "Iterations"; s_ "SecondsElapsed"] ++ at_least_one (map (fun i => stripped (description i)) (seq 0 n)).
Definition line (r : hardcoded * list (stat V)) : list str :=
  [if is_training (fst r) then s_ "1" else s_ "0"; show_count (Stat_Model.epoch (fst r)); show_count (Stat_Model.iterations (fst r)); show_real (of_ticks (seconds (fst r)))] ++
  at_least_one (map (fun s => if s_null s then [] else show_real (s_value s)) (snd r)).
(** Its text. *)
Definition as_text (lines : list (list str)) : str := flat_map (fun l => joined l ++ [newline]) lines.

Lemma as_text_snoc ls l : as_text (ls ++ [l]) = as_text ls ++ joined l ++ [newline].
Proof. unfold as_text. rewrite flat_map_app. cbn [flat_map]. now rewrite app_nil_r. Qed.
Lemma as_text_table ls : Forall (fun l => l <> [] /\ Forall plain l) ls -> table (as_text ls) ls.
Proof.
  unfold table. change ","%char with comma. change (ascii_of_nat 10) with newline.
  induction ls as [|l ls IH]; intros H; [reflexivity|]. inversion H as [|? ? [Hn Hp] H']; subst. unfold as_text. cbn [flat_map]. rewrite <- app_assoc. cbn [app].
  rewrite pieces_app by now apply joined_no_newline. cbn [map]. rewrite pieces_joined by assumption. f_equal. now apply IH.
Qed.
Lemma plain_one l : Forall plain l -> Forall plain (at_least_one l).
Proof. intros H. destruct l as [|a l]; [repeat constructor; intros []|exact H]. Qed.
Lemma header_plain n : header n <> [] /\ Forall plain (header n).
Proof.
  split; [discriminate|]. unfold header. apply Forall_app. split.
  - repeat constructor; cbn; intuition discriminate.
  - apply plain_one. apply Forall_forall. intros t Ht. apply in_map_iff in Ht as (d & <- & _). apply stripped_plain.
Qed.
Lemma line_plain r : line r <> [] /\ Forall plain (line r).
Proof.
  split; [discriminate|]. unfold line. apply Forall_app. split.
  - repeat constructor; try apply Hcount; try apply Hreal; destruct (is_training (fst r)); cbn; intuition discriminate.
  - apply plain_one. apply Forall_forall. intros t Ht. apply in_map_iff in Ht as (s & <- & _). destruct (s_null s); [split; intros []|apply Hreal].
Qed.

Lemma file_of_inj a b : file_of a = file_of b -> a = b.
Proof. unfold file_of. intros E. apply app_inv_head in E. now apply app_inv_tail in E. Qed.
Lemma same_name_spec a b : same_name a b = true <-> a = b.
Proof. unfold same_name. destruct (list_eq_dec ascii_dec a b); split; congruence. Qed.

(** The state of a sink with [n] statistics: the file of the current experiment is open, and the files hold what was kept. *)
Definition holds (files : str -> option str) (n : nat) (current : option str) (k : str -> option (list (hardcoded * list (stat V)))) (st : csv) : Prop :=
  c_descs st = map description (seq 0 n) /\ c_open st = option_map file_of current /\
  (forall name, current = Some name -> k name <> None) /\
  (forall name, c_files st (file_of name) = match k name with Some rs => Some (as_text (header n :: map line rs)) | None => files (file_of name) end) /\
  (forall g, (forall name, g <> file_of name) -> c_files st g = files g).

Lemma holds_ext files n current k k' st : (forall name, k name = k' name) -> holds files n current k st -> holds files n current k' st.
Proof.
  intros E (A & B & C & D & F). split; [exact A|]. split; [exact B|]. split; [|split; [|exact F]].
  - intros name H. rewrite <- E. now apply C.
  - intros name. rewrite <- E. apply D.
Qed.

Definition after (k : str -> option (list (hardcoded * list (stat V)))) (current : option str) (es : list (sink_event V)) (name : str) :=
  kept experiment name (match current with Some c => same_name c name | None => false end) (k name) es.

Definition proper (n : nat) (e : sink_event V) : Prop :=
  match e with SinkInitialize _ => False | SinkProcess _ outs => length outs = n | SinkExperiment k => writable (file_of (experiment k)) = true end.

Lemma sink_holds files n : (forall i, i < n -> ascii_text (description i)) -> forall es current k st, holds files n current k st -> Forall (proper n) es ->
  exists current' st', foldm event es st = Ok st' /\ holds files n current' (after k current es) st'.
Proof.
  intros Ha. induction es as [|e es IH]; intros current k st H He.
  - exists current, st. split; [reflexivity|]. unfold after. cbn [kept]. exact H.
  - inversion He as [|? ? H1 H2]; subst. destruct H as (Hd & Ho & Hk & Hf & Hg). destruct e as [m|h outs|x]; [contradiction| |]; cbn [foldm csv_event].
    + (* a report *)
      set (r := mkRow V _ _ _ _ _). destruct current as [c|].
      * specialize (Hk c eq_refl) as Hc. pose proof (Hf c) as Hfc. destruct (k c) as [rs|] eqn:Ek; [|contradiction]. cbn [option_map] in Ho.
        destruct (process_spec V show_real show_count r st (file_of c) Ho ltac:(congruence)) as (st1 & E1 & (D1 & O1 & (old & F0 & F1) & N1)).
        { rewrite Hd, map_length, seq_length. cbn. cbn in H1. lia. }
        assert (Ef : fields V show_real show_count r (length (c_descs st)) = line (h, outs)).
        { unfold fields. rewrite Hd, map_length, seq_length, firstn_all2; [reflexivity|]. unfold proper in H1. unfold r. cbn [r_stats]. lia. }
        rewrite E1. cbn [bind].
        set (k1 := fun name => if same_name c name then option_map (fun l => l ++ [(h, outs)]) (k name) else k name).
        destruct (IH (Some c) k1 st1) as (cur' & st' & E & H'); [|exact H2|].
        { split; [congruence|]. split; [exact O1|]. split; [|split].
          - intros name [= <-]. unfold k1. rewrite (proj2 (same_name_spec c c) eq_refl), Ek. discriminate.
          - intros name. unfold k1. destruct (same_name c name) eqn:Es.
            + apply same_name_spec in Es. subst name. rewrite Ek. cbn [option_map]. rewrite F1. assert (Eo : old = as_text (header n :: map line rs)) by congruence.
              subst old. rewrite Ef. f_equal. rewrite map_app. symmetry. exact (as_text_snoc (header n :: map line rs) (line (h, outs))).
            + rewrite <- Hf. apply N1. intros E. apply file_of_inj in E. subst name. rewrite (proj2 (same_name_spec c c) eq_refl) in Es. discriminate.
          - intros g Hg'. rewrite <- Hg by exact Hg'. apply N1. apply Hg'. }
        exists cur', st'. split; [exact E|]. replace (after k (Some c) (SinkProcess h outs :: es)) with (after k1 (Some c) es); [exact H'|].
        reflexivity.
      * cbn [option_map] in Ho. unfold process. rewrite Ho. cbn [bind].
        destruct (IH None k st) as (cur' & st' & E & H'); [repeat split; auto|exact H2|]. exists cur', st'. split; [exact E|]. exact H'.
    + (* a new experiment *)
      set (c := experiment x) in *. cbn in H1. fold c in H1.
      destruct (set_spec writable c st H1) as (st1 & E1 & D1 & O1 & F1 & N1).
      { rewrite Hd. apply Forall_forall. intros d Hin. apply in_map_iff in Hin as (i & <- & Hi). apply in_seq in Hi. apply Ha. lia. }
      rewrite E1. cbn [bind].
      set (k1 := fun name => if same_name c name then Some [] else k name).
      destruct (IH (Some c) k1 st1) as (cur' & st' & E & H'); [|exact H2|].
      * split; [congruence|]. split; [exact O1|]. split; [|split].
        -- intros name [= <-]. unfold k1. rewrite (proj2 (same_name_spec c c) eq_refl). discriminate.
        -- intros name. unfold k1. destruct (same_name c name) eqn:Es.
           ++ apply same_name_spec in Es. subst name. change (file_of c) with (csv_name c). rewrite F1. unfold as_text, header. cbn [map flat_map]. rewrite app_nil_r.
              do 2 f_equal. rewrite Hd, map_map. reflexivity.
           ++ rewrite <- Hf. apply N1. intros E. change (csv_name c) with (file_of c) in E. apply file_of_inj in E. subst name.
              rewrite (proj2 (same_name_spec c c) eq_refl) in Es. discriminate.
        -- intros g Hg'. rewrite <- Hg by exact Hg'. apply N1. apply Hg'.
      * exists cur', st'. split; [exact E|]. revert H'. apply holds_ext. intros name. unfold after, k1. cbn [kept]. fold c. now destruct (same_name c name).
Qed.

(** ** What the aggregator tells a sink *)
Notation fresh := (mkStat zero false).
Lemma told_app s (a b : list (nat * sink_event V)) : told s (a ++ b) = told s a ++ told s b.
Proof. unfold told. now rewrite filter_app, map_app. Qed.
Lemma told_all s n (e : sink_event V) : told s (to_all n e) = if s <? n then [e] else [].
Proof.
  unfold to_all. induction n as [|n IH]; [reflexivity|]. rewrite seq_S, map_app, told_app, IH. cbn [map Nat.add]. unfold told. cbn [filter map fst].
  destruct (Nat.eqb_spec n s) as [->|N].
  - rewrite (proj2 (Nat.ltb_ge s s)), (proj2 (Nat.ltb_lt s (S s))) by lia. reflexivity.
  - cbn [map]. rewrite app_nil_r. destruct (Nat.ltb_spec s n), (Nat.ltb_spec s (S n)); try reflexivity; lia.
Qed.
Lemma report_length h ds us : length (report fresh h ds us) = length ds.
Proof. unfold report. rewrite map_length, combine_length, seq_length. lia. Qed.

Lemma log_regs k : forall ds n rs, Forall registration k ->
  fold_left (log_step fresh) k (mkLog INIT ds n 0 (mkHC 0 0 0 0 false) [] rs) = mkLog INIT (ds ++ registered k) (n + sink_count k) 0 (mkHC 0 0 0 0 false) [] rs.
Proof.
  induction k as [|c k IH]; intros ds n rs Hk.
  - cbn. now rewrite Nat.add_0_r, app_nil_r.
  - inversion Hk as [|? ? K1 K2]; subst. destruct c; try contradiction; cbn [fold_left log_step].
    + rewrite IH by exact K2. unfold registered at 2. cbn [flat_map]. fold (registered k). now rewrite <- app_assoc.
    + rewrite IH by exact K2. unfold sink_count, registered. cbn. f_equal. lia.
Qed.

Definition quiet (n : nat) (names : nat -> Prop) (e : sink_event V) : Prop :=
  match e with SinkInitialize _ => False | SinkProcess _ outs => length outs = n | SinkExperiment k => names k end.
Lemma log_rest s (names : nat -> Prop) rest : forall l, l_mode l <> INIT -> disciplined true rest = true -> (forall k, In (Stat_Model.SetExperiment k) rest -> names k) ->
  exists es, told s (l_reports (fold_left (log_step fresh) rest l)) = told s (l_reports l) ++ es /\ Forall (quiet (length (l_descs l)) names) es.
Proof.
  induction rest as [|c rest IH]; intros l Hm Hd Hn.
  - exists []. cbn. rewrite app_nil_r. auto.
  - assert (Step : exists x, told s (l_reports (log_step fresh l c)) = told s (l_reports l) ++ x /\ Forall (quiet (length (l_descs l)) names) x /\
      l_mode (log_step fresh l c) <> INIT /\ l_descs (log_step fresh l c) = l_descs l /\ disciplined true rest = true).
    { destruct l as [m ds n since h us rs]. cbn [l_mode l_descs l_reports] in *.
      assert (Same : told s rs = told s rs ++ [] /\ Forall (quiet (length ds) names) []) by (rewrite app_nil_r; auto).
      destruct c; cbn [disciplined negb andb] in Hd; try discriminate Hd; destruct m; try contradiction; cbn [log_step l_mode l_descs l_reports];
        try (exists []; split; [exact (proj1 Same)|]; split; [constructor|]; split; [discriminate|]; split; [reflexivity|exact Hd]);
        try (destruct (_ <? _); exists []; cbn [l_mode l_descs l_reports]; (split; [exact (proj1 Same)|]; split; [constructor|]; split; [discriminate|]; split; [reflexivity|exact Hd])).
      all: rewrite told_app, told_all; eexists; (split; [reflexivity|]); split; [|split; [discriminate|split; [reflexivity|exact Hd]]]; destruct (s <? n); repeat constructor; cbn [quiet];
        rewrite ?report_length; auto; apply Hn; now left. }
    destruct Step as (x & X1 & X2 & X3 & X4 & X5). cbn [fold_left]. destruct (IH (log_step fresh l c) X3 X5 ltac:(intros k Hk; apply Hn; now right)) as (es & E & Q).
    exists (x ++ es). rewrite E, X1, <- app_assoc. split; [reflexivity|]. apply Forall_app. split; [exact X2|]. now rewrite <- X4.
Qed.

Lemma files_hold regs rest s files a :
  Forall registration regs -> Forall resets (registered regs) -> disciplined true rest = true -> s < sink_count regs ->
  (forall i, i < length (registered regs) -> ascii_text (description i)) ->
  Stat_Model.run zero (regs ++ Stat_Model.Initialize :: rest) = Ok a ->
  (forall k, In (SinkExperiment k) (told s (trace a)) -> writable (file_of (experiment k)) = true) ->
  exists st, sink s files (trace a) = Ok st /\
    (forall name, match kept experiment name false None (told s (trace a)) with
       | Some reports => exists text, c_files st (file_of name) = Some text /\ table text (header (length (registered regs)) :: map line reports)
       | None => c_files st (file_of name) = files (file_of name)
       end) /\
    (forall g, (forall name, g <> file_of name) -> c_files st g = files g) /\
    (forall name reports r, kept experiment name false None (told s (trace a)) = Some reports -> In r reports -> length (snd r) = length (registered regs)).
Proof using Hreal Hcount.
  intros Hr Hi Hd Hs Ha Ea Hw.
  assert (Dr : registered rest = []).
  { clear -Hd. induction rest as [|c rest IH]; [reflexivity|]. unfold registered. cbn [flat_map]. fold (registered rest). destruct c; cbn in Hd; try discriminate; now apply IH. }
  assert (D0 : disciplined false (regs ++ Stat_Model.Initialize :: rest) = true).
  { clear -Hr Hd. induction Hr as [|c regs H1 H2 IH]; [exact Hd|]. destruct c; try contradiction; exact IH. }
  assert (R0 : Forall resets (registered (regs ++ Stat_Model.Initialize :: rest))).
  { unfold registered. rewrite flat_map_app. cbn [flat_map]. fold (registered regs) (registered rest). rewrite Dr. now rewrite app_nil_r. }
  destruct (C16_reports V zero _ R0 D0) as (a' & Ea' & Et). assert (a' = a) by congruence. subst a'. set (n := length (registered regs)) in *.
  assert (T : exists es, told s (trace a) = SinkInitialize n :: SinkExperiment 0 :: es /\ Forall (proper n) (SinkExperiment 0 :: es)).
  { rewrite Et. unfold log_of, empty_log. rewrite fold_left_app, log_regs by exact Hr. cbn [fold_left log_step Nat.add app].
    destruct (log_rest s (fun _ => True) rest
      (mkLog STOPPED (registered regs) (sink_count regs) 0 (cleared (mkHC 0 0 0 0 false)) [] (to_all (sink_count regs) (SinkInitialize (length (registered regs))) ++ to_all (sink_count regs) (SinkExperiment 0)))
      ltac:(discriminate) Hd ltac:(intros; exact I)) as (es & E & Q).
    exists es. rewrite E. cbn [l_reports]. rewrite told_app, !told_all, (proj2 (Nat.ltb_lt _ _) Hs). split; [reflexivity|].
    assert (W : forall k, In (SinkExperiment k) (SinkExperiment 0 :: es) -> writable (file_of (experiment k)) = true).
    { intros k Hk. apply Hw. rewrite Et. unfold log_of, empty_log. rewrite fold_left_app, log_regs by exact Hr. cbn [fold_left log_step Nat.add app]. rewrite E. cbn [l_reports].
      rewrite told_app, !told_all, (proj2 (Nat.ltb_lt _ _) Hs). now right. }
    constructor; [apply W; now left|]. rewrite Forall_forall in Q |- *. intros [m|h o|k] Hin; specialize (Q _ Hin); cbn [quiet proper] in *; auto. apply W. now right. }
  destruct T as (es & T & Q).
  destruct (sink_holds files n Ha (SinkExperiment 0 :: es) None (fun _ => None) (csv_initialize (map description (seq 0 n)) (new_csv files))) as (cur & st & E & (_ & _ & _ & Hf & Hg)); [|exact Q|].
  { split; [reflexivity|]. split; [reflexivity|]. split; [discriminate|]. split; [reflexivity|]. reflexivity. }
  exists st. split; [|split; [|split; [exact Hg|]]].
  - unfold csv_sink. fold (told s (trace a)). rewrite T. exact E.
  - intros name. rewrite T. specialize (Hf name). unfold after in Hf. cbn [kept] in Hf |- *. destruct (if same_name (experiment 0) name then _ else _) as [rs|]; [|exact Hf].
    eexists. split; [exact Hf|]. apply as_text_table. constructor; [apply header_plain|]. apply Forall_forall. intros l Hl. apply in_map_iff in Hl as (r & <- & _). apply line_plain.
  - intros name reports r. rewrite T.
    assert (G : forall es now before, Forall (proper n) es -> (forall l r, before = Some l -> In r l -> length (snd r) = n) ->
      forall l r, kept experiment name now before es = Some l -> In r l -> length (snd r) = n).
    { clear. induction es as [|e es IH]; intros now before He Hb; [exact Hb|]. inversion He as [|? ? H1 H2]; subst. destruct e as [m|h outs|k]; cbn [kept].
      - now apply IH.
      - apply IH; [exact H2|]. destruct now; [|exact Hb]. destruct before as [l0|]; [|discriminate]. intros l r [= <-] Hr. apply in_app_iff in Hr as [Hr|[<-|[]]]; [eapply Hb; eauto|exact H1].
      - destruct (same_name _ _); apply IH; auto. intros l r [= <-] []. }
    apply (G (SinkExperiment 0 :: es) false None); [exact Q|discriminate].
Qed.

(** The files after any calls of a program that registers its statistics and sinks, initializes, and goes on in any way: the file of every experiment is
    a table with one line for each report made since the experiment was started for the last time, and while it was the current one; its fields are those
    of the report.  Files of other names are untouched. *)
Theorem C84_files regs rest s files :
  Forall registration regs -> Forall resets (registered regs) -> disciplined true rest = true -> s < sink_count regs ->
  (forall i, i < length (registered regs) -> ascii_text (description i)) ->
  (forall k, k = 0 \/ In (Stat_Model.SetExperiment k) rest -> writable (file_of (experiment k)) = true) ->
  exists a st, Stat_Model.run zero (regs ++ Stat_Model.Initialize :: rest) = Ok a /\ sink s files (trace a) = Ok st /\
    (forall name, match kept experiment name false None (told s (trace a)) with
       | Some reports => exists text, c_files st (file_of name) = Some text /\ table text (header (length (registered regs)) :: map line reports)
       | None => c_files st (file_of name) = files (file_of name)
       end) /\
    forall g, (forall name, g <> file_of name) -> c_files st g = files g.
Proof using Hreal Hcount.
  intros Hr Hi Hd Hs Ha Hw.
  assert (Dr : registered rest = []).
  { clear -Hd. induction rest as [|c rest IH]; [reflexivity|]. unfold registered. cbn [flat_map]. fold (registered rest). destruct c; cbn in Hd; try discriminate; now apply IH. }
  assert (D0 : disciplined false (regs ++ Stat_Model.Initialize :: rest) = true).
  { clear -Hr Hd. induction Hr as [|c regs H1 H2 IH]; [exact Hd|]. destruct c; try contradiction; exact IH. }
  assert (R0 : Forall resets (registered (regs ++ Stat_Model.Initialize :: rest))).
  { unfold registered. rewrite flat_map_app. cbn [flat_map]. fold (registered regs) (registered rest). rewrite Dr. now rewrite app_nil_r. }
  destruct (C16_reports V zero _ R0 D0) as (a & Ea & Et).
  destruct (files_hold regs rest s files a Hr Hi Hd Hs Ha Ea) as (st & E & Hf & Hg & _); [|exists a, st; auto].
  intros k Hk. apply Hw. rewrite Et in Hk. unfold log_of, empty_log in Hk. rewrite fold_left_app, log_regs in Hk by exact Hr. cbn [fold_left log_step Nat.add app] in Hk.
  destruct (log_rest s (fun k => In (Stat_Model.SetExperiment k) rest) rest
    (mkLog STOPPED (registered regs) (sink_count regs) 0 (cleared (mkHC 0 0 0 0 false)) [] (to_all (sink_count regs) (SinkInitialize (length (registered regs))) ++ to_all (sink_count regs) (SinkExperiment 0)))
    ltac:(discriminate) Hd ltac:(auto)) as (es & E & Q).
  rewrite E in Hk. cbn [l_reports] in Hk. rewrite told_app, !told_all, (proj2 (Nat.ltb_lt _ _) Hs) in Hk. destruct Hk as [Hk|[Hk|Hk]]; [discriminate|left; congruence|].
  right. rewrite Forall_forall in Q. exact (Q _ Hk).
Qed.

(** ** Sessions *)
Definition item_of (e : sink_event V) : list item :=
  match e with
  | SinkProcess h _ => [Row (is_training h) (Stat_Model.epoch h) (Stat_Model.iterations h) (weights h)]
  | SinkExperiment n => [Experiment n]
  | SinkInitialize _ => []
  end.
Lemma items_told s (t : list (nat * sink_event V)) : items s t = flat_map item_of (told s t).
Proof.
  unfold items, told. induction t as [|[k e] t IH]; [reflexivity|]. cbn [flat_map filter fst]. rewrite IH. destruct (k =? s); [|reflexivity]. cbn [map flat_map snd]. now destruct e.
Qed.
Definition row_of (r : hardcoded * list (stat V)) : item := Row (is_training (fst r)) (Stat_Model.epoch (fst r)) (Stat_Model.iterations (fst r)) (weights (fst r)).
Lemma kept_rows_of name es : forall now before, kept_rows experiment name now (option_map (map row_of) before) (flat_map item_of es) = option_map (map row_of) (kept experiment name now before es).
Proof.
  induction es as [|e es IH]; intros now before; [reflexivity|]. destruct e as [m|h outs|k]; cbn [flat_map item_of app kept kept_rows].
  - apply IH.
  - rewrite <- IH. f_equal. destruct now; [|reflexivity]. destruct before as [l|]; [|reflexivity]. cbn [option_map]. now rewrite map_app.
  - destruct (same_name _ _); [|apply IH]. exact (IH true (Some [])).
Qed.
End Files.
Print Assumptions C84_files.

(** The files of the experiments after any commands of a session of trainNetwork: one line for each epoch of training, or each train command without
    snapshots, and one for each test, since the experiment of that name was set for the last time and while it was the current one; with the kind, the epoch
    and the iterations of that training or test.  All lines have as many fields as the header. *)
Theorem C84_session {D W V B : Type} (A : arith D) hybrid cfg dl (pass : W -> list (list (list D)) -> W * list D * list (list D)) forward set_mode lr_at scaling weight_count
  tcfg tdl tforward tset_mode tweight_count loss_stat (to_double : D -> V) updates clock experiment init_weights (save_params : _ -> list B) load_params can_save dot
  (zero : V) show_real show_count writable of_ticks name_of description regs cs (s0 s : session D W V B) sink files :
  (forall v, plain (show_real v)) -> (forall n, plain (show_count n)) ->
  (forall name, name_of (experiment name) = name) ->
  Forall registration regs -> sink < sink_count regs -> Forall resets (registered regs) -> (forall i, i < length (registered regs) -> ascii_text (description i)) ->
  (forall name, name = name_of 0 \/ In (CSetExperiment name) cs -> writable (file_of name) = true) ->
  calls s0 = regs ++ [Stat_Model.Initialize] -> (Z.of_nat (epoch (training s0)) < 2 ^ 32)%Z -> Forall in_range cs ->
  foldm (exec_command A hybrid cfg dl pass forward set_mode lr_at scaling weight_count tcfg tdl tforward tset_mode tweight_count
    loss_stat to_double updates clock experiment init_weights save_params load_params can_save dot) cs s0 = Ok s ->
  let n := length (registered regs) in
  let told_rows := Experiment 0 :: rows (epoch_iterations D cfg dl scaling) weight_count
        (if hybrid then scaling (testing_samples tdl / batch_size tdl + 1) (testing_ratio tcfg)
         else scaling (testing_samples dl / batch_size dl + 1) (testing_ratio cfg))
        (if hybrid then tweight_count else weight_count) experiment (epoch (training s0)) 0 cs in
  exists a st, Stat_Model.run zero (calls s) = Ok a /\
    csv_sink V show_real show_count writable of_ticks name_of description sink files (trace a) = Ok st /\
    (forall name, match kept_rows name_of name false None told_rows with
       | Some rs => exists text lines, c_files st (file_of name) = Some text /\ table text (header description n :: lines) /\
           Forall (fun l => length l = length (header description n)) lines /\
           map (firstn 3) lines = map (fun r => match r with
             | Row t e i _ => [if t then s_ "1" else s_ "0"; show_count e; show_count i]
             | Experiment _ => [] end) rs
       | None => c_files st (file_of name) = files (file_of name)
       end) /\
    forall g, (forall name, g <> file_of name) -> c_files st g = files g.
Proof.
  intros Hreal Hcount Hname Hr Hs Hi Ha Hw Hc Hb Hcs E n told_rows.
  destruct (C74_reports A hybrid cfg dl pass forward set_mode lr_at scaling weight_count tcfg tdl tforward tset_mode tweight_count
    loss_stat to_double updates clock experiment init_weights save_params load_params can_save dot zero regs cs s0 s Hr ltac:(lia) Hi Hc Hb Hcs E) as (a & Ea & _ & It).
  specialize (It sink Hs). fold told_rows in It.
  assert (Hx : exists x, calls s = calls s0 ++ x /\ disciplined true x = true).
  { eapply (foldm_inv (fun s1 => exists x, calls s1 = calls s0 ++ x /\ disciplined true x = true)); [|exists []; rewrite app_nil_r; auto|exact E].
    intros s1 c s2 _ (x & X1 & X2) E1. destruct (exec_calls A hybrid cfg dl pass forward set_mode lr_at scaling weight_count tcfg tdl tforward tset_mode tweight_count
      loss_stat to_double updates clock experiment init_weights save_params load_params can_save dot s1 s2 c E1) as (y & Y1 & Y2).
    exists (x ++ y). rewrite Y1, X1, app_assoc. split; [reflexivity|]. now apply harmless_disciplined. }
  destruct Hx as (x & X1 & X2). rewrite Hc, <- app_assoc in X1. cbn [app] in X1. rewrite X1 in Ea.
  rewrite items_told in It.
  assert (W' : forall k, In (SinkExperiment k) (told sink (trace a)) -> writable (file_of (name_of k)) = true).
  { intros k Hk. assert (In (Experiment k) told_rows).
    { rewrite <- It. apply in_flat_map. exists (SinkExperiment k). split; [exact Hk|now left]. }
    destruct H as [H|H]; [injection H as <-; apply Hw; now left|].
    assert (G : forall its wc tits twc cs e last, In (Experiment k) (rows its wc tits twc experiment e last cs) -> exists name, k = experiment name /\ In (CSetExperiment name) cs).
    { clear. induction cs as [|c cs IH]; intros e last H; [destruct H|]. assert (Next : forall e last, In (Experiment k) (rows its wc tits twc experiment e last cs) -> exists name, k = experiment name /\ In (CSetExperiment name) (c :: cs)).
      { intros e' last' H'. destruct (IH _ _ H') as (name & -> & Hin). exists name. split; [reflexivity|now right]. }
      destruct c; cbn [rows] in H; try (eapply Next; exact H).
      - apply in_app_iff in H as [H|H]; [|eapply Next; exact H]. destruct (no_snapshots =? 1)%Z; [destruct H as [H|[]]; discriminate|]. apply in_map_iff in H as (i & H & _). discriminate.
      - destruct H as [H|H]; [discriminate|]. eapply Next; exact H.
      - destruct name as [|ch name]; [eapply Next; exact H|]. destruct H as [H|H]; [|eapply Next; exact H]. injection H as <-. eexists. split; [reflexivity|now left]. }
    destruct (G _ _ _ _ _ _ _ H) as (name & -> & Hin). rewrite Hname. apply Hw. now right. }
  destruct (files_hold V zero show_real show_count writable of_ticks name_of description Hreal Hcount regs x sink files a Hr Hi X2 Hs Ha Ea W') as (st & Es & Hf & Hg & Hl).
  exists a, st. rewrite X1. split; [exact Ea|]. split; [exact Es|]. split; [|exact Hg]. intros name. specialize (Hf name). specialize (Hl name).
  pose proof (kept_rows_of V name_of name (told sink (trace a)) false None) as K. rewrite It in K. cbn [option_map] in K. rewrite K.
  destruct (kept name_of name false None (told sink (trace a))) as [reports|]; cbn [option_map]; [|exact Hf]. destruct Hf as (text & F1 & F2).
  exists text. eexists. split; [exact F1|]. split; [exact F2|]. split.
  - apply Forall_forall. intros l Hin. apply in_map_iff in Hin as (r & <- & Hr'). specialize (Hl _ r eq_refl Hr'). unfold line, header. rewrite !app_length. f_equal.
    assert (O : forall l l' : list str, length l = length l' -> length (at_least_one l) = length (at_least_one l')) by (intros [|] [|]; cbn; congruence).
    apply O. rewrite !map_length, seq_length. exact Hl.
  - rewrite !map_map. apply map_ext. intros [h o]. reflexivity.
Qed.
Print Assumptions C84_session.

(** ** Examples *)
Definition ex_name (k : nat) : str := match k with 0 => s_ "unnamed" | 1 => s_ "a" | _ => s_ "b" end.
Definition ex_description (i : nat) : str := match i with 0 => s_ "Aggregate loss" | _ => s_ "F1" end.
Definition ex_digit (n : nat) : str := [ascii_of_nat (48 + n mod 10)].
(** The last value, and the number of values. *)
Definition ex_regs : list (call nat) :=
  [Stat_Model.RegisterStat (mkDesc (fun _ => mkStat 0 true) (fun _ v => mkStat v false) (fun _ s => s)); Stat_Model.RegisterSink;
   Stat_Model.RegisterStat (mkDesc (fun _ => mkStat 0 false) (fun s _ => mkStat (S (s_value s)) false) (fun _ s => s))].
Definition ex_files (cs : list (call nat)) (before : str -> option str) : str -> option str :=
  match (a <- Stat_Model.run 0 cs ;; csv_sink nat ex_digit ex_digit (fun _ => true) Z.to_nat ex_name ex_description 0 before (trace a)) with
  | Ok st => c_files st
  | _ => fun _ => None
  end.
(** Two reports in experiment a, one in experiment b. *)
Definition ex_rest : list (call nat) :=
  [Stat_Model.SetExperiment 1; Stat_Model.StartRecording 5; Stat_Model.SetTraining true; Stat_Model.Update 0 7; Stat_Model.Update 1 2; Stat_Model.IterationDone; Stat_Model.Snapshot 8 9;
   Stat_Model.StopRecording 9; Stat_Model.Generate; Stat_Model.Reset; Stat_Model.SetExperiment 2; Stat_Model.StartRecording 9; Stat_Model.Update 1 4; Stat_Model.StopRecording 10; Stat_Model.Generate].
Example C84_witness : let nl := [ascii_of_nat 10] in let files := ex_files (ex_regs ++ Stat_Model.Initialize :: ex_rest) (fun _ => None) in
  Forall registration ex_regs /\ Forall resets (registered ex_regs) /\ disciplined true ex_rest = true /\ 0 < sink_count ex_regs /\
  (forall i, i < length (registered ex_regs) -> ascii_text (ex_description i)) /\ (forall v, plain (ex_digit v)) /\
  files (s_ "csv/a.csv") = Some (s_ "IsTraining,Epoch,Iterations,SecondsElapsed,Aggregateloss,F1" ++ nl ++ s_ "1,0,1,3,7,1" ++ nl ++ s_ "1,0,0,0,,0" ++ nl) /\
  files (s_ "csv/b.csv") = Some (s_ "IsTraining,Epoch,Iterations,SecondsElapsed,Aggregateloss,F1" ++ nl ++ s_ "1,0,0,1,,1" ++ nl) /\
  files (s_ "csv/unnamed.csv") = Some (s_ "IsTraining,Epoch,Iterations,SecondsElapsed,Aggregateloss,F1" ++ nl) /\ files (s_ "csv/c.csv") = None.
Proof.
  cbv zeta. split; [repeat constructor|]. split; [repeat constructor|]. split; [reflexivity|]. split; [cbn; lia|]. split.
  { intros i Hi. do 2 (destruct i as [|i]; [unfold ascii_text; cbn; repeat constructor|]). cbn in Hi. lia. }
  split. { intros v. unfold ex_digit. pose proof (Nat.mod_upper_bound v 10 ltac:(lia)) as Hv. set (k := v mod 10) in *. clearbody k. clear v. rename k into v.
    do 10 (destruct v as [|v]; [split; cbn; intuition discriminate|]). lia. }
  split; [|split; [|split]]; vm_compute; reflexivity.
Qed.

(** Finding: going back to an earlier experiment erases what was recorded for it: its file is truncated. *)
Theorem C84_return_refuted : ex_files (ex_regs ++ Stat_Model.Initialize :: ex_rest ++ [Stat_Model.SetExperiment 1]) (fun _ => None) (s_ "csv/a.csv") =
  Some (s_ "IsTraining,Epoch,Iterations,SecondsElapsed,Aggregateloss,F1" ++ [ascii_of_nat 10]).
Proof. vm_compute. reflexivity. Qed.
Print Assumptions C84_return_refuted.

(** Finding: every start of the program erases csv/unnamed.csv, the statistics of the last run for which no experiment was set, even if an experiment is set
    before anything is trained. *)
Theorem C84_unnamed_refuted : ex_files (ex_regs ++ [Stat_Model.Initialize; Stat_Model.SetExperiment 1]) (fun f => if same_name f (s_ "csv/unnamed.csv") then Some (s_ "old lines") else None) (s_ "csv/unnamed.csv") =
  Some (s_ "IsTraining,Epoch,Iterations,SecondsElapsed,Aggregateloss,F1" ++ [ascii_of_nat 10]).
Proof. vm_compute. reflexivity. Qed.
Print Assumptions C84_unnamed_refuted.

(** Finding: a sink that is registered after Initialize is not told the statistics: it writes lines without them, and without any message. *)
Theorem C84_late_sink_refuted : let late := [Stat_Model.Initialize; Stat_Model.RegisterSink; Stat_Model.SetExperiment 1; Stat_Model.StartRecording 0; Stat_Model.Update 0 7; Stat_Model.StopRecording 3; Stat_Model.Generate] in
  exists d, registered (Stat_Model.RegisterStat d :: late) = [d] /\
    ex_files (Stat_Model.RegisterStat d :: late) (fun _ => None) (s_ "csv/a.csv") = Some (s_ "IsTraining,Epoch,Iterations,SecondsElapsed," ++ [ascii_of_nat 10] ++ s_ "0,0,0,3," ++ [ascii_of_nat 10]).
Proof. exists (mkDesc (fun _ => mkStat 0 true) (fun _ v => mkStat v false) (fun _ s => s)). split; [reflexivity|]. vm_compute. reflexivity. Qed.
Print Assumptions C84_late_sink_refuted.

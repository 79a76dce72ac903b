(** C74: sessions of trainNetwork. *)
From Coq Require Import Ascii String List ZArith NArith Lia.
From Verif Require Import Base BaseFacts LoopFacts Str_Model Str_Proofs Config_Model Config_Spec Config_Proofs Config_Props Stat_Model Stat_Spec Stat_Proofs Stat_Props
  Trainer_Model Trainer_Spec TrainerLoop_Proofs Trainer_Proofs Trainer_Props Session_Model Session_Spec Session_Proofs SessionSteps_Proofs.
Local Open Scope string_scope.
Local Open Scope list_scope.
Local Open Scope nat_scope.

(** ** Lines *)
(** A line has a number or text for a key, or the default. *)
Definition reads_count (line : str) (key : string) (default n : Z) : Prop :=
  absent (s_ key) line /\ n = default \/
  (0 <= n <= 2147483647)%Z /\ exists rest, (rest = [] \/ exists c r, rest = c :: r /\ is_digit c = false) /\ has_value line (s_ key) (decimal n ++ rest).
Definition reads_text (line : str) (key : string) (value : str) : Prop :=
  absent (s_ key) line /\ value = [] \/ has_value line (s_ key) value.
Definition begins (line : str) (word : string) : Prop := exists rest, line = s_ word ++ rest.

Lemma count_read line key d n : reads_count line key d n -> parse_count line (s_ key) d = Ok n.
Proof. intros [(H & ->)|(Hn & rest & Hr & H)]; [now apply C47_absent|]. eapply C47_count; eauto. Qed.
Lemma text_read line key v : reads_text line key v -> parse_string_param line (s_ key) [] = Ok v.
Proof. intros [(H & ->)|H]; [now apply C47_absent|]. now apply C47_string. Qed.

Lemma str_eqb_eq a b : str_eqb a b = true <-> a = b.
Proof.
  unfold str_eqb. rewrite andb_true_iff, Nat.eqb_eq, starts_app. split.
  - intros (L & r & ->). rewrite app_length in L. destruct r; [now rewrite app_nil_r|cbn in L; lia].
  - intros ->. split; [reflexivity|]. exists []. now rewrite app_nil_r.
Qed.
Lemma begins_compare line w : begins line w -> compare0 line (s_ w) = true.
Proof. intros (r & ->). apply starts_self. Qed.
Lemma str_eqb_first line w a : begins line w -> negb (str_eqb (s_ w) (firstn (length (s_ w)) (s_ a))) = true -> str_eqb line (s_ a) = false.
Proof.
  intros (r & ->) H. destruct (str_eqb (s_ w ++ r) (s_ a)) eqn:E; [|reflexivity]. apply str_eqb_eq in E. rewrite <- E in H.
  rewrite firstn_app, firstn_all, Nat.sub_diag, firstn_O, app_nil_r in H. rewrite (proj2 (str_eqb_eq _ _) eq_refl) in H. discriminate.
Qed.

(** What the lines mean.  A key that is not there has its default, a key that is there the value up to the next
    space. *)
Theorem C74_lines line :
  (parse_command line = Ok CQuit <-> line = s_ "q" \/ line = s_ "quit") /\
  (forall v n k, begins line "train" -> reads_count line "view" 0 v -> reads_count line "epochs" 1 n -> reads_count line "no_snapshots" 0 k ->
     parse_command line = Ok (CTrain n k)) /\
  (forall v, begins line "test" -> reads_count line "view" 0 v -> parse_command line = Ok CTest) /\
  (forall f l, begins line "load" -> reads_text line "file" f -> reads_count line "last_layer" 0 l -> parse_command line = Ok (CLoad f l)) /\
  (forall f, begins line "save" -> reads_text line "file" f -> parse_command line = Ok (CSave f)) /\
  (forall f, begins line "set experiment" -> reads_text line "name" f -> parse_command line = Ok (CSetExperiment f)) /\
  (forall e, begins line "set epoch" -> reads_count line "epoch" 0 e -> parse_command line = Ok (CSetEpoch e)) /\
  (begins line "reset" -> parse_command line = Ok CReset) /\
  (begins line "help" -> parse_command line = Ok CHelp) /\
  (forall e, begins line "tstat" -> reads_count line "enable" 1 e -> parse_command line = Ok (CTstat e)) /\
  (forall u, begins line "wstat" \/ begins line "dstat" -> reads_text line "node" u -> parse_command line = Ok CStat) /\
  (forall f, begins line "graph" -> reads_text line "file" f -> exists b, parse_command line = Ok (CGraph f b)) /\
  (line <> s_ "q" -> line <> s_ "quit" ->
   Forall (fun w => ~ begins line w) ["train"; "test"; "load"; "save"; "set experiment"; "set epoch"; "reset"; "help"; "graph"; "wstat"; "dstat"; "tstat"] ->
   parse_command line = Ok CUnknown).
Proof.
  assert (NQ : forall w, begins line w -> negb (str_eqb (s_ w) (firstn (length (s_ w)) (s_ "q"))) = true -> negb (str_eqb (s_ w) (firstn (length (s_ w)) (s_ "quit"))) = true ->
    (str_eqb line (s_ "q") || str_eqb line (s_ "quit")) = false).
  { intros w H H1 H2. now rewrite (str_eqb_first _ _ _ H H1), (str_eqb_first _ _ _ H H2). }
  assert (NS : forall w w', begins line w -> starts (firstn (length (s_ w)) (s_ w')) (s_ w) = false -> compare0 line (s_ w') = false).
  { intros w w' (r & ->) H. unfold compare0. destruct (starts (s_ w') (s_ w ++ r)) eqn:E; [|reflexivity]. apply starts_app in E as (r' & E).
    assert (starts (firstn (length (s_ w)) (s_ w')) (s_ w) = true); [|congruence]. apply starts_app.
    exists (firstn (length (s_ w) - length (s_ w')) r'). apply (f_equal (firstn (length (s_ w)))) in E.
    rewrite firstn_app, firstn_all, Nat.sub_diag, firstn_O, app_nil_r, firstn_app in E. exact E. }
  assert (Q : parse_command line = Ok CQuit -> line = s_ "q" \/ line = s_ "quit").
  { unfold parse_command. destruct (str_eqb line (s_ "q")) eqn:E1; [intros _; left; now apply str_eqb_eq|].
    destruct (str_eqb line (s_ "quit")) eqn:E2; [intros _; right; now apply str_eqb_eq|]. cbn [orb]. intros E. exfalso.
    repeat match type of E with
    | (if ?b then _ else _) = _ => destruct b
    | bind ?r _ = _ => destruct r; cbn [bind] in E
    end; discriminate. }
  split; [split; [exact Q|intros [->| ->]; reflexivity]|].
  Ltac skip_to w H NQ NS := unfold parse_command; rewrite (NQ w H eq_refl eq_refl);
     repeat match goal with |- context [compare0 ?l (s_ ?w')] =>
       first [rewrite (begins_compare _ _ H) | rewrite (NS w w' H eq_refl)] end.
  split. { intros v n k H H1 H2 H3. skip_to "train" H NQ NS. now rewrite (count_read _ _ _ _ H1), (count_read _ _ _ _ H2), (count_read _ _ _ _ H3). }
  split. { intros v H H1. skip_to "test" H NQ NS. now rewrite (count_read _ _ _ _ H1). }
  split. { intros f l H H1 H2. skip_to "load" H NQ NS. now rewrite (text_read _ _ _ H1), (count_read _ _ _ _ H2). }
  split. { intros f H H1. skip_to "save" H NQ NS. now rewrite (text_read _ _ _ H1). }
  split. { intros f H H1. skip_to "set experiment" H NQ NS. now rewrite (text_read _ _ _ H1). }
  split. { intros e H H1. skip_to "set epoch" H NQ NS. now rewrite (count_read _ _ _ _ H1). }
  split. { intros H. now skip_to "reset" H NQ NS. }
  split. { intros H. now skip_to "help" H NQ NS. }
  split. { intros e H H1. skip_to "tstat" H NQ NS. now rewrite (count_read _ _ _ _ H1). }
  split. { intros u [H|H] H1; [skip_to "wstat" H NQ NS|skip_to "dstat" H NQ NS]; now rewrite (text_read _ _ _ H1). }
  split. { intros f H H1. skip_to "graph" H NQ NS. rewrite (text_read _ _ _ H1). cbn [bind]. eauto. }
  intros N1 N2 Hf. unfold parse_command.
  assert (E1 : str_eqb line (s_ "q") = false) by (destruct (str_eqb line (s_ "q")) eqn:E; [apply str_eqb_eq in E; contradiction|reflexivity]).
  assert (E2 : str_eqb line (s_ "quit") = false) by (destruct (str_eqb line (s_ "quit")) eqn:E; [apply str_eqb_eq in E; contradiction|reflexivity]).
  rewrite E1, E2. cbn [orb]. rewrite Forall_forall in Hf.
  assert (C : forall w, In w ["train"; "test"; "load"; "save"; "set experiment"; "set epoch"; "reset"; "help"; "graph"; "wstat"; "dstat"; "tstat"] -> compare0 line (s_ w) = false).
  { intros w Hw. destruct (compare0 line (s_ w)) eqn:E; [|reflexivity]. exfalso. apply (Hf w Hw). apply starts_app in E as (r & E). exists r. exact E. }
  rewrite !C by (cbn; tauto). reflexivity.
Qed.

(** Epoch numbers read from a line fit into 32 bits. *)
Theorem C74_epoch_range line c : parse_command line = Ok c -> in_range c.
Proof.
  unfold parse_command. intros E.
  repeat match type of E with (if ?b then _ else _) = _ => destruct b end;
    repeat match type of E with bind ?r _ = _ => let H := fresh "P" in destruct r eqn:H; cbn [bind] in E; try discriminate end;
    injection E as <-; cbn; auto.
  unfold parse_count in P. apply bind_ok in P as ([t|] & _ & P); [|injection P as <-; lia].
  apply bind_ok in P as (z & _ & P). injection P as <-. unfold to_uint. apply Z.mod_pos_bound. lia.
Qed.

(** ** Commands *)
Section Sessions.
Context {D W V B : Type}.
Variable A : arith D.
Variable hybrid : bool.
Variable cfg : settings D.
Variable dl : data_layer D.
Variable pass : W -> list (list (list D)) -> W * list D * list (list D).
Variable forward : W -> list (list (list D)) -> W * list D.
Variable set_mode : bool -> W -> W.
Variable lr_at : nat -> D.
Variable scaling : nat -> D -> nat.
Variable weight_count : nat.
Variable tcfg : settings D.
Variable tdl : data_layer D.
Variable tforward : W -> list (list (list D)) -> W * list D.
Variable tset_mode : bool -> W -> W.
Variable tweight_count : nat.
Variable loss_stat : nat.
Variable to_double : D -> V.
Variable updates : nat -> list (nat * V).
Variable clock : nat -> Z.
Variable experiment : str -> nat.
Variable init_weights : W -> list (D * list (list D)) -> W * list (D * list (list D)).
Variable save_params : list (D * list (list D)) -> list B.
Variable load_params : list B -> Z -> list (D * list (list D)) -> res (list (D * list (list D))).
Variable writable : str -> bool.
Variable dot : bool -> list B.
Variable zero : V.

Notation exec1 := (exec_command A hybrid cfg dl pass forward set_mode lr_at scaling weight_count tcfg tdl tforward tset_mode tweight_count
  loss_stat to_double updates clock experiment init_weights save_params load_params writable dot).
Notation line1 := (run_line A hybrid cfg dl pass forward set_mode lr_at scaling weight_count tcfg tdl tforward tset_mode tweight_count
  loss_stat to_double updates clock experiment init_weights save_params load_params writable dot).
Notation script := (run_script A hybrid cfg dl pass forward set_mode lr_at scaling weight_count tcfg tdl tforward tset_mode tweight_count
  loss_stat to_double updates clock experiment init_weights save_params load_params writable dot).
Notation console := (run_console A hybrid cfg dl pass forward set_mode lr_at scaling weight_count tcfg tdl tforward tset_mode tweight_count
  loss_stat to_double updates clock experiment init_weights save_params load_params writable dot).
Notation sess := (session D W V B).

Lemma start_mem t tt setup fs (s0 : sess) : hybrid = true -> layout (layers t) = layout (layers tt) -> epoch t = epoch tt ->
  start hybrid cfg tcfg t tt setup fs = Ok s0 -> mem_ok s0 /\ training s0 = t /\ testing s0 = tt /\ calls s0 = setup /\ files s0 = fs.
Proof using.
  intros Hh L Ee E. unfold start in E. rewrite Hh in E. apply shadow_ok in E as (_ & ->). split; [|auto].
  unfold mem_ok. cbn [with_view blocks training view next_block testing]. rewrite seq_length. split; [reflexivity|]. split; [apply seq_NoDup|].
  split; [apply Forall_forall; intros b Hb; apply in_seq in Hb; lia|]. split; [|auto].
  rewrite skipn_all2, app_nil_r; [reflexivity|]. rewrite map_length, !concat_layout, L. lia.
Qed.

(** In hybrid mode, whatever commands were given, the testing network computes with exactly the parameters of the
    training network, distributed over its layers in the same way, and both trainers are at the same epoch.  Loading
    and initializing weights keep the number of parameters of every layer (C20). *)
Theorem C74_same_parameters t tt setup fs cs (s0 s : sess) : hybrid = true ->
  (forall bytes last ls ls', load_params bytes last ls = Ok ls' -> layout ls' = layout ls) ->
  (forall w ls, layout (snd (init_weights w ls)) = layout ls) ->
  layout (layers t) = layout (layers tt) -> epoch t = epoch tt ->
  start hybrid cfg tcfg t tt setup fs = Ok s0 -> foldm exec1 cs s0 = Ok s ->
  exists vs, read_all s (view s) = Ok vs /\ map snd (regroup (layers (testing s)) vs) = map snd (layers (training s)) /\
    epoch (testing s) = epoch (training s).
Proof using.
  intros Hh Hl Hi L Ee E0 E. destruct (start_mem t tt setup fs s0 Hh L Ee E0) as (M0 & _).
  assert (M : mem_ok s).
  { eapply (foldm_inv mem_ok); [|exact M0|exact E]. intros s1 c s2 _ M1 E1. eapply mem_step; eauto. }
  exists (all_params (layers (training s))). split; [now apply read_ok|]. destruct M as (_ & _ & _ & _ & Ml & Me). split; [|exact Me].
  now apply regroup_same.
Qed.

(** The rows of statistics every sink receives in a session, in order: one per epoch of training, or one per train
    command without snapshots, one per test; each shows the iterations and weights of exactly that training or test. *)
Theorem C74_reports regs cs (s0 s : sess) :
  Forall registration regs -> 0 < sink_count regs -> Forall resets (registered regs) -> calls s0 = regs ++ [Initialize] -> (Z.of_nat (epoch (training s0)) < 2 ^ 32)%Z ->
  Forall in_range cs -> foldm exec1 cs s0 = Ok s ->
  exists a, Stat_Model.run zero (calls s) = Ok a /\ state a = STOPPED /\
    forall sink, sink < sink_count regs ->
      items sink (trace a) = Experiment 0 :: rows (epoch_iterations D cfg dl scaling) weight_count
        (if hybrid then scaling (testing_samples tdl / batch_size tdl + 1) (testing_ratio tcfg)
         else scaling (testing_samples dl / batch_size dl + 1) (testing_ratio cfg))
        (if hybrid then tweight_count else weight_count) experiment (epoch (training s0)) 0 cs.
Proof using.
  intros Hr Hn Hi Hc Hb Hcs E.
  assert (Hlog : forall k ds n rs, let l := fold_left (log_step (new_stat V zero)) k (mkLog INIT ds n 0 (mkHC 0 0 0 0 false) [] rs) in
    Forall registration k -> exists ds', l = mkLog INIT ds' (n + sink_count k) 0 (mkHC 0 0 0 0 false) [] rs).
  { induction k as [|c k IH]; intros ds n rs l Hk; subst l.
    - exists ds. cbn. now rewrite Nat.add_0_r.
    - inversion Hk as [|? ? K1 K2]; subst. destruct c; try contradiction; cbn [fold_left log_step].
      + destruct (IH (ds ++ [d]) n rs K2) as (ds' & ->). exists ds'. reflexivity.
      + destruct (IH ds (S n) rs K2) as (ds' & ->). exists ds'. unfold sink_count. cbn. f_equal. lia. }
  destruct (Hlog regs [] 0 [] Hr) as (ds & El).
  assert (Hx : exists x, calls s = calls s0 ++ x /\ disciplined true x = true /\ registered x = []).
  { eapply (foldm_inv (fun s1 => exists x, calls s1 = calls s0 ++ x /\ disciplined true x = true /\ registered x = [])); [|exists []; rewrite app_nil_r; auto|exact E].
    intros s1 c s2 _ (x & X1 & X2 & X3) E1. destruct (exec_calls A hybrid cfg dl pass forward set_mode lr_at scaling weight_count tcfg tdl tforward tset_mode tweight_count
  loss_stat to_double updates clock experiment init_weights save_params load_params writable dot s1 s2 c E1) as (y & Y1 & Y2).
    exists (x ++ y). rewrite Y1, X1, app_assoc. split; [reflexivity|]. split; [now apply harmless_disciplined|]. unfold registered. rewrite flat_map_app.
    fold (registered x). rewrite X3. now apply harmless_registered. }
  destruct Hx as (x & X1 & X2 & X3).
  assert (Hd : disciplined false (calls s) = true).
  { rewrite X1, Hc, <- app_assoc. clear -Hr X2. induction Hr as [|c regs H1 H2 IH]; [exact X2|]. destruct c; try contradiction; exact IH. }
  assert (Hg : Forall resets (registered (calls s))).
  { rewrite X1, Hc. unfold registered. rewrite !flat_map_app. fold (registered regs) (registered x). rewrite X3. cbn. now rewrite !app_nil_r. }
  destruct (C15_history V zero (calls s) Hg Hd) as (a & Ea & Em & _).
  destruct (C16_reports V zero (calls s) Hg Hd) as (a' & Ea' & Et). assert (a' = a) by congruence. subst a'.
  exists a. split; [exact Ea|].
  assert (G : forall sink, sink < sink_count regs -> exists e last,
    stat_ok (new_stat V zero) sink (sink_count regs) s e last (Experiment 0 :: rows (epoch_iterations D cfg dl scaling) weight_count
        (tits hybrid cfg dl scaling tcfg tdl) (twc hybrid weight_count tweight_count) experiment (epoch (training s0)) 0 cs)).
  { intros sink Hs.
    assert (S0 : stat_ok (new_stat V zero) sink (sink_count regs) s0 (epoch (training s0)) 0 [Experiment 0]).
    { unfold stat_ok. rewrite Hc, log_snoc. unfold log_of. unfold empty_log. rewrite El. cbn [Nat.add log_step l_mode l_sinks l_hc l_reports cleared Stat_Model.epoch Stat_Model.iterations app].
      rewrite items_app, !items_to_all by exact Hs. auto 10. }
    assert (H : forall cs s0 out last e, Forall in_range cs -> foldm exec1 cs s0 = Ok s -> stat_ok (new_stat V zero) sink (sink_count regs) s0 e last out ->
      exists e' last', stat_ok (new_stat V zero) sink (sink_count regs) s e' last' (out ++ rows (epoch_iterations D cfg dl scaling) weight_count
        (tits hybrid cfg dl scaling tcfg tdl) (twc hybrid weight_count tweight_count) experiment e last cs)).
    { clear -Hs. induction cs as [|c cs IH]; intros s0 out last e Hcs E S0; cbn [foldm] in E.
      - injection E as <-. exists e, last. cbn [rows]. now rewrite app_nil_r.
      - apply bind_ok in E as (s1 & E1 & E). inversion Hcs as [|? ? H1 H2]; subst.
        destruct (IH s1 _ _ _ H2 E (stat_step _ _ _ _ _ _ _ _ _ _ _ _ _ _ _ _ _ _ _ _ _ _ _ _ _ _ _ _ _ _ _ _ _ _ Hs H1 S0 E1)) as (e' & last' & S2).
        exists e', last'. rewrite rows_cons. rewrite <- app_assoc in S2. exact S2. }
    exact (H cs s0 [Experiment 0] 0 (epoch (training s0)) Hcs E S0). }
  split.
  - destruct (G 0 Hn) as (e & last & G1). rewrite Em. apply G1.
  - intros sink Hs. destruct (G sink Hs) as (e & last & G1). rewrite Et. apply G1.
Qed.

(** Commands that only look leave the parameters and the epoch alone; in hybrid mode, and unless they test, everything
    about training. *)
Theorem C74_looking (s s' : sess) c : looks c = true -> exec1 s c = Ok s' ->
  layers (training s') = layers (training s) /\ epoch (training s') = epoch (training s) /\
  (hybrid = true \/ c <> CTest -> training s' = training s).
Proof using.
  intros Hl E. assert (Same : forall s1 : sess, training s1 = training s -> layers (training s1) = layers (training s) /\ epoch (training s1) = epoch (training s) /\
    (hybrid = true \/ c <> CTest -> training s1 = training s)) by (intros s1 ->; auto).
  destruct c; try discriminate; cbn [exec_command] in E; try (injection E as <-; now apply Same).
  - apply bind_ok in E as (s1 & E1 & E). injection E as <-. unfold sync_epoch in E1. destruct hybrid eqn:Hh.
    + apply bind_ok in E1 as (vs & Ev & E1). apply bind_ok in E1 as ([t' cs] & E2 & E1). injection E1 as <-. now apply Same.
    + apply bind_ok in E1 as ([t' cs] & E2 & E1). injection E1 as <-. unfold do_test in E2. apply bind_ok in E2 as ([t1 es] & E3 & E2). injection E2 as <- _.
      apply (test_says A _ dl forward set_mode scaling 0 _ _ _ true 0 0 []) in E3 as (_ & w & ->). split; [reflexivity|]. split; [reflexivity|].
      intros [H|H]; [discriminate|congruence].
  - destruct file as [|ch file]; injection E as <-; apply Same; try reflexivity; destruct (writable _); reflexivity.
  - destruct name as [|ch name]; injection E as <-; now apply Same.
  - destruct file as [|ch file]; injection E as <-; apply Same; try reflexivity; destruct (writable _); reflexivity.
Qed.

(** Only save and graph write, only the named file; save writes the parameters of that moment. *)
Theorem C74_files (s s' : sess) c : exec1 s c = Ok s' ->
  (forall name, writes c <> Some name -> files s' name = files s name) /\
  (forall f, c = CSave f -> f <> [] -> writable f = true -> files s' f = Some (save_params (layers (training s)))) /\
  (forall f, c = CSave f -> f = [] \/ writable f = false -> s' = s).
Proof using.
  intros E. assert (Same : forall s1 : sess, files s1 = files s -> (forall f, c <> CSave f) -> (forall name, writes c <> Some name -> files s1 name = files s name) /\
    (forall f, c = CSave f -> f <> [] -> writable f = true -> files s1 f = Some (save_params (layers (training s)))) /\
    (forall f, c = CSave f -> f = [] \/ writable f = false -> s1 = s)).
  { intros s1 -> Hc. split; [auto|]. split; intros f ->; exfalso; exact (Hc f eq_refl). }
  assert (Put : forall text f name, Some f <> Some name -> put_file (files s) f text name = files s name).
  { intros text f name H. unfold put_file. destruct (str_eqb name f) eqn:Eq; [apply str_eqb_eq in Eq; congruence|reflexivity]. }
  destruct c; cbn [exec_command] in E; try (injection E as <-; apply Same; [reflexivity|discriminate]).
  - apply bind_ok in E as (s1 & E1 & E). apply do_train_ok in E1 as (t & es & Et & ->). injection E as <-. apply Same; [|discriminate].
    unfold sync_epoch. destruct hybrid, (no_snapshots =? 1)%Z; reflexivity.
  - apply bind_ok in E as (s1 & E1 & E). injection E as <-. apply Same; [|discriminate]. unfold sync_epoch in E1. destruct hybrid.
    + apply bind_ok in E1 as (vs & Ev & E1). apply bind_ok in E1 as ([t' cs] & E2 & E1). now injection E1 as <-.
    + apply bind_ok in E1 as ([t' cs] & E2 & E1). now injection E1 as <-.
  - apply Same; [|discriminate]. destruct file as [|ch file]; [now injection E as <-|]. destruct (files s (ch :: file)) as [bytes|]; [|now injection E as <-].
    apply bind_ok in E as (ls & El & E). destruct (moved _ _ _ _) as [bs f].
    destruct hybrid; [apply shadow_ok in E as (_ & ->)|injection E as <-]; reflexivity.
  - destruct file as [|ch file]; injection E as <-; cbn [writes].
    + split; [reflexivity|]. split; intros f [= <-]; [congruence|reflexivity].
    + destruct (writable (ch :: file)) eqn:Ew; cbn [files with_files].
      * split; [intros name H; now apply Put|]. split.
        -- intros f [= <-] _ _. unfold put_file. now rewrite (proj2 (str_eqb_eq _ _) eq_refl).
        -- intros f [= <-] [H|H]; congruence.
      * split; [reflexivity|]. split; intros f [= <-]; [congruence|reflexivity].
  - apply Same; [|discriminate]. destruct name as [|ch name]; now injection E as <-.
  - apply Same; [|discriminate]. injection E as <-. unfold sync_epoch. now destruct hybrid.
  - apply Same; [|discriminate]. destruct (init_weights _ _) as [w ls]. destruct hybrid; [apply shadow_ok in E as (_ & ->)|injection E as <-]; reflexivity.
  - destruct file as [|ch file]; injection E as <-; [apply Same; [reflexivity|discriminate]|]. cbn [writes].
    split; [|split; discriminate]. intros name H. destruct (writable _); [now apply Put|reflexivity].
Qed.

(** Loading replaces the parameters by what the file gives and keeps the state of the trainer, steps of earlier
    training included; a name that is missing or not a file changes nothing. *)
Theorem C74_load (s s' : sess) f l : exec1 s (CLoad f l) = Ok s' ->
  (f = [] \/ files s f = None -> s' = s) /\
  (forall bytes, f <> [] -> files s f = Some bytes ->
     exists ls, load_params bytes l (layers (training s)) = Ok ls /\ layers (training s') = ls /\
       world (training s') = world (training s) /\ last_deltas (training s') = last_deltas (training s) /\
       last_gradients (training s') = last_gradients (training s) /\ accumulated (training s') = accumulated (training s) /\
       epoch (training s') = epoch (training s) /\ first_iteration (training s') = first_iteration (training s) /\ calls s' = calls s).
Proof using.
  cbn [exec_command]. intros E. split.
  - intros H. destruct f as [|ch f]; [now injection E as <-|]. destruct H as [H|H]; [discriminate|]. rewrite H in E. now injection E as <-.
  - intros bytes Hf Hb. destruct f as [|ch f]; [congruence|]. rewrite Hb in E. apply bind_ok in E as (ls & El & E). destruct (moved _ _ _ _) as [bs n].
    exists ls. split; [exact El|]. destruct hybrid; [apply shadow_ok in E as (_ & ->)|injection E as <-]; auto 10.
Qed.

(** set epoch moves the trainer to that epoch and forgets earlier steps; reset gives new weights and forgets earlier
    steps, but keeps the epoch. *)
Theorem C74_set_epoch (s s' : sess) e : exec1 s (CSetEpoch e) = Ok s' ->
  layers (training s') = layers (training s) /\ world (training s') = world (training s) /\ epoch (training s') = Z.to_nat e /\
  last_deltas (training s') = clear_all D A (last_deltas (training s)) /\ last_gradients (training s') = clear_all D A (last_gradients (training s)) /\
  first_iteration (training s') = true /\ (hybrid = true -> epoch (testing s') = Z.to_nat e).
Proof using.
  cbn [exec_command]. intros E. injection E as <-.
  assert (C : forall x, clear_all D A (clear_all D A x) = clear_all D A x).
  { intros x. unfold clear_all. rewrite map_map. apply map_ext. intros a. now rewrite map_map. }
  unfold sync_epoch. destruct hybrid; (do 6 (split; [first [reflexivity | apply C | (cbn; rewrite !C; reflexivity) | (etransitivity; apply C)]|])); first [reflexivity | discriminate].
Qed.
Theorem C74_reset (s s' : sess) : exec1 s CReset = Ok s' ->
  let '(w, ls) := init_weights (world (training s)) (layers (training s)) in
  layers (training s') = ls /\ world (training s') = w /\ epoch (training s') = epoch (training s) /\
  last_deltas (training s') = clear_all D A (last_deltas (training s)) /\ last_gradients (training s') = clear_all D A (last_gradients (training s)) /\
  first_iteration (training s') = true.
Proof using.
  cbn [exec_command]. destruct (init_weights _ _) as [w ls]. intros E. destruct hybrid; [apply shadow_ok in E as (_ & ->)|injection E as <-]; auto 10.
Qed.

(** What was saved comes back: after any commands that do not write to the file and keep the sizes of the parameters,
    loading it makes both networks compute with the parameters of the moment of saving.  That reading undoes writing is C20. *)
Theorem C74_save_load t tt setup fs f before cs (s0 s s1 s2 : sess) :
  (forall bytes last ls ls', load_params bytes last ls = Ok ls' -> layout ls' = layout ls) ->
  (forall w ls, layout (snd (init_weights w ls)) = layout ls) ->
  (forall ls cur, sizes ls = sizes cur -> load_params (save_params ls) 0 cur = Ok ls) ->
  layout (layers t) = layout (layers tt) -> epoch t = epoch tt ->
  start hybrid cfg tcfg t tt setup fs = Ok s0 -> foldm exec1 before s0 = Ok s ->
  f <> [] -> writable f = true -> exec1 s (CSave f) = Ok s1 ->
  foldm exec1 cs s1 = Ok s2 -> Forall (fun c => writes c <> Some f) cs -> sizes (layers (training s2)) = sizes (layers (training s)) ->
  exists s3, exec1 s2 (CLoad f 0) = Ok s3 /\ layers (training s3) = layers (training s) /\ epoch (training s3) = epoch (training s2) /\
    (hybrid = true -> exists vs, read_all s3 (view s3) = Ok vs /\ map snd (regroup (layers (testing s3)) vs) = map snd (layers (training s))).
Proof using.
  intros Hll Hil Hl Lt Et E0 Eb Hf Hw E1 E2 Hn Hs.
  assert (Hm : hybrid = true -> mem_ok s2).
  { intros Hh. destruct (start_mem t tt setup fs s0 Hh Lt Et E0) as (M0 & _).
    assert (St : forall s1 c s2, mem_ok s1 -> exec1 s1 c = Ok s2 -> mem_ok s2) by (intros; eapply mem_step; eauto).
    eapply (foldm_inv mem_ok); [|eapply St; [eapply (foldm_inv mem_ok); [|exact M0|exact Eb]|exact E1]|exact E2]; intros; eapply St; eauto. }
  assert (F1 : files s1 f = Some (save_params (layers (training s)))) by (eapply C74_files; eauto).
  assert (F2 : files s2 f = files s1 f).
  { clear -E2 Hn. revert s1 E2. induction cs as [|c cs IH]; intros s1 E2; cbn [foldm] in E2; [congruence|].
    apply bind_ok in E2 as (s' & E & E2). inversion Hn as [|? ? H1 H2]; subst. rewrite (IH H2 _ E2). eapply C74_files; eauto. }
  rewrite F1 in F2.
  assert (Ep : shape (all_params (layers (training s2))) = shape (all_params (layers (training s)))) by (apply structure_shape; exact Hs).
  assert (Lp : length (all_params (layers (training s2))) = length (all_params (layers (training s)))).
  { apply (f_equal (@length _)) in Ep. unfold shape in Ep. now rewrite !map_length in Ep. }
  assert (E3 : exists s3, exec1 s2 (CLoad f 0) = Ok s3 /\ layers (training s3) = layers (training s) /\ epoch (training s3) = epoch (training s2)).
  { cbn [exec_command]. destruct f as [|ch f]; [congruence|]. rewrite F2, (Hl _ _ (eq_sym Hs)). cbn [bind].
    destruct (moved _ _ _ _) as [bs n] eqn:Em. destruct hybrid eqn:Hh.
    - destruct (Hm eq_refl) as (M1 & M2 & M3 & M4 & _).
      pose proof (moved_ok _ _ (blocks s2) (next_block s2) Lp M1 M2 M3) as Mv. rewrite Em in Mv. destruct Mv as (Mv & _).
      rewrite shadow_total; [eexists; split; [reflexivity|]; auto|]. cbn [blocks view]. rewrite Mv, M4, map_length. lia.
    - eexists. split; [reflexivity|]. auto. }
  destruct E3 as (s3 & E3 & L3 & P3). exists s3. split; [exact E3|]. split; [exact L3|]. split; [exact P3|]. intros Hh.
  assert (M3 : mem_ok s3) by (eapply mem_step; eauto).
  exists (all_params (layers (training s3))). split; [now apply read_ok|]. rewrite <- L3. apply regroup_same. apply M3.
Qed.

(** ** Training in pieces *)
(** The trainer does not depend on what was logged before. *)
Lemma passes_events n : forall a t loss es t' loss' es', foldm (one_pass D A W pass) (seq a n) (t, loss, es) = Ok (t', loss', es') ->
  forall es2, exists es2', foldm (one_pass D A W pass) (seq a n) (t, loss, es2) = Ok (t', loss', es2').
Proof using.
  induction n as [|n IH]; intros a t loss es t' loss' es' E es2; cbn [seq foldm] in *.
  - injection E as <- <- _. eauto.
  - apply bind_ok in E as ([[t1 l1] es1] & E1 & E). unfold one_pass in E1 |- *. destruct (pass _ _) as [[w ls] g]. apply bind_ok in E1 as (acc & Ea & E1).
    rewrite Ea. cbn [bind]. injection E1 as <- <- _. eapply IH. exact E.
Qed.
Lemma iterations_events its n : forall a t es t' es', foldm (one_iteration D A cfg dl W pass lr_at its) (seq a n) (t, es) = Ok (t', es') ->
  forall es2, exists es2', foldm (one_iteration D A cfg dl W pass lr_at its) (seq a n) (t, es2) = Ok (t', es2').
Proof using.
  induction n as [|n IH]; intros a t es t' es' E es2; cbn [seq foldm] in *.
  - injection E as <- _. eauto.
  - apply bind_ok in E as ([t1 es1] & E1 & E). unfold one_iteration at 1. unfold one_iteration at 1 in E1. apply bind_ok in E1 as ([[t2 l2] es3] & E2 & E1).
    destruct (passes_events _ _ _ _ _ _ _ _ E2 es2) as (es4 & ->). cbn [bind]. apply bind_ok in E1 as (t3 & E3 & E1). rewrite E3. cbn [bind].
    injection E1 as <- _. eapply IH. exact E.
Qed.
Lemma epochs_events snap snap2 n : forall a a2 t es t' es', foldm (train_epoch D A cfg dl W pass set_mode lr_at scaling snap) (seq a n) (t, es) = Ok (t', es') ->
  forall es2, exists es2', foldm (train_epoch D A cfg dl W pass set_mode lr_at scaling snap2) (seq a2 n) (t, es2) = Ok (t', es2').
Proof using.
  induction n as [|n IH]; intros a a2 t es t' es' E es2; cbn [seq foldm] in *.
  - injection E as <- _. eauto.
  - apply bind_ok in E as ([t1 es1] & E1 & E). unfold train_epoch at 1, run_epoch at 1. unfold train_epoch at 1, run_epoch at 1 in E1.
    apply bind_ok in E1 as ([t2 es3] & E2 & E1). apply bind_ok in E2 as ([t3 es4] & E3 & E2).
    destruct (iterations_events _ _ _ _ _ _ _ E3 (es2 ++ [EEpoch (epoch t); ETestingMode false])) as (es5 & ->). cbn [bind].
    injection E2 as <- _. injection E1 as <- _. eapply IH. exact E.
Qed.

(** What was logged before stays. *)
Lemma epochs_log c snap n : forall a t es t' es', foldm (train_epoch D A c dl W pass set_mode lr_at scaling snap) (seq a n) (t, es) = Ok (t', es') -> exists more, es' = es ++ more.
Proof using.
  assert (P : forall n a t loss es t' loss' es', foldm (one_pass D A W pass) (seq a n) (t, loss, es) = Ok (t', loss', es') -> exists more, es' = es ++ more).
  { clear. induction n as [|n IH]; intros a t loss es t' loss' es' E; cbn [seq foldm] in *; [injection E as _ _ <-; exists []; now rewrite app_nil_r|].
    apply bind_ok in E as ([[t1 l1] es1] & E1 & E). unfold one_pass in E1. destruct (pass _ _) as [[w ls] g]. apply bind_ok in E1 as (acc & Ea & E1).
    injection E1 as <- <- <-. destruct (IH _ _ _ _ _ _ _ E) as (m & ->). rewrite <- app_assoc. eauto. }
  assert (I : forall its n a t es t' es', foldm (one_iteration D A c dl W pass lr_at its) (seq a n) (t, es) = Ok (t', es') -> exists more, es' = es ++ more).
  { clear -P. induction n as [|n IH]; intros a t es t' es' E; cbn [seq foldm] in *; [injection E as _ <-; exists []; now rewrite app_nil_r|].
    apply bind_ok in E as ([t1 es1] & E1 & E). unfold one_iteration at 1 in E1. apply bind_ok in E1 as ([[t2 l2] es3] & E2 & E1).
    destruct (P _ _ _ _ _ _ _ _ E2) as (m & ->). apply bind_ok in E1 as (t3 & E3 & E1). injection E1 as <- <-. destruct (IH _ _ _ _ _ E) as (m2 & ->). rewrite <- !app_assoc. eauto. }
  induction n as [|n IH]; intros a t es t' es' E; cbn [seq foldm] in *; [injection E as _ <-; exists []; now rewrite app_nil_r|].
  apply bind_ok in E as ([t1 es1] & E1 & E). unfold train_epoch at 1, run_epoch at 1 in E1.
  apply bind_ok in E1 as ([t2 es3] & E2 & E1). apply bind_ok in E2 as ([t3 es4] & E3 & E2). destruct (I _ _ _ _ _ _ _ E3) as (m & ->).
  injection E2 as <- <-. injection E1 as <- <-. destruct (IH _ _ _ _ _ E) as (m2 & ->). destruct snap; rewrite <- !app_assoc; eauto.
Qed.

(** The command tstat decides whether the statistics layers work while the next train command trains, and nothing else:
    the training is the one of the settings with that choice, and its parameters and reports are those of the session. *)
Theorem C74_tstat (s s1 s2 : sess) e n k : exec1 s (CTstat e) = Ok s1 -> exec1 s1 (CTrain n k) = Ok s2 ->
  exists t more,
    train D A (mkSettings (l1_weight cfg) (l2_weight cfg) (momentum cfg) (mu cfg) (epoch_training_ratio cfg) (testing_ratio cfg) (optimization cfg) (e =? 1)%Z
      (sbatchsize cfg) (iterations cfg)) dl W pass set_mode lr_at scaling (Z.to_nat n) (negb (k =? 1)%Z) (training s, []) = Ok (t, [EGraphTesting false; EStatLayers (e =? 1)%Z] ++ more) /\
    layers (training s2) = layers t /\ files s2 = files s /\
    exists after, calls s2 = note_events loss_stat to_double updates clock weight_count
      (calls s ++ [StartRecording (clock (length (calls s))); SetWeights weight_count]) ([EGraphTesting false; EStatLayers (e =? 1)%Z] ++ more) ++ after.
Proof using.
  cbn [exec_command]. intros E0. injection E0 as <-. intros E. apply bind_ok in E as (s3 & E1 & E). apply do_train_ok in E1 as (t & es & Et & ->). injection E as <-.
  pose proof Et as Et'. unfold train in Et'. apply bind_ok in Et' as ([t1 es1] & Ef & Ee). injection Ee as <- <-.
  destruct (epochs_log _ _ _ _ _ _ _ _ Ef) as (m & ->). exists t1, (m ++ [EStatLayers true]).
  cbn [training training_stats call_ with_calls stats_during_training with_stats app calls] in *.
  split; [exact Et|]. unfold sync_epoch. rewrite <- app_assoc. cbn [app].
  split; [destruct hybrid, (k =? 1)%Z; reflexivity|]. split; [destruct hybrid, (k =? 1)%Z; reflexivity|].
  destruct hybrid, (k =? 1)%Z; cbn [training call_ with_calls with_testing with_training calls]; rewrite <- ?app_assoc; eauto.
Qed.

(** One trainer after [n] epochs. *)
Definition trains (n : nat) (t t' : trainer D W) : Prop :=
  exists es, foldm (train_epoch D A cfg dl W pass set_mode lr_at scaling true) (seq 0 n) (t, []) = Ok (t', es).
Lemma train_trains (s s' : sess) n k : hybrid = true -> exec1 s (CTrain n k) = Ok s' -> trains (Z.to_nat n) (training s) (training s').
Proof using.
  cbn [exec_command]. intros Hh E. apply bind_ok in E as (s1 & E1 & E). apply do_train_ok in E1 as (t & es & Et & ->). injection E as <-.
  unfold train in Et. apply bind_ok in Et as ([t1 es1] & Et & E). injection E as <- _.
  assert (Er : forall x : sess, training (call_ (if (k =? 1)%Z then call_ x Generate else x) Reset) = training x) by (intros x; now destruct (k =? 1)%Z).
  rewrite Er. unfold sync_epoch. rewrite Hh. cbn [training call_ with_calls with_testing with_training].
  destruct (epochs_events _ true _ _ 0 _ _ _ _ Et []) as (es2 & E2). exists es2. exact E2.
Qed.
Lemma trains_train (s : sess) n k t' : trains (Z.to_nat n) (training s) t' -> exists s', exec1 s (CTrain n k) = Ok s'.
Proof using.
  intros (es & E). cbn [exec_command]. unfold do_train, train. cbn [training call_ with_calls].
  destruct (epochs_events _ (negb (k =? 1)%Z) _ _ 0 _ _ _ _ E ([] ++ [EGraphTesting false; EStatLayers (stats_during_training (with_stats cfg (training_stats (call_ s (StartRecording (clock (length (calls s)))))))) ])) as (es2 & E2).
  match goal with |- context [foldm ?f (seq 0 ?n) ?x] => replace (foldm f (seq 0 n) x) with (Ok (t', es2)) by (symmetry; exact E2) end.
  cbn [bind]. eauto.
Qed.
Lemma trains_add a b t t' : trains (a + b) t t' <-> exists t1, trains a t t1 /\ trains b t1 t'.
Proof using.
  unfold trains. rewrite seq_app. split.
  - intros (es & E). rewrite foldm_app in E. apply bind_ok in E as ([t1 es1] & E1 & E2). exists t1. split; [eauto|].
    destruct (epochs_events _ true _ _ 0 _ _ _ _ E2 []) as (es2 & E3). eauto.
  - intros (t1 & (es1 & E1) & es2 & E2). rewrite foldm_app, E1. cbn [bind].
    destruct (epochs_events _ true _ _ (0 + a) _ _ _ _ E2 es1) as (es3 & E3). eauto.
Qed.

(** In hybrid mode training [a] epochs, any looking commands, and training [b] epochs give the same trainer and the
    same parameters as training [a + b] epochs at once, whether snapshots are taken or not. *)
Theorem C74_train_split (s s1 s2 s3 : sess) a b k1 k2 k3 looking : hybrid = true -> (0 <= a)%Z -> (0 <= b)%Z ->
  exec1 s (CTrain a k1) = Ok s1 -> forallb looks looking = true -> foldm exec1 looking s1 = Ok s2 -> exec1 s2 (CTrain b k2) = Ok s3 ->
  exists s', exec1 s (CTrain (a + b) k3) = Ok s' /\ training s' = training s3.
Proof using.
  intros Hh Ha Hb E1 Hl E2 E3.
  assert (T2 : training s2 = training s1).
  { eapply (foldm_inv (fun x : sess => training x = training s1)); [|reflexivity|exact E2]. intros x c y Hin Hx E. rewrite forallb_forall in Hl.
    rewrite <- Hx. eapply C74_looking; [apply Hl; exact Hin|exact E|left; exact Hh]. }
  apply train_trains in E1; [|exact Hh]. apply train_trains in E3; [|exact Hh]. rewrite T2 in E3.
  assert (T : trains (Z.to_nat (a + b)) (training s) (training s3)) by (rewrite Z2Nat.inj_add by assumption; apply trains_add; eauto).
  destruct (trains_train s (a + b) k3 _ T) as (s' & E'). exists s'. split; [exact E'|]. apply train_trains in E'; [|exact Hh].
  destruct T as (es & T). destruct E' as (es' & T'). congruence.
Qed.

(** ** Sessions run to their end *)
Lemma epochs_run snap (Hp : forall w ps, shape (snd (pass w ps)) = shape (concat ps)) n : forall a t es, fits t ->
  exists t' es', foldm (train_epoch D A cfg dl W pass set_mode lr_at scaling snap) (seq a n) (t, es) = Ok (t', es') /\ fits t' /\ structure t' = structure t.
Proof using.
  induction n as [|n IH]; intros a t es F; cbn [seq foldm]; [eauto|]. unfold train_epoch at 1.
  destruct (run_epoch_ok D A cfg dl W pass set_mode lr_at scaling Hp t es F) as (t1 & tr & E & _ & F1 & S1 & _). rewrite E. cbn [bind].
  edestruct (IH (S a) t1) as (t2 & es2 & E2 & F2 & S2); [exact F1|]. rewrite E2. exists t2, es2. split; [reflexivity|]. split; [exact F2|congruence].
Qed.

Lemma fits_with (t t' : trainer D W) : fits t -> shape (parameters t') = shape (parameters t) -> last_deltas t' = last_deltas t -> last_gradients t' = last_gradients t ->
  accumulated t' = accumulated t -> fits t'.
Proof using. intros (F1 & F2 & F3) Hs H1 H2 H3. unfold fits. rewrite H1, H2, H3, Hs. auto. Qed.

Lemma sizes_layout (ls ls' : list (D * list (list D))) : sizes ls = sizes ls' -> layout ls = layout ls'.
Proof using.
  unfold sizes, layout. revert ls'. induction ls as [|[r ps] ls IH]; intros [|[r' ps'] ls'] E; try discriminate; [reflexivity|].
  cbn in E. injection E as _ E1 E2. cbn. rewrite (IH _ E2). apply (f_equal (@length _)) in E1. rewrite !map_length in E1. now rewrite E1.
Qed.

(** A session never runs into undefined behaviour, and only a file that the program rejects ends it: for every
    sequence of commands, when the files to load hold parameters for this network. *)
Theorem C74_runs (good : list B -> Prop) t tt setup fs cs (s0 : sess) :
  (forall w ps, shape (snd (pass w ps)) = shape (concat ps)) ->
  batch_size (if hybrid then tdl else dl) <> 0 ->
  (forall w ls, sizes (snd (init_weights w ls)) = sizes ls) ->
  (forall f bytes, fs f = Some bytes -> good bytes) ->
  (forall ls, sizes ls = sizes (layers t) -> good (save_params ls)) ->
  (forall b, good (dot b)) ->
  (forall bytes l ls, good bytes -> sizes ls = sizes (layers t) ->
     load_params bytes l ls = Fatal \/ exists ls', load_params bytes l ls = Ok ls' /\ sizes ls' = sizes ls) ->
  fits t -> layout (layers t) = layout (layers tt) -> epoch t = epoch tt ->
  start hybrid cfg tcfg t tt setup fs = Ok s0 ->
  (exists s, foldm exec1 cs s0 = Ok s /\ sizes (layers (training s)) = sizes (layers t)) \/
  (foldm exec1 cs s0 = Fatal /\ exists f l, In (CLoad f l) cs).
Proof using.
  intros Hp Hb Hi Hfs Hsv Hdot Hld Ft Lt Et E0.
  set (inv := fun s : sess => fits (training s) /\ sizes (layers (training s)) = sizes (layers t) /\ (hybrid = true -> mem_ok s) /\
    forall f bytes, files s f = Some bytes -> good bytes).
  assert (I0 : inv s0).
  { destruct hybrid eqn:Hh.
    - rewrite <- Hh in E0. destruct (start_mem t tt setup fs s0 Hh Lt Et E0) as (M & T0 & _ & _ & Hf). unfold inv. rewrite Hf, T0. auto.
    - cbn in E0. injection E0 as <-. unfold inv. cbn [training files]. split; [exact Ft|]. split; [reflexivity|]. split; [discriminate|exact Hfs]. }
  assert (Hil : forall w ls, layout (snd (init_weights w ls)) = layout ls) by (intros w ls; apply sizes_layout, Hi).
  assert (Hm : forall s c s', (forall f l, c <> CLoad f l) -> inv s -> exec1 s c = Ok s' -> hybrid = true -> mem_ok s').
  { intros s c s' Hc (_ & _ & M & _) E Hh. specialize (M Hh).
    eapply (mem_step A hybrid cfg dl pass forward set_mode lr_at scaling weight_count tcfg tdl tforward tset_mode tweight_count
      loss_stat to_double updates clock experiment init_weights save_params (fun _ _ _ => Fatal) writable dot) with (c := c); [discriminate|exact Hil|exact Hh|exact M|].
    rewrite <- E. destruct c; try reflexivity. now destruct (Hc _ _ eq_refl). }
  assert (Hg : forall s c s', inv s -> exec1 s c = Ok s' -> forall f bytes, files s' f = Some bytes -> good bytes).
  { intros s c s' (_ & Hs & _ & F) E f bytes Hf. destruct c; cbn [exec_command] in E.
    all: try (injection E as <-; exact (F f bytes Hf)).
    - apply bind_ok in E as (s1 & E1 & E). apply do_train_ok in E1 as (t1 & es & Et1 & ->). injection E as <-. apply (F f).
      destruct (no_snapshots =? 1)%Z; unfold sync_epoch in Hf; destruct hybrid; exact Hf.
    - apply bind_ok in E as (s1 & E1 & E). injection E as <-. apply (F f). destruct hybrid.
      + apply bind_ok in E1 as (vs & Ev & E1). apply bind_ok in E1 as (r & Er & E1). injection E1 as <-. exact Hf.
      + apply bind_ok in E1 as (r & Er & E1). injection E1 as <-. exact Hf.
    - destruct file as [|ch file]; [injection E as <-; exact (F f bytes Hf)|]. destruct (files s (ch :: file)); [|injection E as <-; exact (F f bytes Hf)].
      apply bind_ok in E as (ls & El & E). destruct (moved _ _ _ _) as [bs n]. apply (F f).
      destruct hybrid; [apply shadow_ok in E as (_ & ->)|injection E as <-]; exact Hf.
    - destruct file as [|ch file]; [injection E as <-; exact (F f bytes Hf)|]. injection E as <-. destruct (writable _); [|exact (F f bytes Hf)].
      cbn [files with_files] in Hf. unfold put_file in Hf. destruct (str_eqb f (ch :: file)); [|exact (F f bytes Hf)]. injection Hf as <-. now apply Hsv.
    - destruct name; injection E as <-; exact (F f bytes Hf).
    - injection E as <-. unfold sync_epoch in Hf. destruct hybrid; exact (F f bytes Hf).
    - destruct (init_weights _ _) as [w ls]. destruct hybrid; [apply shadow_ok in E as (_ & ->)|injection E as <-]; exact (F f bytes Hf).
    - destruct file as [|ch file]; [injection E as <-; exact (F f bytes Hf)|]. injection E as <-. destruct (writable _); [|exact (F f bytes Hf)].
      cbn [files with_files] in Hf. unfold put_file in Hf. destruct (str_eqb f (ch :: file)); [|exact (F f bytes Hf)]. injection Hf as <-. now apply Hdot. }
  assert (Step : forall s c, inv s -> (exists s', exec1 s c = Ok s' /\ inv s') \/ (exec1 s c = Fatal /\ exists f l, c = CLoad f l)).
  { intros s c I.
    assert (Done : (forall f l, c <> CLoad f l) -> (exists s', exec1 s c = Ok s' /\ fits (training s') /\ sizes (layers (training s')) = sizes (layers t)) ->
      exists s', exec1 s c = Ok s' /\ inv s').
    { intros Hc (s' & E & F' & S'). exists s'. split; [exact E|]. split; [exact F'|]. split; [exact S'|]. split; [eapply Hm; eauto|eapply Hg; eauto]. }
    pose proof I as (F & Hs & M & G). destruct c.
    all: try (left; apply Done; [discriminate|]; exists s; cbn [exec_command]; now auto).
    - left. apply Done; [discriminate|]. cbn [exec_command]. unfold do_train, train. cbn [training call_ with_calls].
      destruct (epochs_run (negb (no_snapshots =? 1)%Z) Hp (Z.to_nat epochs) 0 (training s)
        ([] ++ [EGraphTesting false; EStatLayers (stats_during_training (with_stats cfg (training_stats (call_ s (StartRecording (clock (length (calls s)))))))) ]) F) as (t2 & es2 & E2 & F2 & S2).
      match goal with |- context [foldm ?f (seq 0 ?n) ?x] => replace (foldm f (seq 0 n) x) with (Ok (t2, es2)) by (symmetry; exact E2) end.
      cbn [bind]. eexists. split; [reflexivity|].
      unfold sync_epoch. destruct (no_snapshots =? 1)%Z; destruct hybrid; cbn; (split; [first [exact F2|apply (fits_reset D A W (with_epoch D W t2 (epoch t2))); exact F2]|rewrite <- Hs; exact S2]).
    - left. apply Done; [discriminate|]. cbn [exec_command]. destruct hybrid eqn:Hh.
      + rewrite (read_all_ext s) by reflexivity.
        replace (view (sync_epoch A true (call_ s (StartRecording (clock (length (calls s))))))) with (view s) by reflexivity.
        rewrite (read_ok s (M eq_refl)). cbn [bind]. unfold do_test.
        match goal with |- context [test D A ?c tdl W tforward tset_mode scaling (?u, [])] =>
          destruct (C62_test A c tdl tforward tset_mode scaling u [] Hb) as (t1 & losses & E & _) end.
        rewrite E. cbn [bind]. eexists. split; [reflexivity|]. split; [exact F|exact Hs].
      + unfold do_test.
        match goal with |- context [test D A ?c dl W forward set_mode scaling (?u, [])] =>
          destruct (C62_test A c dl forward set_mode scaling u [] Hb) as (t1 & losses & E & _ & E1 & E2 & E3 & E4 & _) end.
        rewrite E. cbn [bind]. eexists. split; [reflexivity|]. cbn [fst snd training call_ with_calls with_training]. split; [|rewrite E1; exact Hs].
        assert (F' : fits (Trainer_Model.reset D A W (with_epoch D W (training s) (epoch (training s))))) by (apply fits_reset; exact F).
        apply (fits_with _ _ F'); [unfold parameters; rewrite E1; reflexivity|exact E2|exact E3|exact E4].
    - cbn [exec_command]. destruct file as [|ch file]; [left; eauto|]. destruct (files s (ch :: file)) as [bytes|] eqn:Ef; [|left; eauto].
      match goal with |- context [load_params bytes ?l _] => destruct (Hld bytes l (layers (training s)) (G _ _ Ef) Hs) as [El|(ls & El & Sl)] end; rewrite El; cbn [bind]; [right; eauto|left].
      destruct (moved _ _ _ _) as [bs n] eqn:Em.
      assert (Ep : shape (all_params ls) = shape (all_params (layers (training s)))) by (apply structure_shape; exact Sl).
      assert (Lo : length (all_params (layers (training s))) = length (all_params ls)).
      { apply (f_equal (@length _)) in Ep. unfold shape in Ep. now rewrite !map_length in Ep. }
      assert (F' : fits (with_layers (training s) ls)) by (apply (fits_with _ _ F); [exact Ep|reflexivity..]).
      destruct hybrid eqn:Hh.
      + destruct (M eq_refl) as (L & Hn & Hf & Hv & Hl & He).
        pose proof (moved_ok _ _ (blocks s) (next_block s) Lo L Hn Hf) as Mv. rewrite Em in Mv. destruct Mv as (M1 & M2 & M3 & _).
        rewrite shadow_total by (cbn [blocks view]; rewrite M1, Hv, map_length; lia). eexists. split; [reflexivity|].
        split; [exact F'|]. split; [cbn [with_view training with_layers layers]; now rewrite Sl|]. split; [intros _|exact G].
        unfold mem_ok. cbn [with_view blocks training view next_block testing layers with_layers epoch]. rewrite <- Lo, M1, L. split; [reflexivity|]. split; [exact M2|]. split; [exact M3|].
        split; [|split; [rewrite (sizes_layout _ _ Sl); exact Hl|exact He]]. rewrite Hv, skipn_all2, app_nil_r; [reflexivity|]. rewrite map_length, L. lia.
      + eexists. split; [reflexivity|]. split; [exact F'|]. split; [cbn [training with_layers layers]; now rewrite Sl|]. split; [discriminate|exact G].
    - left. apply Done; [discriminate|]. cbn [exec_command]. destruct file; [eauto|]. destruct (writable _); eexists; (split; [reflexivity|]); auto.
    - left. apply Done; [discriminate|]. cbn [exec_command]. destruct name; eexists; (split; [reflexivity|]); auto.
    - left. apply Done; [discriminate|]. cbn [exec_command]. eexists. split; [reflexivity|]. unfold sync_epoch.
      destruct hybrid; cbn [training with_training with_testing]; (split; [|exact Hs]); repeat (first [exact F|apply fits_reset|apply (fits_reset D A W (with_epoch D W _ _))]).
    - left. apply Done; [discriminate|]. cbn [exec_command]. pose proof (Hi (world (training s)) (layers (training s))) as Si.
      destruct (init_weights _ _) as [w ls]. cbn [snd] in Si.
      assert (F' : fits (Trainer_Model.reset D A W (with_layers (with_world D W (training s) w) ls))).
      { apply fits_reset. apply (fits_with _ _ F); [|reflexivity..]. apply structure_shape. exact Si. }
      destruct hybrid eqn:Hh.
      + destruct (M eq_refl) as (L & Hn & Hf & Hv & Hl & He). rewrite shadow_total by (cbn [blocks view with_training]; rewrite Hv, map_length; lia).
        eexists. split; [reflexivity|]. split; [exact F'|]. cbn [training with_view with_training Trainer_Model.reset with_layers layers]. now rewrite Si.
      + eexists. split; [reflexivity|]. split; [exact F'|]. cbn [training with_view with_training Trainer_Model.reset with_layers layers]. now rewrite Si.
    - left. apply Done; [discriminate|]. cbn [exec_command]. destruct file; [eauto|]. destruct (writable _); eexists; (split; [reflexivity|]); auto.
    - left. apply Done; [discriminate|]. cbn [exec_command]. eexists. split; [reflexivity|]. auto. }
  clear -I0 Step. revert s0 I0. induction cs as [|c cs IH]; intros s0 I0; cbn [foldm].
  - left. exists s0. split; [reflexivity|apply I0].
  - destruct (Step s0 c I0) as [(s' & E & I')|(E & f & l & ->)]; rewrite E; cbn [bind].
    + destruct (IH s' I') as [(s & E1 & R)|(E1 & f & l & H)]; [left; eauto|right]. split; [exact E1|]. exists f, l. now right.
    + right. split; [reflexivity|]. exists f, l. now left.
Qed.

(** ** Scripts and the console *)
(** A script runs its lines in order, up to the first line that says q or quit; so does the console. *)
Theorem C74_script (s : sess) lines cs : Forall2 (fun l c => parse_command l = Ok c /\ c <> CQuit) lines cs ->
  script s lines = foldm exec1 cs s /\
  forall q rest, q = s_ "q" \/ q = s_ "quit" ->
    script s (lines ++ q :: rest) = foldm exec1 cs s /\
    (forall fuel, length lines < fuel -> console fuel s (lines ++ q :: rest) = Some (foldm exec1 cs s)).
Proof using.
  intros H. revert s.
  assert (L1 : forall s l c, parse_command l = Ok c -> c <> CQuit -> line1 s l = (s' <- exec1 s c ;; Ok (s', true))).
  { intros s l c Hl Hc. unfold run_line. rewrite Hl. cbn [bind]. now destruct c. }
  assert (Lq : forall s q, q = s_ "q" \/ q = s_ "quit" -> line1 s q = Ok (s, false)) by (intros s q [->| ->]; reflexivity).
  induction H as [|l c lines cs (Hl & Hc) H IH]; intros s.
  - split; [reflexivity|]. intros q rest Hq. cbn [app run_script foldm]. rewrite (Lq s q Hq). split; [reflexivity|].
    intros [|fuel] Hf; [cbn in Hf; lia|]. cbn [run_console hd]. now rewrite (Lq s q Hq).
  - cbn [run_script foldm app]. rewrite (L1 s l c Hl Hc). destruct (exec1 s c) as [s'| |] eqn:E; cbn [bind].
    + destruct (IH s') as (I1 & I2). split; [exact I1|]. intros q rest Hq. destruct (I2 q rest Hq) as (I3 & I4). split; [exact I3|].
      intros [|fuel] Hf; cbn [length] in Hf; [lia|]. cbn [run_console hd tl]. rewrite (L1 s l c Hl Hc), E. cbn [bind]. apply I4. lia.
    + split; [reflexivity|]. intros q rest Hq. split; [reflexivity|].
      intros [|fuel] Hf; cbn [length] in Hf; [lia|]. cbn [run_console hd tl]. rewrite (L1 s l c Hl Hc), E. reflexivity.
    + split; [reflexivity|]. intros q rest Hq. split; [reflexivity|].
      intros [|fuel] Hf; cbn [length] in Hf; [lia|]. cbn [run_console hd tl]. rewrite (L1 s l c Hl Hc), E. reflexivity.
Qed.

(** Finding: when the standard input ends, trainNetwork does not: it goes on reading empty lines and complaining about
    them for ever, whatever the session was. *)
Theorem C74_end_of_input_refuted (s : sess) fuel : console fuel s [] = None.
Proof using. revert s. induction fuel as [|fuel IH]; intros s; [reflexivity|]. cbn [run_console hd tl]. exact (IH s). Qed.

End Sessions.

(** The lines of a script are what stands between its line ends. *)
Theorem C74_script_lines lines : lines <> [] -> Forall (fun l => ~ In "010"%char l) lines ->
  forall text, text = List.concat (map (fun l => l ++ ["010"%char]) (removelast lines)) ++ List.last lines [] -> getlines text [] = lines.
Proof.
  intros Hne Hl text ->.
  assert (G : forall l cur rest, ~ In "010"%char l -> getlines (l ++ "010"%char :: rest) cur = (rev cur ++ l) :: getlines rest []).
  { induction l as [|c l IH]; intros cur rest Hn; cbn [app getlines].
    - now rewrite app_nil_r.
    - destruct (Ascii.eqb_spec c "010"%char) as [->|Hc]; [elim Hn; now left|]. rewrite IH by (intros Hin; apply Hn; now right). cbn [rev].
      now rewrite <- app_assoc. }
  assert (G0 : forall l cur, ~ In "010"%char l -> getlines l cur = [rev cur ++ l]).
  { induction l as [|c l IH]; intros cur Hn; cbn [getlines].
    - now rewrite app_nil_r.
    - destruct (Ascii.eqb_spec c "010"%char) as [->|Hc]; [elim Hn; now left|]. rewrite IH by (intros Hin; apply Hn; now right). cbn [rev].
      now rewrite <- app_assoc. }
  induction Hl as [|l lines Hn Hl IH]; [congruence|]. destruct lines as [|l2 lines].
  - cbn [removelast map List.concat app List.last]. rewrite G0 by exact Hn. reflexivity.
  - change (removelast (l :: l2 :: lines)) with (l :: removelast (l2 :: lines)). change (List.last (l :: l2 :: lines) []) with (List.last (l2 :: lines) []).
    cbn [map List.concat]. rewrite <- !app_assoc. cbn [app]. rewrite G by exact Hn. cbn [rev app]. f_equal. apply IH. discriminate.
Qed.

(** ** A session *)
Definition ex_forward (w : nat) (ps : list (list (list Z))) : nat * list Z := (S w, [Z.of_nat w]).
Definition ex_init (w : nat) (ls : list (Z * list (list Z))) : nat * list (Z * list (list Z)) :=
  (S w, map (fun '(r, ps) => (r, map (map (fun _ => 7%Z)) ps)) ls).
Definition ex_save (ls : list (Z * list (list Z))) : list (Z * list (list Z)) := ls.
Definition size_of (l : Z * list (list Z)) : Z * list nat := let '(r, ps) := l in (r, map (@length Z) ps).
Lemma sizes_dec (a b : list (Z * list nat)) : {a = b} + {a <> b}.
Proof. repeat decide equality. Defined.
Definition ex_load (bytes : list (Z * list (list Z))) (last : Z) (ls : list (Z * list (list Z))) : res (list (Z * list (list Z))) :=
  if sizes_dec (sizes bytes) (sizes ls) then Ok bytes else Fatal.
Definition ex_load_any (bytes : list (Z * list (list Z))) (last : Z) (ls : list (Z * list (list Z))) : res (list (Z * list (list Z))) := Ok bytes.
Notation ex_exec load h := (exec_command Zarith_ h ex_cfg ex_dl ex_pass ex_forward (fun _ w => w) (fun n => Z.of_nat n) (fun n _ => n) 4
  ex_cfg ex_dl ex_forward (fun _ w => w) 4 0 (fun z => z) (fun _ => []) (fun n => Z.of_nat n) (fun n => S (length n)) ex_init ex_save load (fun _ => true) (fun _ => [])).
Definition ex_stat : descriptor Z := mkDesc (fun _ => mkStat 0%Z true) (fun _ v => mkStat v false) (fun _ st => st).
Definition ex_setup : list (call Z) := [RegisterStat ex_stat; RegisterSink].
Definition ex_start (h : bool) : session Z nat Z (Z * list (list Z)) :=
  let s := mkSession ex_trainer true ex_trainer true (seq 0 3) (if h then map Shadow (seq 0 3) else map Own (all_params ex_layers)) 3 (ex_setup ++ [Initialize]) (fun _ => None) in s.

(** Both modes start, and the hypotheses of the theorems hold for this session. *)
Example ex_session h : start h ex_cfg ex_cfg ex_trainer ex_trainer (ex_setup ++ [Initialize]) (fun _ => None) = Ok (ex_start h) /\
  Forall registration ex_setup /\ sink_count ex_setup = 1 /\ Forall resets (registered ex_setup) /\ fits ex_trainer /\
  (forall w ps, shape (snd (ex_pass w ps)) = shape (concat ps)) /\ batch_size ex_dl <> 0 /\
  (forall w ls, sizes (snd (ex_init w ls)) = sizes ls) /\ (forall w ls, layout (snd (ex_init w ls)) = layout ls) /\
  (forall bytes last ls ls', ex_load bytes last ls = Ok ls' -> layout ls' = layout ls) /\
  (forall bytes l ls, ex_load bytes l ls = Fatal \/ exists ls', ex_load bytes l ls = Ok ls' /\ sizes ls' = sizes ls) /\
  (forall ls cur, sizes ls = sizes cur -> ex_load (ex_save ls) 0 cur = Ok ls).
Proof.
  split; [destruct h; reflexivity|]. split; [repeat constructor|]. split; [reflexivity|]. split; [repeat constructor; intros a b; reflexivity|].
  split; [apply ex_trainer_ok|]. split; [apply ex_trainer_ok|]. split; [discriminate|].
  assert (Hs : forall w ls, sizes (snd (ex_init w ls)) = sizes ls).
  { intros w ls. unfold sizes, ex_init. cbn [snd]. rewrite map_map. apply map_ext. intros (r, ps). f_equal. rewrite map_map. apply map_ext. intros x. apply map_length. }
  split; [exact Hs|]. split; [intros w ls; now apply sizes_layout|].
  assert (Hl : forall bytes l ls ls', ex_load bytes l ls = Ok ls' -> ls' = bytes /\ sizes ls' = sizes ls).
  { unfold ex_load. intros bytes l ls ls' E. destruct (sizes_dec _ _) as [H|]; [|discriminate]. injection E as <-. auto. }
  split; [intros bytes l ls ls' E; apply sizes_layout; eapply Hl; exact E|].
  split; [intros bytes l ls; unfold ex_load; destruct (sizes_dec _ _); eauto|].
  intros ls cur E. unfold ex_load, ex_save. destruct (sizes_dec _ _); congruence.
Qed.
Lemma ok_such {X} (r : res X) (P : X -> Prop) : match r with Ok x => P x | _ => False end -> exists x, r = Ok x /\ P x.
Proof. destruct r; [eauto|contradiction..]. Qed.
Lemma ok_such2 {X Y} (r : res X) (f : X -> res Y) (P : X -> Y -> Prop) : match r with Ok x => match f x with Ok y => P x y | _ => False end | _ => False end ->
  exists x, r = Ok x /\ exists y, f x = Ok y /\ P x y.
Proof. intros H. apply ok_such. destruct r; [|contradiction..]. apply ok_such. exact H. Qed.
Ltac computed := vm_compute; repeat (split; [first [reflexivity|discriminate]|]); first [reflexivity|discriminate].
(** A session: it trains, saves, trains on, loads again and tests; the rows it reports. *)
Example ex_run : exists s, foldm (ex_exec ex_load true) [CTrain 2 0; CSave (s_ "p"); CTrain 1 1; CLoad (s_ "p") 0; CSetExperiment (s_ "late"); CTest] (ex_start true) = Ok s /\
  exists a, Stat_Model.run 0%Z (calls s) = Ok a /\
  items 0 (trace a) = [Experiment 0; Row true 0 3 4; Row true 1 3 4; Row true 2 3 4; Experiment 5; Row false 2 5 4] /\
  files s (s_ "p") = Some (layers (training s)) /\ epoch (training s) = 3 /\ layers (training s) <> ex_layers /\
  read_all s (view s) = Ok (all_params (layers (training s))).
Proof. apply ok_such2. computed. Qed.
Example ex_split : exists s1, ex_exec ex_load true (ex_start true) (CTrain 1 0) = Ok s1 /\
  exists s2, foldm (ex_exec ex_load true) [CTest; CSave (s_ "p"); CTstat 0; CTest] s1 = Ok s2 /\ forallb looks [CTest; CSave (s_ "p"); CTstat 0; CTest] = true /\
  epoch (training s2) = 1 /\ layers (training s2) <> ex_layers.
Proof. apply ok_such2. computed. Qed.
Example ex_text : getlines (s_ "train epochs=2" ++ ["010"%char] ++ s_ "test" ++ ["010"%char] ++ s_ "q") [] = [s_ "train epochs=2"; s_ "test"; s_ "q"] /\
  parse_command (s_ "train epochs=2") = Ok (CTrain 2 0) /\ parse_command (s_ "set epoch epoch=5") = Ok (CSetEpoch 5).
Proof. split; [|split]; reflexivity. Qed.

(** Finding: "set epoch epoch=5" followed by "test" reports its row under the epoch that was trained last (or 0), not
    under the epoch that was set: Trainer::Test does not tell the statistics the epoch. *)
Theorem C74_test_epoch_refuted : exists s, foldm (ex_exec ex_load true) [CSetEpoch 5; CTest] (ex_start true) = Ok s /\
  exists a, Stat_Model.run 0%Z (calls s) = Ok a /\ epoch (training s) = 5 /\ epoch (testing s) = 5 /\ items 0 (trace a) = [Experiment 0; Row false 0 5 4].
Proof. apply ok_such2. computed. Qed.

(** Finding: in FCN mode (one network) "train epochs=1" twice is not "train epochs=2", nor is a test between two
    trainings harmless: trainNetwork sets the epoch of the testing trainer, which is the same trainer, and Trainer::SetEpoch
    forgets the momentum. *)
Theorem C74_fcn_momentum_refuted : exists s, foldm (ex_exec ex_load false) [CTrain 1 0; CTrain 1 0] (ex_start false) = Ok s /\
  exists s', ex_exec ex_load false (ex_start false) (CTrain 2 0) = Ok s' /\ layers (training s) <> layers (training s').
Proof. apply ok_such2 with (f := fun _ => ex_exec ex_load false (ex_start false) (CTrain 2 0)). computed. Qed.

(** Finding: a parameter file of another network with the same number of tensors is loaded, after which training reads
    and writes outside the trainer's buffers; no message is shown. *)
Theorem C74_other_sizes_refuted : exists s1, ex_exec ex_load_any true (with_files (ex_start true) (fun _ => Some [(1, [[5]; [6; 7; 8]]); (2, []); (3, [[9]])])%Z) (CLoad (s_ "p") 0) = Ok s1 /\
  exists s2, ex_exec ex_load_any true s1 CTest = Ok s2 /\ layout (layers (training s1)) = layout ex_layers /\ ex_exec ex_load_any true s1 (CTrain 1 0) = UB.
Proof. apply ok_such2. computed. Qed.

(** Finding: "graph file=test.dot" writes the graph of the testing network: the word test is looked for in the whole
    line, also in the file name. *)
Theorem C74_graph_file_refuted : parse_command (s_ "graph file=test.dot") = Ok (CGraph (s_ "test.dot") true) /\
  parse_command (s_ "graph file=net.dot") = Ok (CGraph (s_ "net.dot") false).
Proof. split; reflexivity. Qed.

(** Finding: "set epoch 5", and any line whose number cannot be read, goes back to epoch 0 and forgets the momentum
    instead of being rejected. *)
Theorem C74_set_epoch_default_refuted : parse_command (s_ "set epoch 5") = Ok (CSetEpoch 0) /\ parse_command (s_ "set epoch epoch=five") = Ok (CSetEpoch 0).
Proof. split; reflexivity. Qed.

Print Assumptions C74_lines.
Print Assumptions C74_epoch_range.
Print Assumptions C74_same_parameters.
Print Assumptions C74_reports.
Print Assumptions C74_looking.
Print Assumptions C74_files.
Print Assumptions C74_load.
Print Assumptions C74_set_epoch.
Print Assumptions C74_reset.
Print Assumptions C74_save_load.
Print Assumptions C74_tstat.
Print Assumptions C74_train_split.
Print Assumptions C74_runs.
Print Assumptions C74_script.
Print Assumptions C74_end_of_input_refuted.
Print Assumptions C74_script_lines.
Print Assumptions C74_test_epoch_refuted.
Print Assumptions C74_fcn_momentum_refuted.
Print Assumptions C74_other_sizes_refuted.
Print Assumptions C74_graph_file_refuted.
Print Assumptions C74_set_epoch_default_refuted.

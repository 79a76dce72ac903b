(** C73: the statistics files are tables. *)
From Coq Require Import Ascii String.
From Verif Require Import Base BaseFacts Str_Model Stat_Model Csv_Model.
Local Open Scope list_scope.
Local Open Scope nat_scope.

(** The pieces of a text between separators. *)
Fixpoint pieces (sep : ascii) (s : str) : list str :=
  match s with
  | [] => [[]]
  | c :: s' => if Ascii.eqb c sep then [] :: pieces sep s' else match pieces sep s' with p :: ps => (c :: p) :: ps | [] => [[c]] end
  end.
(** A text that can stand in a field. *)
Definition plain (s : str) : Prop := ~ In comma s /\ ~ In newline s.

(** A description without the characters that are not letters or digits. *)
Definition letter_or_digit (c : ascii) : bool := is_lower c || is_upper c || is_digit c.
Definition stripped (d : str) : str := filter letter_or_digit d.
Definition ascii_text (d : str) : Prop := Forall (fun c => nat_of_ascii c < 128) d.

(** With no statistics at all there still is one empty field behind the last comma. *)
Definition at_least_one (l : list str) : list str := match l with [] => [[]] | _ => l end.

Lemma pieces_app sep a b : ~ In sep a -> pieces sep (a ++ sep :: b) = a :: pieces sep b.
Proof.
  induction a as [|c a IH]; intros H; cbn [app pieces].
  - now rewrite Ascii.eqb_refl.
  - destruct (Ascii.eqb_spec c sep) as [->|N]; [exfalso; apply H; now left|]. rewrite IH; [reflexivity|]. intros Hi. apply H. now right.
Qed.
Lemma pieces_one sep a : ~ In sep a -> pieces sep a = [a].
Proof.
  induction a as [|c a IH]; intros H; cbn [pieces]; [reflexivity|].
  destruct (Ascii.eqb_spec c sep) as [->|N]; [exfalso; apply H; now left|]. rewrite IH; [reflexivity|]. intros Hi. apply H. now right.
Qed.

Fixpoint joined (l : list str) : str := match l with [] => [] | [a] => a | a :: l' => a ++ comma :: joined l' end.
Lemma joined_cons a l : l <> [] -> joined (a :: l) = a ++ comma :: joined l.
Proof. destruct l; [congruence|reflexivity]. Qed.
Lemma pieces_joined l : l <> [] -> Forall plain l -> pieces comma (joined l) = l.
Proof.
  induction l as [|a l IH]; intros Hn Hp; [congruence|]. inversion Hp as [|? ? [Pa _] Hp']; subst. destruct l as [|b l]; [now apply pieces_one|].
  rewrite joined_cons by discriminate. rewrite pieces_app by exact Pa. now rewrite IH.
Qed.
Lemma joined_no_newline l : Forall plain l -> ~ In newline (joined l).
Proof.
  induction l as [|a l IH]; intros Hp; [intros []|]. inversion Hp as [|? ? [_ Pa] Hp']; subst. destruct l as [|b l]; [exact Pa|].
  rewrite joined_cons by discriminate. intros Hi. apply in_app_or in Hi as [Hi|[Hi|Hi]]; [contradiction|discriminate|now apply IH].
Qed.

Lemma strip_ok d : ascii_text d -> strip d = Ok (stripped d).
Proof.
  induction d as [|c d IH]; intros H; [reflexivity|]. inversion H; subst. cbn [strip stripped filter]. unfold isnalnum. rewrite (proj2 (Nat.ltb_lt _ _)) by assumption.
  cbn [bind]. rewrite IH by assumption. cbn [bind]. fold (letter_or_digit c). fold (stripped d). now destruct (letter_or_digit c).
Qed.
Lemma stripped_plain d : plain (stripped d).
Proof. split; intros H; apply filter_In in H as [_ H]; discriminate. Qed.

Section Csv.
Variable V : Type.
Variable show_real : V -> str.
Variable show_count : nat -> str.
Variable writable : str -> bool.
Hypothesis Hreal : forall v, plain (show_real v).
Hypothesis Hcount : forall n, plain (show_count n).

(** The fields of the line for a row. *)
Definition fields (r : row V) (n : nat) : list str :=
  [if r_training V r then s_ "1" else s_ "0"; show_count (r_epoch V r); show_count (r_iterations V r); show_real (r_seconds V r)] ++
  at_least_one (map (fun s => if s_null s then [] else show_real (s_value s)) (firstn n (r_stats V r))).

Lemma append_files st f old text : c_open st = Some f -> c_files st f = Some old ->
  c_descs (append text st) = c_descs st /\ c_open (append text st) = Some f /\ c_files (append text st) f = Some (old ++ text) /\
  forall g, g <> f -> c_files (append text st) g = c_files st g.
Proof.
  intros Ho Hf. unfold append. rewrite Ho. cbn. rewrite Hf. destruct (list_eq_dec ascii_dec f f) as [_|N]; [|congruence].
  repeat split; auto. intros g Hg. destruct (list_eq_dec ascii_dec g f) as [E|_]; [congruence|reflexivity].
Qed.

(** [st'] is [st] with [text] behind what was in the open file. *)
Definition grown (st st' : csv) (f : str) (text : str) : Prop :=
  c_descs st' = c_descs st /\ c_open st' = Some f /\ (exists old, c_files st f = Some old /\ c_files st' f = Some (old ++ text)) /\
  forall g, g <> f -> c_files st' g = c_files st g.
Lemma grown_append st f text : c_open st = Some f -> c_files st f <> None -> grown st (append text st) f text.
Proof.
  intros Ho Hf. destruct (c_files st f) as [old|] eqn:E; [|congruence]. destruct (append_files st f old text Ho E) as (A & B & C & D). split; [exact A|]. split; [exact B|]. split; [eauto|exact D].
Qed.
Lemma grown_trans a b c f t1 t2 : grown a b f t1 -> grown b c f t2 -> grown a c f (t1 ++ t2).
Proof.
  intros (A1 & A2 & (o1 & A3 & A4) & A5) (B1 & B2 & (o2 & B3 & B4) & B5). split; [congruence|]. split; [exact B2|]. split.
  - exists o1. split; [exact A3|]. rewrite B4. rewrite A4 in B3. injection B3 as <-. now rewrite app_assoc.
  - intros g Hg. rewrite B5, A5; auto.
Qed.
Lemma grown_open st st' f t : grown st st' f t -> c_open st' = Some f /\ c_files st' f <> None.
Proof. intros (_ & A & (o & _ & B) & _). split; [exact A|congruence]. Qed.

Lemma fold_texts {A} (texts : list str) (item : nat -> res A) (text : A -> str) f n : n = length texts ->
  (forall s t, nth_error texts s = Some t -> exists a, item s = Ok a /\ text a = t) ->
  forall st, c_open st = Some f -> c_files st f <> None ->
  exists st', foldm (fun st' s => v <- item s ;; Ok (append (separated n s (text v)) st')) (seq 0 n) st = Ok st' /\ 
    (texts = [] -> st' = st) /\ (texts <> [] -> grown st st' f (joined texts)).
Proof.
  intros Hn Hitem.
  assert (G : forall k l st, l <> [] -> k + length l = n -> (forall s t, nth_error l s = Some t -> nth_error texts (k + s) = Some t) -> c_open st = Some f -> c_files st f <> None ->
    exists st', foldm (fun st' s => v <- item s ;; Ok (append (separated n s (text v)) st')) (seq k (length l)) st = Ok st' /\ grown st st' f (joined l)).
  { intros k l. revert k. induction l as [|t l IH]; intros k st Hne Hk Hl Ho Hf; [congruence|]. cbn [length seq foldm].
    destruct (Hitem k t) as (a & Ea & Et); [specialize (Hl 0 t eq_refl); now rewrite Nat.add_0_r in Hl|]. rewrite Ea. cbn [bind]. rewrite Et. cbn [length] in Hk.
    pose proof (grown_append st f (separated n k t) Ho Hf) as Gr. unfold separated in *. destruct l as [|t2 l].
    - cbn [length seq foldm]. cbn [length] in Hk. replace (k <? n - 1) with false in * by (symmetry; apply Nat.ltb_ge; lia). rewrite app_nil_r in *. eexists. split; [reflexivity|exact Gr].
    - cbn [length] in Hk. replace (k <? n - 1) with true in * by (symmetry; apply Nat.ltb_lt; lia).
      destruct (grown_open _ _ _ _ Gr) as [Ho' Hf'].
      destruct (IH (S k) _ ltac:(discriminate) ltac:(cbn [length]; lia) ltac:(intros s t' Hs; replace (S k + s) with (k + S s) by lia; now apply Hl) Ho' Hf') as (st' & E & Gr').
      exists st'. split; [exact E|]. rewrite joined_cons by discriminate. replace (t ++ comma :: joined (t2 :: l)) with ((t ++ [comma]) ++ joined (t2 :: l)) by now rewrite <- app_assoc.
      eapply grown_trans; eauto. }
  intros st Ho Hf. destruct texts as [|t texts].
  - subst n. exists st. split; [reflexivity|]. split; [reflexivity|congruence].
  - destruct (G 0 (t :: texts) st ltac:(discriminate) (eq_sym Hn) ltac:(auto) Ho Hf) as (st' & E & Gr). exists st'. split; [rewrite <- Hn in E; exact E|]. split; [discriminate|auto].
Qed.

Lemma joined_four a b c d l : joined ([a; b; c; d] ++ at_least_one l) = (a ++ [comma]) ++ (b ++ [comma]) ++ (c ++ [comma]) ++ (d ++ [comma]) ++ joined l.
Proof. cbn [app]. rewrite !joined_cons by (try discriminate; destruct l; discriminate). rewrite <- !app_assoc. cbn [app]. destruct l; cbn [at_least_one]; reflexivity. Qed.

Lemma process_spec r st f : c_open st = Some f -> c_files st f <> None -> length (c_descs st) <= length (r_stats V r) ->
  exists st', process V show_real show_count r st = Ok st' /\ grown st st' f (joined (fields r (length (c_descs st))) ++ [newline]).
Proof.
  intros Ho Hf Hl. unfold process. rewrite Ho. cbv zeta.
  set (t1 := (if r_training V r then s_ "1" else s_ "0") ++ [comma]). set (t2 := show_count (r_epoch V r) ++ [comma]).
  set (t3 := show_count (r_iterations V r) ++ [comma]). set (t4 := show_real (r_seconds V r) ++ [comma]).
  pose proof (grown_append st f t1 Ho Hf) as G1. destruct (grown_open _ _ _ _ G1) as [O1 F1].
  pose proof (grown_append _ f t2 O1 F1) as G2. destruct (grown_open _ _ _ _ G2) as [O2 F2].
  pose proof (grown_append _ f t3 O2 F2) as G3. destruct (grown_open _ _ _ _ G3) as [O3 F3].
  pose proof (grown_append _ f t4 O3 F3) as G4. destruct (grown_open _ _ _ _ G4) as [O4 F4].
  set (st4 := append t4 _) in *. pose proof (grown_trans _ _ _ _ _ _ (grown_trans _ _ _ _ _ _ (grown_trans _ _ _ _ _ _ G1 G2) G3) G4) as G.
  set (text := fun s : stat V => if s_null s then [] else show_real (s_value s)).
  set (texts := map text (firstn (length (c_descs st)) (r_stats V r))).
  assert (Lt : length texts = length (c_descs st)) by (unfold texts; rewrite map_length, firstn_length; lia).
  destruct (fold_texts texts (load (r_stats V r)) text f (length (c_descs st))) with (st := st4) as (st5 & E & Hz & Hg); auto.
  { intros s t Hs. unfold texts in Hs. rewrite nth_error_map in Hs. destruct (nth_error (firstn _ _) s) as [v|] eqn:Ev; [|discriminate]. injection Hs as <-.
    exists v. split; [|reflexivity]. apply load_ok. rewrite <- (firstn_skipn (length (c_descs st)) (r_stats V r)). rewrite nth_error_app1; [exact Ev|apply nth_error_Some; congruence]. }
  match type of E with ?l = _ => match goal with |- context [foldm ?g ?a ?b] => change (foldm g a b) with l end end. rewrite E. cbn [bind]. eexists. split; [reflexivity|].
  unfold fields. fold text. fold texts. rewrite joined_four. fold t1 t2 t3 t4.
  assert (Gr : grown st st5 f (t1 ++ t2 ++ t3 ++ t4 ++ joined texts)).
  { destruct texts as [|t texts'].
    - rewrite (Hz eq_refl). cbn [joined]. rewrite app_nil_r. rewrite <- !app_assoc in G. exact G.
    - pose proof (grown_trans _ _ _ _ _ _ G (Hg ltac:(discriminate))) as X. rewrite <- !app_assoc in X. exact X. }
  destruct (grown_open _ _ _ _ Gr) as [O5 F5]. eapply grown_trans; [exact Gr|]. now apply grown_append.
Qed.

Lemma set_spec e st : writable (csv_name e) = true -> Forall ascii_text (c_descs st) ->
  exists st', csv_experiment writable e st = Ok st' /\ c_descs st' = c_descs st /\ c_open st' = Some (csv_name e) /\
    c_files st' (csv_name e) = Some (joined ([s_ "IsTraining"; s_ "Epoch"; s_ "Iterations"; s_ "SecondsElapsed"] ++ at_least_one (map stripped (c_descs st))) ++ [newline]) /\
    forall g, g <> csv_name e -> c_files st' g = c_files st g.
Proof.
  intros Hw Ha. unfold csv_experiment. rewrite Hw. cbv zeta. set (f := csv_name e). set (st0 := mkCsv _ _ _).
  assert (F0 : c_files st0 f = Some []) by (unfold st0; cbn [c_files]; destruct (list_eq_dec ascii_dec f f) as [_|N]; [reflexivity|congruence]).
  assert (N0 : forall g, g <> f -> c_files st0 g = c_files st g) by (intros g Hg; unfold st0; cbn [c_files]; destruct (list_eq_dec ascii_dec g f) as [N|_]; [contradiction|reflexivity]).
  pose proof (grown_append st0 f (s_ "IsTraining,Epoch,Iterations,SecondsElapsed,") eq_refl ltac:(congruence)) as G1. destruct (grown_open _ _ _ _ G1) as [O1 F1].
  set (st1 := append _ st0) in *. set (texts := map stripped (c_descs st)).
  assert (Lt : length texts = length (c_descs st)) by apply map_length.
  destruct (fold_texts texts (fun s => d <- load (c_descs st) s ;; strip d) (fun d => d) f (length (c_descs st))) with (st := st1) as (st2 & E & Hz & Hg); auto.
  { intros s t Hs. unfold texts in Hs. rewrite nth_error_map in Hs. destruct (nth_error (c_descs st) s) as [d|] eqn:Ed; [|discriminate]. injection Hs as <-.
    exists (stripped d). split; [|reflexivity]. rewrite (load_ok _ _ _ Ed). cbn [bind]. apply strip_ok. rewrite Forall_forall in Ha. apply Ha. eapply nth_error_In; eauto. }
  match goal with |- context [foldm ?g ?l st1] => replace (foldm g l st1) with (foldm (fun st' s => v <- (d <- load (c_descs st) s ;; strip d) ;; Ok (append (separated (length (c_descs st)) s v) st')) l st1) end.
  2:{ clearbody st1; clear; revert st1; induction (seq 0 (length (c_descs st))) as [|s l IH]; intros st1; [reflexivity|]. cbn [foldm].
      destruct (load (c_descs st) s) as [d| |]; cbn [bind]; [|reflexivity|reflexivity]. destruct (strip d); cbn [bind]; auto. }
  rewrite E. cbn [bind].
  assert (Gr : grown st0 st2 f (joined ([s_ "IsTraining"; s_ "Epoch"; s_ "Iterations"; s_ "SecondsElapsed"] ++ at_least_one texts))).
  { rewrite joined_four. destruct texts as [|t texts'].
    - rewrite (Hz eq_refl). exact G1.
    - exact (grown_trans _ _ _ _ _ _ G1 (Hg ltac:(discriminate))). }
  destruct (grown_open _ _ _ _ Gr) as [O2 F2]. pose proof (grown_append st2 f [newline] O2 F2) as G3.
  destruct (grown_trans _ _ _ _ _ _ Gr G3) as (A & B & (old & C1 & C2) & D). rewrite F0 in C1. injection C1 as <-.
  eexists. split; [reflexivity|]. split; [exact A|]. split; [exact B|]. split; [exact C2|]. intros g Hg'. rewrite D by exact Hg'. now apply N0.
Qed.

(** From any state of the sink: starting an experiment and processing any number of rows leaves a file whose lines are a
    header and one line for each row.  Every line has the same number of fields; the fields of the header are the four fixed
    names and the descriptions without special characters, those of a row its values in the same order, empty where a value
    is null.  No other file changes. *)
Theorem C73_table : forall st e rows, let file := s_ "csv/" ++ e ++ s_ ".csv" in writable file = true -> Forall ascii_text (c_descs st) ->
  (forall r, In r rows -> length (r_stats V r) = length (c_descs st)) ->
  exists st' content, (st0 <- csv_experiment writable e st ;; foldm (fun s r => process V show_real show_count r s) rows st0) = Ok st' /\
    c_descs st' = c_descs st /\ c_files st' file = Some content /\
    map (pieces ","%char) (pieces (ascii_of_nat 10) content) =
      ([s_ "IsTraining"; s_ "Epoch"; s_ "Iterations"; s_ "SecondsElapsed"] ++ at_least_one (map stripped (c_descs st))) ::
      map (fun r => [if r_training V r then s_ "1" else s_ "0"; show_count (r_epoch V r); show_count (r_iterations V r); show_real (r_seconds V r)] ++
                    at_least_one (map (fun s => if s_null s then [] else show_real (s_value s)) (r_stats V r))) rows ++ [[[]]] /\
    forall g, g <> file -> c_files st' g = c_files st g.
Proof.
  intros st e rows file Hw Ha Hr. change file with (csv_name e) in *. clear file. change ","%char with comma. change (ascii_of_nat 10) with newline. destruct (set_spec e st Hw Ha) as (st0 & E0 & D0 & O0 & F0 & N0). rewrite E0. cbn [bind].
  set (header := [s_ "IsTraining"; s_ "Epoch"; s_ "Iterations"; s_ "SecondsElapsed"] ++ at_least_one (map stripped (c_descs st))) in *.
  assert (G : forall rows st0 old, (forall r, In r rows -> length (r_stats V r) = length (c_descs st)) -> c_descs st0 = c_descs st -> c_open st0 = Some (csv_name e) -> c_files st0 (csv_name e) = Some old ->
    exists st', foldm (fun s r => process V show_real show_count r s) rows st0 = Ok st' /\ c_descs st' = c_descs st /\
      c_files st' (csv_name e) = Some (old ++ flat_map (fun r => joined (fields r (length (c_descs st))) ++ [newline]) rows) /\ forall g, g <> csv_name e -> c_files st' g = c_files st0 g).
  { clear - Hreal. induction rows as [|r rows IH]; intros st0 old Hr D0 O0 F0.
    - exists st0. cbn. rewrite app_nil_r. auto.
    - destruct (process_spec r st0 (csv_name e) O0 ltac:(congruence)) as (st1 & E1 & (A & B & (o & C1 & C2) & D)); [rewrite D0, (Hr r (or_introl eq_refl)); lia|].
      rewrite F0 in C1. injection C1 as <-. cbn [foldm]. rewrite E1. cbn [bind].
      destruct (IH st1 _ ltac:(intros r' Hi; apply Hr; now right) ltac:(congruence) B C2) as (st' & E & D' & F & N). exists st'. split; [exact E|]. split; [exact D'|]. split.
      + rewrite F. cbn [flat_map]. rewrite D0, <- !app_assoc. reflexivity.
      + intros g Hg. now rewrite N, D. }
  destruct (G rows st0 _ Hr D0 O0 F0) as (st' & E & D' & F & N). exists st'. eexists. split; [exact E|]. split; [exact D'|]. split; [exact F|]. split; [|intros g Hg; now rewrite N, N0].
  clear E F N. set (line := fun l => joined l ++ [newline]).
  assert (P : forall ls, Forall (fun l => l <> [] /\ Forall plain l) ls -> map (pieces comma) (pieces newline (flat_map line ls)) = ls ++ [[[]]]).
  { induction ls as [|l ls IH]; intros H; [reflexivity|]. inversion H as [|? ? [Hn Hp] H']; subst. cbn [flat_map]. unfold line at 1. rewrite <- app_assoc. cbn [app].
    rewrite pieces_app by now apply joined_no_newline. cbn [map]. rewrite pieces_joined by assumption. now rewrite IH. }
  change (joined header ++ [newline]) with (line header).
  replace (flat_map (fun r => joined (fields r (length (c_descs st))) ++ [newline]) rows) with (flat_map line (map (fun r => fields r (length (c_descs st))) rows)).
  2:{ clear. induction rows as [|r rows IH]; [reflexivity|]. cbn [map flat_map]. now rewrite IH. }
  change (line header ++ flat_map line (map (fun r => fields r (length (c_descs st))) rows)) with (flat_map line (header :: map (fun r => fields r (length (c_descs st))) rows)). rewrite P.
  - cbn [app]. f_equal. f_equal. apply map_ext_in. intros r Hi. unfold fields. rewrite <- (Hr r Hi), firstn_all. reflexivity.
  - assert (P1 : forall l, Forall plain l -> Forall plain (at_least_one l)). { intros [|a l] H; [repeat constructor; intros []|exact H]. }
    constructor.
    + split; [discriminate|]. unfold header. apply Forall_app. split.
      * repeat constructor; cbn; intuition discriminate.
      * apply P1. apply Forall_forall. intros t Ht. apply in_map_iff in Ht as (d & <- & _). apply stripped_plain.
    + apply Forall_forall. intros l Hl. apply in_map_iff in Hl as (r & <- & _). split; [discriminate|]. unfold fields. apply Forall_app. split.
      * repeat constructor; try apply Hcount; try apply Hreal; destruct (r_training V r); cbn; intuition discriminate.
      * apply P1. apply Forall_forall. intros t Ht. apply in_map_iff in Ht as (s & <- & _). destruct (s_null s); [split; intros []|apply Hreal].
Qed.

(** Before the first experiment nothing is written. *)
Theorem C73_no_experiment : forall st r, c_open st = None -> process V show_real show_count r st = Ok st.
Proof. intros st r H. unfold process. now rewrite H. Qed.

(** Finding: a file that cannot be opened is written to through a null pointer. *)
Theorem C73_unwritable_refuted : forall st e, writable (csv_name e) = false -> csv_experiment writable e st = UB.
Proof. intros st e H. unfold csv_experiment. now rewrite H. Qed.

Lemma foldm_ub {A S} (f : S -> A -> res S) l s0 : (forall s a, f s a <> Fatal) -> (exists a, In a l /\ forall s, f s a = UB) -> foldm f l s0 = UB.
Proof.
  intros Hf. revert s0. induction l as [|a l IH]; intros s0 (b & Hb & Eb); [destruct Hb|]. cbn [foldm]. destruct Hb as [->|Hb]; [now rewrite Eb|].
  destruct (f s0 a) as [s1| |] eqn:E; cbn [bind]; [apply IH; eauto|now apply Hf in E|reflexivity].
Qed.
Lemma strip_total d : strip d <> Fatal.
Proof.
  induction d as [|c d IH]; [discriminate|]. cbn [strip]. unfold isnalnum. destruct (_ <? _); cbn [bind]; [|discriminate]. destruct (strip d); cbn [bind]; congruence.
Qed.
Lemma strip_ub d : Exists (fun c => 128 <= nat_of_ascii c) d -> strip d = UB.
Proof.
  induction 1 as [c d Hc|c d Hd IH]; cbn [strip]; unfold isnalnum.
  - now rewrite (proj2 (Nat.ltb_ge _ _)).
  - destruct (_ <? _); [|reflexivity]. cbn [bind]. now rewrite IH.
Qed.
(** Finding: a description with a character above 127, as in a UTF-8 text, passes a negative number to isalnum. *)
Theorem C73_non_ascii_refuted : forall st e d, In d (c_descs st) -> Exists (fun c => 128 <= nat_of_ascii c) d -> csv_experiment writable e st = UB.
Proof.
  intros st e d Hd Hc. unfold csv_experiment. destruct (writable _); [|reflexivity]. cbv zeta. rewrite foldm_ub; [reflexivity| |].
  - intros s a. destruct (load (c_descs st) a) as [x| |] eqn:E; cbn [bind]; [|unfold load in E; destruct (nth_error _ _); discriminate|discriminate].
    pose proof (strip_total x). destruct (strip x); cbn [bind]; congruence.
  - apply In_nth_error in Hd as (k & Hk). exists k. split.
    + apply in_seq. split; [lia|]. cbn. apply nth_error_Some. congruence.
    + intros s. rewrite (load_ok _ _ _ Hk). cbn [bind]. now rewrite strip_ub.
Qed.
End Csv.

(** Finding: different descriptions can have the same name in the header. *)
Theorem C73_same_name_refuted : strip (s_ "F1 score") = strip (s_ "F (1) score") /\ strip (s_ "F1 score") = Ok (s_ "F1score") /\ s_ "F1 score" <> s_ "F (1) score".
Proof. split; [vm_compute; reflexivity|]. split; [vm_compute; reflexivity|]. intros H. assert (E : length (s_ "F1 score") = length (s_ "F (1) score")) by now rewrite H. vm_compute in E. lia. Qed.

(** Two statistics, one of them null in the second row. *)
Definition ex_sink : csv := mkCsv [s_ "Pixel Throughput"; s_ "F1"] None (fun _ => None).
Definition ex_rows : list (row nat) := [mkRow nat true 3 10 2 [mkStat 5 false; mkStat 6 false]; mkRow nat false 3 10 2 [mkStat 7 true; mkStat 8 false]].
Definition ex_show (n : nat) : str := [ascii_of_nat (48 + n)].
Example C73_witness : exists st', (st0 <- csv_experiment (fun _ => true) (s_ "e1") ex_sink ;; foldm (fun s r => process nat ex_show (fun n => s_ "9") r s) ex_rows st0) = Ok st' /\
  c_files st' (s_ "csv/e1.csv") = Some (s_ "IsTraining,Epoch,Iterations,SecondsElapsed,PixelThroughput,F1" ++ [newline] ++ s_ "1,9,9,2,5,6" ++ [newline] ++ s_ "0,9,9,2,,8" ++ [newline]).
Proof. eexists. split; vm_compute; reflexivity. Qed.

Print Assumptions C73_table.
Print Assumptions C73_no_experiment.
Print Assumptions C73_unwritable_refuted.
Print Assumptions C73_non_ascii_refuted.
Print Assumptions C73_same_name_refuted.

(** C58 (continued): the layers a configuration describes. *)
From Coq Require Import Ascii String List.
From Verif Require Import Base BaseFacts Str_Model Str_Proofs Config_Model Config_Spec Config_Proofs Config_Props Graph_Model Graph_Spec Graph_Proofs GraphAdd_Proofs Graph_Props
  Receptive_Model Factory_Model Factory_Spec Factory_Proofs FactoryRun_Proofs FactoryLines_Proofs Factory_Props FactoryLayers_Spec.
Local Open Scope string_scope.
Local Open Scope list_scope.
Local Open Scope nat_scope.

Lemma first_found w by_ line line' : s_ w <> [] -> first_replaced w by_ line line' ->
  match find (s_ w) line 0 with Some pos => replace line pos (length (s_ w)) by_ | None => Ok line end = Ok line' /\
  (mentions w line <-> find (s_ w) line 0 <> None).
Proof.
  intros Hw [(a & b & -> & -> & F)|[N ->]].
  - rewrite find_at.
    + split; [|split; [discriminate|intros _; now exists a, b]]. unfold replace. rewrite (proj2 (Nat.leb_le _ _)) by (rewrite app_length; lia). f_equal. f_equal; [|f_equal].
      * rewrite firstn_app, Nat.sub_diag, firstn_all, firstn_O, app_nil_r. reflexivity.
      * rewrite app_assoc, <- app_length, skipn_app, Nat.sub_diag, skipn_all. reflexivity.
    + intros j Hj. destruct (starts (s_ w) (skipn j (a ++ s_ w ++ b))) eqn:E; [|reflexivity]. exfalso. apply starts_app in E as [r E].
      specialize (F (firstn j (a ++ s_ w ++ b)) r). rewrite <- E, firstn_skipn in F. specialize (F eq_refl). rewrite firstn_length in F. lia.
  - rewrite (find_mentions _ _ N). split; [reflexivity|]. split; [intros H; now apply N in H|congruence].
Qed.
Lemma ok_inj' {A} (x y : A) : Ok x = Ok y -> x = y.
Proof. congruence. Qed.
Lemma mentions_find w line : mentions w line -> find (s_ w) line 0 <> None.
Proof.
  intros (a & b & ->) H. unfold find in H. cbn [Nat.leb skipn] in H. pose proof (find_from_spec 0 (s_ w) (a ++ s_ w ++ b)) as F. rewrite H in F.
  specialize (F (length a) ltac:(rewrite app_length; lia)). rewrite skipn_app, skipn_all, Nat.sub_diag in F. cbn [app skipn] in F. now rewrite starts_self in F.
Qed.

Section Props.
Context {D : Type} (read_datum : str -> D) (d0 d1 : D) (rand : nat -> Z).
Variables (cfg : geo) (data : connection) (classes : Z) (add_loss_layer : bool).
Hypothesis Hc : small classes.
Hypothesis Hfx : small (factorx cfg).
Hypothesis Hfy : small (factory_ cfg).
Notation layer := (@layer D).
Notation fstate := (@fstate D).
Notation add_layers := (add_layers read_datum d0 d1 rand cfg data classes add_loss_layer).
Notation read_line := (read_config_line read_datum d0 d1 rand cfg data classes add_loss_layer).
Notation readable := (readable read_datum d0 d1 rand cfg data classes add_loss_layer).
Notation action_of := (line_action read_datum d0 d1 cfg classes).
Notation line_layers := (line_layers read_datum d0 d1 rand (fcn cfg) (factorx cfg) (factory_ cfg) classes add_loss_layer).
Notation text_layers := (text_layers read_datum d0 d1 rand (fcn cfg) (factorx cfg) (factory_ cfg) classes add_loss_layer).

(** ** Reading parameters *)
Lemma size_ok l name dflt x y : Forall (fun c => c <> "x"%char) (s_ name) -> size_param l name dflt x y -> parse_kernel_size l (s_ name) (fst dflt) (snd dflt) = Ok (x, y).
Proof. intros Hn [(Hx & Hy & H)|[H <-]]; [now apply C47_kernel_size|]. now apply (C47_absent l (s_ name)). Qed.
Lemma count_ok l name dflt z : count_param l name dflt z -> parse_count l (s_ name) dflt = Ok z.
Proof. intros [(Hz & H)|[H ->]]; [apply (C47_count l (s_ name) z [] dflt Hz); [now left|now rewrite app_nil_r]|]. now apply (C47_absent l (s_ name)). Qed.
Lemma datum_ok l name dflt v : datum_param read_datum l name dflt v -> parse_datum_param read_datum l (s_ name) dflt = Ok v.
Proof. intros [(t & H & ->)|[H ->]]; [now apply C47_datum|]. now apply (C47_absent l (s_ name)). Qed.
Lemma string_ok l name s : Forall (fun c => c <> " "%char) (s_ name) -> exists v, parse_string_param l (s_ name) s = Ok v.
Proof. intros Hn. destruct (C47_cases l (s_ name) Hn) as [[H|[v H]] _]; [exists s; now apply (C47_absent l (s_ name))|exists v; now apply C47_string]. Qed.
Lemma no_char c (name : string) : forallb (fun x => negb (Ascii.eqb x c)) (s_ name) = true -> Forall (fun x => x <> c) (s_ name).
Proof. intros H. apply Forall_forall. intros x Hx ->. rewrite forallb_forall in H. specialize (H c Hx). now rewrite Ascii.eqb_refl in H. Qed.

(** ** What a line asks for *)
Definition act_layer (seed : Z) (a : @act D) : option layer :=
  match a with ASeq l true _ => Some (with_seed seed l) | ASeq l false _ => Some l | AActivation l => Some l | AStack l _ => Some l | _ => None end.
Definition act_seeded (a : @act D) : bool := match a with ASeq _ b _ => b | _ => false end.

Ltac word_known :=
  repeat match goal with
  | |- context [compare0 (s_ ?q ++ ?r) (s_ ?p)] =>
    first [change (compare0 (s_ q ++ r) (s_ p)) with true | change (compare0 (s_ q ++ r) (s_ p)) with false]
  end.
Lemma describes_action seed l layer : describes read_datum d0 d1 seed l layer ->
  exists a, action read_datum d0 d1 l = Ok a /\ act_layer seed a = Some layer /\ act_seeded a = is_conv layer /\ ~ begins "output" l.
Proof.
  intros H. assert (No : ~ begins "output" l).
  { intros [r Er]. destruct H as [kx ky k sx sy px py group dropout llr [r' E]|across method size alpha beta [r' E]|kx ky [r' E]|kx ky [r' E]|kx ky sx sy [r' E]|[r' E]|[r' E]|[r' E]|mu w [r' E]|[r' E]|[r' E]]; rewrite E in Er; discriminate. }
  destruct H as [kx ky k sx sy px py group dropout llr B P1 P2 P3 P4 P5 P6 P7 N1 N2 N3 N4 N5 Dv|across method size alpha beta B Hm Bm P1 P2 P3|kx ky B P|kx ky B P|kx ky sx sy B P Q|B|B|B|mu w B P1 P2|B|B].
  - apply size_ok in P1; [|apply no_char; reflexivity]. apply size_ok in P2; [|apply no_char; reflexivity]. apply size_ok in P3; [|apply no_char; reflexivity]. apply count_ok in P4, P5. apply datum_ok in P6, P7.
    exists (ASeq (LConvolution kx ky k sx sy px py group 0 dropout llr) true true). split; [|now split; [|split]]. unfold action.
    assert (Mk : make_convolution read_datum d0 d1 l 0 = Ok (LConvolution kx ky k sx sy px py group 0 dropout llr)).
    { unfold make_convolution. cbn [fst snd] in P1, P2, P3. rewrite P1. cbn [bind]. rewrite P2. cbn [bind]. rewrite P3. cbn [bind]. rewrite P4. cbn [bind]. rewrite P5. cbn [bind]. rewrite P6. cbn [bind]. rewrite P7. cbn [bind fst snd].
      rewrite (proj2 (Z.eqb_neq kx 0) N1), (proj2 (Z.eqb_neq ky 0) N2), (proj2 (Z.eqb_neq sx 0) N3), (proj2 (Z.eqb_neq sy 0) N4), (proj2 (Z.eqb_neq group 0) N5). cbn [orb].
      rewrite (proj2 (Z.mod_divide k group N5) Dv). reflexivity. }
    rewrite Mk. destruct B as [r ->]. word_known. reflexivity.
  - apply count_ok in P1. apply datum_ok in P2, P3. exists (ASeq (LNormalization across size alpha beta) false true). split; [|now split; [|split]]. unfold action.
    assert (Mk : make_normalization read_datum d1 l = Ok (LNormalization across size alpha beta)).
    { unfold make_normalization. rewrite (C47_string _ _ _ [] Hm). cbn [bind]. destruct Bm as [r ->]. destruct across; word_known; cbn [bind]; rewrite P1; cbn [bind]; rewrite P2; cbn [bind]; rewrite P3; reflexivity. }
    rewrite Mk. destruct B as [r ->]. word_known. reflexivity.
  - apply size_ok in P; [|apply no_char; reflexivity]. exists (ASeq (LMaxPooling kx ky) false true). split; [|now split; [|split]]. unfold action. cbn [fst snd] in P. rewrite P. destruct B as [r ->]. word_known. reflexivity.
  - apply size_ok in P; [|apply no_char; reflexivity]. exists (ASeq (LDownSampling kx ky) false false). split; [|now split; [|split]]. unfold action. cbn [fst snd] in P. rewrite P. destruct B as [r ->]. word_known. reflexivity.
  - apply size_ok in P; [|apply no_char; reflexivity]. apply size_ok in Q; [|apply no_char; reflexivity]. exists (ASeq (LAdvancedMaxPooling kx ky sx sy) false true). split; [|now split; [|split]]. unfold action. cbn [fst snd] in P, Q. rewrite P. cbn [bind fst snd]. rewrite Q.
    destruct B as [r ->]. word_known. reflexivity.
  - exists (AActivation LSigmoid). split; [|now split; [|split]]. unfold action. destruct B as [r ->]. word_known. reflexivity.
  - exists (AActivation LReLU). split; [|now split; [|split]]. unfold action. destruct B as [r ->]. word_known. reflexivity.
  - exists (AActivation LTanh). split; [|now split; [|split]]. unfold action. destruct B as [r ->]. word_known. reflexivity.
  - apply datum_ok in P1, P2. exists (AActivation (LHMax mu w)). split; [|now split; [|split]]. unfold action. rewrite P1. cbn [bind]. rewrite P2. destruct B as [r ->]. word_known. reflexivity.
  - destruct (string_ok l "stack" []) as [v Ev]; [apply no_char; reflexivity|]. exists (AStack LConcatenation (if compare0 v (s_ "b") then Factory_Spec.B else A)). split; [|now split; [|split]]. unfold action. rewrite Ev. destruct B as [r ->]. word_known. reflexivity.
  - destruct (string_ok l "stack" []) as [v Ev]; [apply no_char; reflexivity|]. exists (AStack LSum (if compare0 v (s_ "b") then Factory_Spec.B else A)). split; [|now split; [|split]]. unfold action. rewrite Ev. destruct B as [r ->]. word_known. reflexivity.
Qed.

Lemma not_begins w l : ~ begins w l <-> compare0 l (s_ w) = false.
Proof. unfold compare0. rewrite begins_iff. destruct (starts (s_ w) l); split; congruence. Qed.
Lemma unknown_action l : (forall w, In w words_of_layers -> ~ begins w l) -> action read_datum d0 d1 l = Ok ANone.
Proof.
  intros H. assert (K : forall w, In w words_of_layers -> compare0 l (s_ w) = false) by (intros w Hw; apply not_begins, H, Hw).
  unfold action. unfold words_of_layers in K.
  rewrite (K "convolutional"), (K "lrn"), (K "maxpooling"), (K "downsampling"), (K "amaxpooling"), (K "sigm"), (K "hmax"), (K "relu"), (K "tanh"), (K "spatialprior"), (K "concat"), (K "sum"), (K "upscale") by (cbn; tauto).
  reflexivity.
Qed.

(** ** The preparation of a line *)
Lemma print_small : print_int (to_int classes) = decimal classes.
Proof. unfold small, int_max in Hc. unfold to_int, print_int. rewrite (proj2 (Z.ltb_lt classes (2 ^ 31))) by lia. rewrite (proj2 (Z.ltb_ge classes 0)) by lia. reflexivity. Qed.
Lemma expanded_fill line line' : expanded classes line line' -> (l <- fill_outputs classes line ;; fill_connected l) = Ok line'.
Proof.
  intros (l1 & H1 & H2). unfold fill_outputs. rewrite print_small. destruct (first_found "(o)" _ _ _ ltac:(discriminate) H1) as [E1 _]. change (length (s_ "(o)")) with 3 in E1. rewrite E1. cbn [bind].
  unfold fill_connected. destruct H2 as [(M & l2 & H2 & M2 & H3)|(M & ->)].
  - destruct (first_found "fullyconnected" _ _ _ ltac:(discriminate) H2) as [E2 K2]. apply K2 in M. destruct (find (s_ "fullyconnected") l1 0) as [p|]; [|congruence].
    change (length (s_ "fullyconnected")) with 14 in E2. rewrite E2. cbn [bind].
    destruct (first_found "neurons=" _ _ _ ltac:(discriminate) H3) as [E3 K3]. apply K3 in M2. destruct (find (s_ "neurons=") l2 0) as [q|]; [|congruence]. exact E3.
  - now rewrite (find_mentions _ _ M).
Qed.
Lemma line_prepared line line' : ~ begins "#" line -> expanded classes line line' ->
  action_of line = (r <- read_output read_datum d1 classes (drop_flatten cfg line') ;;
    let '(line, weight, out) := r in
    if compare0 line (s_ "pusha") then Ok (KPush A) else if compare0 line (s_ "pushb") then Ok (KPush B) else
    if compare0 line (s_ "popa") then Ok (KPop A) else if compare0 line (s_ "popb") then Ok (KPop B) else
    if compare0 line (s_ "?") then l <- substr line 1 ;; a <- action read_datum d0 d1 l ;; Ok (KLayer weight out a) else Ok KNothing).
Proof.
  intros Hn He. apply expanded_fill in He. apply not_begins in Hn. unfold line_action. rewrite Hn.
  destruct (fill_outputs classes line) as [l1| |]; cbn [bind] in *; try discriminate. destruct (fill_connected l1) as [l2| |]; cbn [bind]; try discriminate. apply ok_inj' in He. now subst.
Qed.
Lemma kept line' : ~ (fcn cfg = true /\ mentions "flatten" line') -> drop_flatten cfg line' = line'.
Proof.
  intros H. unfold drop_flatten. destruct (fcn cfg); [|reflexivity]. rewrite find_mentions; [reflexivity|]. intros M. now apply H.
Qed.
Lemma layer_text l : ~ begins "output" l -> 
  (r <- read_output read_datum d1 classes (s_ "?" ++ l) ;;
    let '(line, weight, out) := r in
    if compare0 line (s_ "pusha") then Ok (KPush A) else if compare0 line (s_ "pushb") then Ok (KPush B) else
    if compare0 line (s_ "popa") then Ok (KPop A) else if compare0 line (s_ "popb") then Ok (KPop B) else
    if compare0 line (s_ "?") then l <- substr line 1 ;; a <- action read_datum d0 d1 l ;; Ok (KLayer weight out a) else Ok KNothing) =
  (a <- action read_datum d0 d1 l ;; Ok (KLayer d1 false a)).
Proof.
  intros H. apply not_begins in H. unfold read_output.
  assert (E : compare0 (s_ "?" ++ l) (s_ "?output") = false) by exact H. rewrite E. cbn [bind]. word_known. reflexivity.
Qed.

(** ** The layers of a line *)
Definition tail_layers (w : D) (out up : bool) : list layer :=
  (if out && negb up && fcn cfg && (negb (factorx cfg =? 1)%Z || negb (factory_ cfg =? 1)%Z) then [LUpscale (factorx cfg) (factory_ cfg)] else []) ++
  (if out && add_loss_layer then [LError w] else []).
Definition made_by (k : @lineact D) (up : bool) (n : nat) : list layer * bool * nat :=
  match k with
  | KLayer w out a =>
    match a with
    | ANone => (tail_layers w out up, up, n)
    | ASeq l true _ => (with_seed (rand n) l :: tail_layers w out up, up, S n)
    | ASeq l false _ | AActivation l | AStack l _ => (l :: tail_layers w out up, up, n)
    | APrior => ((if negb up && fcn cfg then [LUpscale (factorx cfg) (factory_ cfg)] else []) ++ LConcatenation :: tail_layers w out (up || fcn cfg), up || fcn cfg, n)
    | AUpscale fx fy o => (LUpscale fx fy :: tail_layers w o true, true, n)
    end
  | _ => ([], up, n)
  end.

Definition extends (st st' : fstate) (made : list layer) : Prop := map snd (f_made st') = map snd (f_made st) ++ made.
Lemma new_node_made st l cs o p st' : new_node st l cs o = Ok (p, st') -> extends st st' [l] /\ f_up st' = f_up st /\ f_draws st' = f_draws st /\ f_out st' = f_out st.
Proof.
  unfold new_node. destruct (add_node _ _) as [g| |]; cbn [bind]; try discriminate. intros E. apply ok_inj' in E. apply pair_equal_spec in E as [<- <-]. unfold extends. cbn [f_made f_up f_draws f_out]. rewrite map_app. auto.
Qed.
Lemma add_last_made st l cs o b st' : add_last st l cs o b = Ok st' -> extends st st' [l] /\ f_up st' = f_up st /\ f_draws st' = f_draws st /\ f_out st' = f_out st.
Proof.
  unfold add_last. destruct (new_node st l cs o) as [[p st1]| |] eqn:E; cbn [bind]; try discriminate. intros H. apply ok_inj' in H. subst st'. apply new_node_made in E. exact E.
Qed.
Lemma to_uint_small z : small z -> to_uint z = z.
Proof. unfold small, int_max, to_uint. intros H. apply Z.mod_small. lia. Qed.
Lemma tail_made w st st' : (s <- final_upscale cfg st ;; add_loss data add_loss_layer w s) = Ok st' ->
  extends st st' (tail_layers w (f_out st) (f_up st)) /\ f_up st' = f_up st /\ f_draws st' = f_draws st.
Proof.
  unfold final_upscale, tail_layers. intros H.
  assert (K : forall s, add_loss data add_loss_layer w s = Ok st' -> extends s st' (if f_out s && add_loss_layer then [LError w] else []) /\ f_up st' = f_up s /\ f_draws st' = f_draws s).
  { intros s. unfold add_loss. destruct (f_out s && add_loss_layer).
    - destruct (new_node s _ _ _) as [[p s1]| |] eqn:E; cbn [bind]; try discriminate. intros Hs. apply ok_inj' in Hs. cbn [snd] in Hs. subst s1. apply new_node_made in E. tauto.
    - intros Hs. apply ok_inj' in Hs. subst. unfold extends. rewrite app_nil_r. auto. }
  destruct (f_out st && negb (f_up st) && fcn cfg && (negb (factorx cfg =? 1)%Z || negb (factory_ cfg =? 1)%Z)) eqn:C.
  - unfold add_behind in H. destruct (add_last st _ _ _ _) as [s| |] eqn:E; cbn [bind] in H; try discriminate. apply add_last_made in E as (E1 & E2 & E3 & E4).
    rewrite !to_uint_small in E1 by assumption. apply K in H as (H1 & H2 & H3). rewrite E4 in H1. unfold extends in *. rewrite H1, E1, <- app_assoc. split; [reflexivity|]. split; congruence.
  - cbn [bind] in H. apply K in H. exact H.
Qed.

Lemma perform_made k st st' : perform_line rand cfg data add_loss_layer k st = Ok st' ->
  let '(made, up, n) := made_by k (f_up st) (f_draws st) in extends st st' made /\ f_up st' = up /\ f_draws st' = n.
Proof.
  assert (Zero : extends st st []) by (unfold extends; now rewrite app_nil_r).
  destruct k as [| |s|s|w out a]; cbn [perform_line made_by]; intros H.
  - apply ok_inj' in H. now subst.
  - apply ok_inj' in H. now subst.
  - destruct (push _ _) as [l| |]; cbn [bind] in H; try discriminate. apply ok_inj' in H. subst. now destruct s.
  - destruct (pop _) as [l| |]; cbn [bind] in H; try discriminate. apply ok_inj' in H. subst. now destruct s.
  - destruct (perform rand cfg data a (set_out st out)) as [s| |] eqn:E; cbn [bind] in H; try discriminate. apply tail_made in H as (H1 & H2 & H3).
    assert (Step : forall m, extends (set_out st out) s m -> extends st st' (m ++ tail_layers w (f_out s) (f_up s))).
    { intros m Hm. unfold extends in *. rewrite H1, Hm, <- app_assoc. reflexivity. }
    destruct a as [|l [] bp|l|  |l s0|fx fy o]; cbn [perform] in E.
    + apply ok_inj' in E. subst s. split; [|auto]. apply (Step []). unfold extends. now rewrite app_nil_r.
    + unfold add_behind in E. apply add_last_made in E as (E1 & E2 & E3 & E4). cbn [draw set_out f_up f_draws f_out f_made] in *. specialize (Step _ E1). rewrite E4, E2 in Step. split; [exact Step|]. split; congruence.
    + unfold add_behind in E. apply add_last_made in E as (E1 & E2 & E3 & E4). cbn [set_out f_up f_draws f_out] in *. specialize (Step _ E1). rewrite E4, E2 in Step. split; [exact Step|]. split; congruence.
    + unfold add_behind in E. apply add_last_made in E as (E1 & E2 & E3 & E4). cbn [set_out f_up f_draws f_out] in *. specialize (Step _ E1). rewrite E4, E2 in Step. split; [exact Step|]. split; congruence.
    + cbn [set_out f_up] in E. destruct (negb (f_up st) && fcn cfg) eqn:C.
      * destruct (add_behind (set_out st out) _ false true) as [s1| |] eqn:E0; cbn [bind] in E; try discriminate.
        unfold add_behind in E0. apply add_last_made in E0 as (A1 & A2 & A3 & A4). apply add_last_made in E as (E1 & E2 & E3 & E4). cbn [set_out set_up f_up f_draws f_out] in *.
        rewrite !to_uint_small in A1 by assumption. assert (f_up st || fcn cfg = true) as -> by (destruct (f_up st), (fcn cfg); try discriminate; reflexivity).
        specialize (Step ([LUpscale (factorx cfg) (factory_ cfg)] ++ [LConcatenation])). rewrite E4, A4, E2 in Step. rewrite <- app_assoc in Step. split; [apply Step|split; congruence].
        unfold extends in *. rewrite E1. cbn [f_made set_up]. rewrite A1, <- app_assoc. reflexivity.
      * cbn [bind] in E. apply add_last_made in E as (E1 & E2 & E3 & E4). cbn [set_out f_up f_draws f_out] in *.
        assert (f_up st || fcn cfg = f_up st) as -> by (destruct (f_up st), (fcn cfg); try discriminate; reflexivity).
        specialize (Step _ E1). rewrite E4, E2 in Step. split; [exact Step|]. split; congruence.
    + apply add_last_made in E as (E1 & E2 & E3 & E4). cbn [set_out f_up f_draws f_out] in *. specialize (Step _ E1). rewrite E4, E2 in Step. split; [exact Step|]. split; congruence.
    + destruct (add_behind (set_out st out) _ o true) as [s1| |] eqn:E0; cbn [bind] in E; try discriminate. apply ok_inj' in E. subst s.
      unfold add_behind in E0. apply add_last_made in E0 as (E1 & E2 & E3 & E4). cbn [set_out set_up f_up f_draws f_out f_made] in *. specialize (Step _ E1). split; [exact Step|]. split; congruence.
Qed.

Lemma line_described up n line made up' n' : line_layers up n line made up' n' -> exists k, action_of line = Ok k /\ made_by k up n = (made, up', n').
Proof.
  intros H. destruct H as [H|line' Hn He Hq|line' Hn He Hw Hf|l layer Hn He Hf Hd|l Hn He Ho Hu|l Hn He Hf Hb|l ux uy o Hn He Hf Hb P1 P2|l w Hn He Hf Hb Pw].
  - exists KComment. split; [|reflexivity]. unfold line_action. apply begins_iff in H. unfold compare0. now rewrite H.
  - rewrite (line_prepared _ _ Hn He). assert (E : exists x, drop_flatten cfg line' = x /\ ~ begins "?" x).
    { unfold drop_flatten. destruct (fcn cfg); [|eauto]. destruct (find (s_ "flatten") line' 0); [|eauto]. exists []. split; [reflexivity|]. intros [r Hr]. discriminate. }
    destruct E as (x & -> & Nx). apply not_begins in Nx. unfold read_output.
    assert (No : compare0 x (s_ "?output") = false).
    { apply not_begins. intros [r ->]. apply not_begins in Nx. apply Nx. now exists (s_ "output" ++ r). }
    rewrite No. cbn [bind]. rewrite Nx. destruct (compare0 x (s_ "pusha")); [exists (KPush A); now split|]. destruct (compare0 x (s_ "pushb")); [exists (KPush B); now split|].
    destruct (compare0 x (s_ "popa")); [exists (KPop A); now split|]. destruct (compare0 x (s_ "popb")); [exists (KPop B); now split|]. exists KNothing. now split.
  - rewrite (line_prepared _ _ Hn He). unfold drop_flatten. rewrite Hw. pose proof (mentions_find _ _ Hf) as M. destruct (find (s_ "flatten") line' 0); [|congruence].
    exists KNothing. split; reflexivity.
  - destruct (describes_action _ _ _ Hd) as (a & Ea & El & Es & No). rewrite (line_prepared _ _ Hn He), (kept _ Hf), (layer_text _ No), Ea. cbn [bind]. eexists. split; [reflexivity|].
    destruct a as [|l0 [] bp|l0| |l0 s0|ux uy o]; cbn [act_layer act_seeded made_by] in *; try discriminate; injection El as El; subst layer; rewrite <- Es; reflexivity.
  - rewrite (line_prepared _ _ Hn He). destruct (fcn cfg && match find (s_ "flatten") (s_ "?" ++ l) 0 with Some _ => true | None => false end) eqn:C.
    + apply andb_prop in C as [Cf Cm]. unfold drop_flatten. rewrite Cf. destruct (find (s_ "flatten") (s_ "?" ++ l) 0); [|discriminate]. exists KNothing. split; reflexivity.
    + rewrite kept, (layer_text _ Ho), (unknown_action _ Hu).
      * cbn [bind]. eexists. split; reflexivity.
      * intros [Cf Cm]. rewrite Cf in C. apply mentions_find in Cm. destruct (find (s_ "flatten") (s_ "?" ++ l) 0); [discriminate|congruence].
  - assert (No : ~ begins "output" l) by (intros [r Er]; destruct Hb as [r' E]; rewrite E in Er; discriminate).
    rewrite (line_prepared _ _ Hn He), (kept _ Hf), (layer_text _ No). destruct Hb as [r ->]. unfold action. word_known. cbn [bind]. eexists. split; [reflexivity|]. cbn [made_by tail_layers andb app].
    rewrite andb_comm. reflexivity.
  - assert (No : ~ begins "output" l) by (intros [r Er]; destruct Hb as [r' E]; rewrite E in Er; discriminate).
    apply size_ok in P1; [|apply no_char; reflexivity]. apply count_ok in P2. cbn [fst snd] in P1.
    rewrite (line_prepared _ _ Hn He), (kept _ Hf), (layer_text _ No). exists (KLayer d1 false (AUpscale ux uy (o =? 1)%Z)). split.
    + destruct Hb as [r Er]. unfold action. rewrite P1, P2. rewrite Er. word_known. reflexivity.
    + cbn [made_by]. unfold tail_layers. rewrite andb_false_r. reflexivity.
  - apply datum_ok in Pw. rewrite (line_prepared _ _ Hn He), (kept _ Hf). unfold read_output. rewrite Pw.
    assert (E : compare0 (s_ "?" ++ l) (s_ "?output") = true) by (apply begins_iff in Hb; exact Hb). rewrite E. cbn [bind].
    destruct (classes =? 1)%Z; [change (s_ "?tanh") with (s_ "?tanh" ++ [])|change (s_ "?sigm") with (s_ "?sigm" ++ [])]; word_known.
    + exists (KLayer w true (AActivation LTanh)). split; [reflexivity|]. cbn [made_by]. unfold tail_layers. cbn [andb]. rewrite (andb_comm (fcn cfg)), negb_andb. reflexivity.
    + exists (KLayer w true (AActivation LSigmoid)). split; [reflexivity|]. cbn [made_by]. unfold tail_layers. cbn [andb]. rewrite (andb_comm (fcn cfg)), negb_andb. reflexivity.
Qed.

(** A line that can be described can be read. *)
Lemma described_readable g up n line made up' n' : healthy g -> four_outputs g data -> line_layers up n line made up' n' -> readable line.
Proof.
  intros Hh Hd H. destruct (line_described _ _ _ _ _ _ H) as (k & Ek & _). destruct (@start_ok D cfg data g Hh Hd) as (st & _ & G & _).
  destruct k as [| |s|s|w out a].
  - exists st, st. rewrite read_line_action, Ek. reflexivity.
  - exists st, (set_out st false). rewrite read_line_action, Ek. reflexivity.
  - exists (set_stack st s (f_last st) []). eexists. rewrite read_line_action, Ek. cbn [bind perform_line]. rewrite set_stack_same. reflexivity.
  - exists (set_stack st s (f_last st) [f_last st]). eexists. rewrite read_line_action, Ek. cbn [bind perform_line]. rewrite set_stack_same. reflexivity.
  - destruct (layer_line_ok rand cfg data add_loss_layer w out a st G (line_fine _ _ _ _ _ _ _ _ _ Ek)) as (st' & m & E & _).
    + intros ->. clear H. unfold line_action in Ek. destruct (compare0 line (s_ "#")); [discriminate|].
      destruct (fill_outputs classes line) as [l1| |]; cbn [bind] in Ek; try discriminate. destruct (fill_connected l1) as [l2| |]; cbn [bind] in Ek; try discriminate.
      unfold read_output in Ek. destruct (compare0 (drop_flatten cfg l2) (s_ "?output")).
      * destruct (parse_datum_param _ _ _ _) as [w'| |]; cbn [bind] in Ek; try discriminate.
        destruct (classes =? 1)%Z; cbn in Ek; injection Ek as <- <-; eauto.
      * cbn [bind] in Ek. repeat match type of Ek with (if ?b then _ else _) = _ => destruct b; try discriminate end.
        destruct (substr _ 1) as [l| |]; cbn [bind] in Ek; try discriminate. destruct (action read_datum d0 d1 l); discriminate.
    + exists st, st'. rewrite read_line_action, Ek. exact E.
Qed.

Lemma run_layers lines : forall st st' made, text_layers (f_up st) (f_draws st) lines made -> foldm read_line lines st = Ok st' -> extends st st' made.
Proof.
  induction lines as [|line lines IH]; intros st st' made T E; inversion T as [|up n line0 lines0 m up' n' rest L R]; subst.
  - apply ok_inj' in E. subst. unfold extends. now rewrite app_nil_r.
  - cbn [foldm] in E. destruct (read_line st line) as [s| |] eqn:Er; cbn [bind] in E; try discriminate. destruct (line_described _ _ _ _ _ _ L) as (k & Ek & Em).
    rewrite read_line_action, Ek in Er. cbn [bind] in Er. apply perform_made in Er. rewrite Em in Er. destruct Er as (E1 & E2 & E3). subst up' n'.
    specialize (IH s st' rest R E). unfold extends in *. rewrite IH, E1, <- app_assoc. reflexivity.
Qed.

(** The network consists of the layers the configuration describes, in this order; for whole images, there is a layer for the border first. *)
Theorem C58_layers g text layers : healthy g -> four_outputs g data -> Forall plain (lines_of text) -> within_limits (lines_of text) ->
  text_layers ((factorx cfg =? 1) && (factory_ cfg =? 1))%Z 0 (lines_of text) layers ->
  exists st b, add_layers text g = Ok (st, b) /\
    map snd (f_made st) = (if fcn cfg && ((0 <? a_rf (g_x cfg)) && (0 <? a_rf (g_y cfg)))%Z then [LResize (a_rf (g_x cfg)) (a_rf (g_y cfg))] else []) ++ layers.
Proof.
  intros Hh Hd P Hw T.
  assert (R : Forall readable (lines_of text)).
  { clear P Hw. revert T. generalize ((factorx cfg =? 1) && (factory_ cfg =? 1))%Z, 0, layers. induction (lines_of text) as [|line lines IH]; intros up n made T; constructor; inversion T as [|? ? ? ? m up' n' rest L R]; subst.
    - eapply described_readable; eassumption.
    - eapply IH; eassumption. }
  destruct (C58_stacks read_datum d0 d1 rand cfg data classes add_loss_layer g text Hh Hd R P) as [Ok_ _]. destruct (Ok_ Hw) as (st & b & E). exists st, b. split; [exact E|].
  unfold Factory_Model.add_layers in E. destruct (start cfg data g) as [st0| |] eqn:Es; cbn [bind] in E; try discriminate.
  destruct (foldm read_line (lines_of text) st0) as [s| |] eqn:Er; cbn [bind] in E; try discriminate. destruct (is_complete (f_graph s)) as [b'| |]; cbn [bind] in E; try discriminate.
  apply ok_inj' in E. apply pair_equal_spec in E as [<- <-]. unfold start in Es.
  destruct (fcn cfg && ((0 <? a_rf (g_x cfg)) && (0 <? a_rf (g_y cfg)))%Z).
  - unfold add_behind in Es. apply add_last_made in Es as (S1 & S2 & S3 & _). cbn [f_up f_draws] in S2, S3. rewrite <- S2, <- S3 in T. rewrite (run_layers _ _ _ _ T Er). now rewrite S1.
  - apply ok_inj' in Es. subst st0. match type of Er with foldm _ _ ?s0 = _ => exact (run_layers _ s0 _ _ T Er) end.
Qed.

(** A fully connected layer for which no number of neurons is given: the configuration is refused with an exception, whatever stands around
    the line. *)
Theorem C58_no_neurons g text lines line rest st0 st l1 l2 : lines_of text = lines ++ line :: rest ->
  start cfg data g = Ok st0 -> foldm read_line lines st0 = Ok st ->
  ~ begins "#" line -> first_replaced "(o)" (decimal classes) line l1 -> mentions "fullyconnected" l1 ->
  first_replaced "fullyconnected" (s_ "convolutional size=1x1") l1 l2 -> ~ mentions "neurons=" l2 ->
  add_layers text g = Fatal.
Proof.
  intros El E0 Es Hn H1 M H2 N. unfold Factory_Model.add_layers. rewrite E0. cbn [bind]. rewrite El, foldm_app, Es. cbn [bind foldm].
  apply not_begins in Hn. unfold Factory_Model.read_config_line at 1. rewrite Hn. unfold fill_outputs. rewrite print_small.
  destruct (first_found "(o)" _ _ _ ltac:(discriminate) H1) as [E1 _]. change (length (s_ "(o)")) with 3 in E1. rewrite E1. cbn [bind].
  unfold fill_connected. destruct (first_found "fullyconnected" _ _ _ ltac:(discriminate) H2) as [E2 K2]. apply K2 in M. destruct (find (s_ "fullyconnected") l1 0) as [p|]; [|congruence].
  change (length (s_ "fullyconnected")) with 14 in E2. rewrite E2. cbn [bind]. now rewrite (find_mentions _ _ N).
Qed.
End Props.
Print Assumptions C58_layers.
Print Assumptions C58_no_neurons.

(** ** A concrete configuration *)
Lemma absent_dec key line : find (key ++ s_ "=") line 0 = None -> absent key line.
Proof.
  intros H j Hj. pose proof Hj as (a & b & E & L). apply occurs_starts in Hj. unfold find in H. cbn [Nat.leb skipn] in H. pose proof (find_from_spec 0 (key ++ s_ "=") line) as F. rewrite H in F.
  rewrite F in Hj; [discriminate|]. rewrite E, app_length. lia.
Qed.
Lemma value_dec before key value rest : forallb (fun c => negb (Ascii.eqb c " ")) key = true -> forallb (fun c => negb (Ascii.eqb c " ")) value = true ->
  (rest = [] \/ exists r, rest = " "%char :: r) -> find (key ++ s_ "=") (before ++ key ++ s_ "=" ++ value ++ rest) 0 = Some (length before) ->
  has_value (before ++ key ++ s_ "=" ++ value ++ rest) key value.
Proof.
  intros Hk Hv Hr H. exists before, rest. split; [reflexivity|].
  assert (N : forall s, forallb (fun c => negb (Ascii.eqb c " ")) s = true -> Forall (fun c => c <> " "%char) s).
  { intros s0 F. apply Forall_forall. intros x Hx ->. rewrite forallb_forall in F. specialize (F _ Hx). discriminate. }
  split; [now apply N|]. split; [now apply N|]. split; [exact Hr|]. intros j Hj. unfold find in H. cbn [Nat.leb skipn] in H.
  pose proof (find_from_spec 0 (key ++ s_ "=") (before ++ key ++ s_ "=" ++ value ++ rest)) as F. rewrite H in F. destruct F as (k & E & _ & _ & F). cbn [Nat.add] in E. subst k.
  apply occurs_starts in Hj. destruct (Nat.le_gt_cases (length before) j) as [L|L]; [exact L|]. rewrite F in Hj by exact L. discriminate.
Qed.
Lemma replaced_dec w by_ a b : find (s_ w) (a ++ s_ w ++ b) 0 = Some (length a) -> first_replaced w by_ (a ++ s_ w ++ b) (a ++ by_ ++ b).
Proof.
  intros H. left. exists a, b. split; [reflexivity|]. split; [reflexivity|]. intros a' b' E. unfold find in H. cbn [Nat.leb skipn] in H.
  pose proof (find_from_spec 0 (s_ w) (a ++ s_ w ++ b)) as F. rewrite H in F. destruct F as (k & Ek & _ & _ & F). cbn [Nat.add] in Ek. subst k.
  destruct (Nat.le_gt_cases (length a) (length a')) as [L|L]; [exact L|]. specialize (F _ L). rewrite E, skipn_app, skipn_all, Nat.sub_diag in F. cbn [app skipn] in F. now rewrite starts_self in F.
Qed.
Lemma same_dec classes line : mentionsb "(o)" line = false -> mentionsb "fullyconnected" line = false -> expanded classes line line.
Proof. intros H1 H2. exists line. split; right; split; auto using mentions_dec. Qed.

Definition ex_layers_text : str := concat (map (fun l => s_ l ++ ["010"%char])
  ["?convolutional size=5x3 kernels=16 pad=2x1"; "?maxpooling size=2x2"; "?fullyconnected neurons=(o)"; "?output"]).
Example C58_no_neurons_example :
  ex_add ex_cfg (concat (map (fun l => s_ l ++ ["010"%char]) ["?maxpooling size=2x2"; "?fullyconnected kernels=7"; "?output"])) ex_graph = Fatal.
Proof.
  assert (Sm : forall z, (0 <=? z)%Z && (z <=? 2147483647)%Z = true -> small z) by (intros z H; apply andb_prop in H as [H1 H2]; unfold small, int_max; lia).
  match goal with |- ex_add _ ?t _ = _ => set (text := t) end.
  destruct (@start Z ex_cfg ex_data ex_graph) as [st0| |] eqn:E0; [|vm_compute in E0; discriminate E0..].
  assert (S : exists st, foldm (Factory_Model.read_config_line (fun _ => 0%Z) 0%Z 1%Z Z.of_nat ex_cfg ex_data 3%Z true) [s_ "?maxpooling size=2x2"] (st0 : @fstate Z) = Ok st)
    by (vm_compute in E0; injection E0 as <-; eexists; vm_compute; reflexivity).
  destruct S as (st & S).
  apply (C58_no_neurons (fun _ => 0%Z) 0%Z 1%Z Z.of_nat ex_cfg ex_data 3%Z true (Sm 3%Z eq_refl) ex_graph text [s_ "?maxpooling size=2x2"]
    (s_ "?fullyconnected kernels=7") [s_ "?output"; []] st0 st (s_ "?fullyconnected kernels=7") (s_ "?convolutional size=1x1 kernels=7")); auto.
  - intros [r Hr]. discriminate.
  - right. split; [apply mentions_dec; vm_compute; reflexivity|reflexivity].
  - exists (s_ "?"), (s_ " kernels=7"). reflexivity.
  - apply (replaced_dec "fullyconnected" (s_ "convolutional size=1x1") (s_ "?") (s_ " kernels=7")). vm_compute. reflexivity.
  - apply mentions_dec. vm_compute. reflexivity.
Qed.
Example C58_layers_example : exists st b,
  ex_add ex_cfg ex_layers_text ex_graph = Ok (st, b) /\
  map snd (f_made st) = [LResize 2 2; LConvolution 5 3 16 1 1 2 1 1 0 0 1; LMaxPooling 2 2; LConvolution 1 1 3 1 1 0 0 1 1 0 1; LSigmoid; LUpscale 2 2; LError 1]%Z.
Proof.
  assert (Sm : forall z, (0 <=? z)%Z && (z <=? 2147483647)%Z = true -> small z) by (intros z H; apply andb_prop in H as [H1 H2]; unfold small, int_max; lia).
  assert (NF : forall l, mentionsb "flatten" l = false -> ~ (fcn ex_cfg = true /\ mentions "flatten" l)) by (intros l H [_ M]; now apply mentions_dec in H).
  destruct (C58_layers (fun _ => 0%Z) 0%Z 1%Z Z.of_nat ex_cfg ex_data 3%Z true (Sm 3%Z eq_refl) (Sm 2%Z eq_refl) (Sm 2%Z eq_refl) ex_graph ex_layers_text
    ([LConvolution 5 3 16 1 1 2 1 1 0 0 1]%Z ++ [LMaxPooling 2 2]%Z ++ [LConvolution 1 1 3 1 1 0 0 1 1 0 1]%Z ++ [LSigmoid; LUpscale 2 2; LError 1]%Z ++ [] ++ []) ex_healthy ex_outputs) as (st & b & E & L).
  - apply plain_dec. vm_compute. reflexivity.
  - intros s. exists 0. apply nested_depth; [apply nested_dec; destruct s; vm_compute; reflexivity|]. destruct s; vm_compute; lia.
  - change (lines_of ex_layers_text) with [s_ "?convolutional size=5x3 kernels=16 pad=2x1"; s_ "?maxpooling size=2x2"; s_ "?fullyconnected neurons=(o)"; s_ "?output"; []].
    apply text_cons with false 1.
    { apply (one_layer _ _ _ _ _ _ _ _ _ false 0 _ (s_ "convolutional size=5x3 kernels=16 pad=2x1") (LConvolution 5 3 16 1 1 2 1 1 0 0 1)%Z).
      - intros [r Hr]. discriminate.
      - apply same_dec; vm_compute; reflexivity.
      - apply NF. vm_compute. reflexivity.
      - apply is_convolution; try discriminate; try (right; split; [apply absent_dec; vm_compute; reflexivity|reflexivity]).
        + now exists (s_ " size=5x3 kernels=16 pad=2x1").
        + left. split; [now apply Sm|]. split; [now apply Sm|]. apply (value_dec (s_ "convolutional ") (s_ "size") (s_ "5x3") (s_ " kernels=16 pad=2x1")); try (vm_compute; reflexivity). right. now exists (s_ "kernels=16 pad=2x1").
        + left. split; [now apply Sm|]. split; [now apply Sm|]. apply (value_dec (s_ "convolutional size=5x3 kernels=16 ") (s_ "pad") (s_ "2x1") []); try (vm_compute; reflexivity). now left.
        + left. split; [now apply Sm|]. apply (value_dec (s_ "convolutional size=5x3 ") (s_ "kernels") (s_ "16") (s_ " pad=2x1")); try (vm_compute; reflexivity). right. now exists (s_ "pad=2x1").
        + now exists 16%Z. }
    apply text_cons with false 1.
    { apply (one_layer _ _ _ _ _ _ _ _ _ false 1 _ (s_ "maxpooling size=2x2") (LMaxPooling 2 2)%Z).
      - intros [r Hr]. discriminate.
      - apply same_dec; vm_compute; reflexivity.
      - apply NF. vm_compute. reflexivity.
      - apply is_maxpooling; [now exists (s_ " size=2x2")|]. left. split; [now apply Sm|]. split; [now apply Sm|]. apply (value_dec (s_ "maxpooling ") (s_ "size") (s_ "2x2") []); try (vm_compute; reflexivity). now left. }
    apply text_cons with false 2.
    { apply (one_layer _ _ _ _ _ _ _ _ _ false 1 _ (s_ "convolutional size=1x1 kernels=3") (LConvolution 1 1 3 1 1 0 0 1 1 0 1)%Z).
      - intros [r Hr]. discriminate.
      - exists (s_ "?fullyconnected neurons=3"). split; [exact (replaced_dec "(o)" (decimal 3) (s_ "?fullyconnected neurons=") [] eq_refl)|]. left.
        split; [now exists (s_ "?"), (s_ " neurons=3")|]. exists (s_ "?convolutional size=1x1 neurons=3"). split; [exact (replaced_dec "fullyconnected" (s_ "convolutional size=1x1") (s_ "?") (s_ " neurons=3") eq_refl)|].
        split; [now exists (s_ "?convolutional size=1x1 "), (s_ "3")|]. exact (replaced_dec "neurons=" (s_ "kernels=") (s_ "?convolutional size=1x1 ") (s_ "3") eq_refl).
      - apply NF. vm_compute. reflexivity.
      - apply is_convolution; try discriminate; try (right; split; [apply absent_dec; vm_compute; reflexivity|reflexivity]).
        + now exists (s_ " size=1x1 kernels=3").
        + left. split; [now apply Sm|]. split; [now apply Sm|]. apply (value_dec (s_ "convolutional ") (s_ "size") (s_ "1x1") (s_ " kernels=3")); try (vm_compute; reflexivity). right. now exists (s_ "kernels=3").
        + left. split; [now apply Sm|]. apply (value_dec (s_ "convolutional size=1x1 ") (s_ "kernels") (s_ "3") []); try (vm_compute; reflexivity). now left.
        + now exists 3%Z. }
    apply text_cons with false 2.
    { apply (output_layer (fun _ => 0%Z) 0%Z 1%Z Z.of_nat true 2 2 3 true false 2 (s_ "?output") (s_ "output") 1%Z).
      - intros [r Hr]. discriminate.
      - apply same_dec; vm_compute; reflexivity.
      - apply NF. vm_compute. reflexivity.
      - now exists [].
      - right. split; [apply absent_dec; vm_compute; reflexivity|reflexivity]. }
    apply text_cons with false 2; [|constructor]. apply no_layer with []; [intros [r Hr]; discriminate|apply same_dec; vm_compute; reflexivity|intros [r Hr]; discriminate].
  - exists st, b. split; [exact E|]. exact L.
Qed.

(** C58: building networks from configuration files. *)
From Coq Require Import Ascii String List Relations.
From Verif Require Import Base BaseFacts Str_Model Str_Proofs Config_Model Graph_Model Graph_Spec Graph_Proofs GraphAdd_Proofs Graph_Props
  Receptive_Model Factory_Model Factory_Spec Factory_Proofs FactoryRun_Proofs FactoryLines_Proofs.
Local Open Scope string_scope.
Local Open Scope list_scope.
Local Open Scope nat_scope.

Section Props.
Context {D : Type} (read_datum : str -> D) (d0 d1 : D) (rand : nat -> Z).
Variables (cfg : geo) (data : connection) (classes : Z) (add_loss_layer : bool).
Notation fstate := (@fstate D).
Notation add_layers := (add_layers read_datum d0 d1 rand cfg data classes add_loss_layer).
Notation read_line := (read_config_line read_datum d0 d1 rand cfg data classes add_loss_layer).
Notation readable := (readable read_datum d0 d1 rand cfg data classes add_loss_layer).

(** The state of AddLayers after some lines of a configuration. *)
Definition after (g : graph) (lines : list str) (st : fstate) : Prop :=
  exists st0, start cfg data g = Ok st0 /\ foldm read_line lines st0 = Ok st.

Lemma after_good g lines st : healthy g -> four_outputs g data -> Forall readable lines -> Forall plain lines -> after g lines st ->
  good cfg data st /\ built g (f_graph st) (f_made st).
Proof.
  intros Hh Hd R P (st0 & E0 & E). destruct (@start_ok D cfg data g Hh Hd) as (st0' & E0' & G0 & B0 & _). rewrite E0 in E0'. injection E0' as <-.
  destruct (run_lines read_datum d0 d1 rand cfg data classes add_loss_layer lines st0 G0 R P) as [(st' & made & E' & G' & Bt & Em & _)|(E' & _)]; rewrite E in E'; [|discriminate].
  injection E' as <-. split; [exact G'|]. rewrite Em. eapply built_trans; eassumption.
Qed.

(** A configuration is read without undefined behaviour exactly if its stack commands keep to the limits of the
    stacks; otherwise memory outside a stack is accessed. *)
Theorem C58_stacks : forall g text, healthy g -> four_outputs g data ->
  Forall readable (lines_of text) -> Forall plain (lines_of text) ->
  (within_limits (lines_of text) -> exists st b, add_layers text g = Ok (st, b)) /\
  (~ within_limits (lines_of text) -> add_layers text g = UB).
Proof.
  intros g text Hh Hd R P. unfold Factory_Model.add_layers. destruct (@start_ok D cfg data g Hh Hd) as (st0 & -> & G0 & B0 & _ & Ea & Eb). cbn [bind].
  assert (Z : forall s, depth_of st0 s = 0) by (intros []; unfold depth_of; cbn [stack_of]; [now rewrite Ea|now rewrite Eb]).
  destruct (run_lines read_datum d0 d1 rand cfg data classes add_loss_layer (lines_of text) st0 G0 R P) as [(st' & made & -> & G' & Bt & Em & Hdp)|(-> & s & Hn)]; cbn [bind].
  - destruct (healthy_complete (f_graph st') (good_graph _ _ _ G')) as (b & -> & _). cbn [bind]. split; [eauto|]. intros Hw. exfalso. apply Hw.
    intros s. exists (depth_of st' s). rewrite <- (Z s). apply Hdp.
  - split; [|auto]. intros Hw. exfalso. destruct (Hw s) as (m & Hm). apply (Hn m). now rewrite Z.
Qed.

(** Balanced commands keep to the limits if no stack is used more than 64 times, and leave the stacks empty. *)
Lemma nested_depth s lines n : nested s n lines -> n + length (filter (starts (s_ (match s with A => "pusha" | B => "pushb" end))) lines) <= 64 -> depth s n lines 0.
Proof.
  induction 1 as [|n line lines Hp _ IH|n line lines Hp _ IH|n line lines Hn1 Hn2 _ IH]; intros Hl.
  - constructor.
  - assert (E : starts (s_ match s with A => "pusha" | B => "pushb" end) line = true) by (now apply begins_iff).
    cbn [filter] in Hl. rewrite E in Hl. cbn [length] in Hl. apply depth_push; [exact Hp|lia|]. apply IH. lia.
  - apply depth_pop; [exact Hp|]. apply IH. cbn [filter] in Hl. destruct (starts _ line); cbn [length] in Hl; lia.
  - apply depth_other; [exact Hn1|exact Hn2|]. apply IH. cbn [filter] in Hl. destruct (starts _ line); cbn [length] in Hl; lia.
Qed.
Theorem C58_balanced : forall g text, healthy g -> four_outputs g data ->
  Forall readable (lines_of text) -> Forall plain (lines_of text) ->
  (forall s, nested s 0 (lines_of text)) ->
  length (filter (starts (s_ "pusha")) (lines_of text)) <= 64 -> length (filter (starts (s_ "pushb")) (lines_of text)) <= 64 ->
  exists st b, add_layers text g = Ok (st, b) /\ forall s, stack_of st s = [].
Proof.
  intros g text Hh Hd R P Hn La Lb. destruct (C58_stacks g text Hh Hd R P) as [H _]. destruct H as (st & b & E).
  { intros s. exists 0. apply nested_depth; [apply Hn|]. destruct s; assumption. }
  exists st, b. split; [exact E|]. intros s. unfold Factory_Model.add_layers in E. destruct (@start_ok D cfg data g Hh Hd) as (st0 & E0 & G0 & B0 & _ & Ea & Eb). rewrite E0 in E. cbn [bind] in E.
  destruct (foldm read_line (lines_of text) st0) as [st'| |] eqn:Er; try discriminate. cbn [bind] in E.
  destruct (is_complete (f_graph st')); try discriminate. injection E as <- _.
  refine (proj1 (run_nested read_datum d0 d1 rand cfg data classes add_loss_layer s _ 0 (Hn s) st0 st' [] [] G0 R P _ eq_refl Er)).
  destruct s; assumption.
Qed.

(** What the stack commands do. *)
Theorem C58_push : forall g lines line s st st', healthy g -> four_outputs g data -> Forall readable lines -> Forall plain (line :: lines) ->
  after g lines st -> pushes s line -> read_line st line = Ok st' ->
  stack_of st' s = f_last st :: stack_of st s /\ (forall s', s' <> s -> stack_of st' s' = stack_of st s') /\
  f_last st' = f_last st /\ f_graph st' = f_graph st /\ f_made st' = f_made st.
Proof.
  intros g lines line s st st' Hh Hd R P Ha Hp E. inversion P as [|? ? P1 P2]; subst. destruct (after_good g lines st Hh Hd R P2 Ha) as [G _].
  pose proof (push_step read_datum d0 d1 rand cfg data classes add_loss_layer st line s G P1 Hp) as St.
  destruct (length (stack_of st s) <? 64); [|rewrite St in E; discriminate]. destruct St as (x & Ex & _ & H1 & H2 & H3 & H4 & H5). rewrite E in Ex. injection Ex as <-. auto.
Qed.
Theorem C58_pop : forall g lines line s st st', healthy g -> four_outputs g data -> Forall readable lines -> Forall plain (line :: lines) ->
  after g lines st -> pops s line -> read_line st line = Ok st' ->
  stack_of st s = f_last st' :: stack_of st' s /\ (forall s', s' <> s -> stack_of st' s' = stack_of st s') /\
  f_graph st' = f_graph st /\ f_made st' = f_made st.
Proof.
  intros g lines line s st st' Hh Hd R P Ha Hp E. inversion P as [|? ? P1 P2]; subst. destruct (after_good g lines st Hh Hd R P2 Ha) as [G _].
  pose proof (pop_step read_datum d0 d1 rand cfg data classes add_loss_layer st line s G P1 Hp) as St.
  destruct (stack_of st s) as [|c l]; [rewrite St in E; discriminate|]. destruct St as (x & Ex & _ & H1 & H2 & H3 & H4 & H5). rewrite E in Ex. injection Ex as <-. subst. auto.
Qed.

(** A balanced block between a push and the matching pop: afterwards the most recent output and the stack are those before. *)
Theorem C58_brackets : forall g lines push body pop s st st', healthy g -> four_outputs g data ->
  Forall readable (lines ++ push :: body ++ [pop]) -> Forall plain (lines ++ push :: body ++ [pop]) ->
  after g lines st -> pushes s push -> nested s 0 body -> pops s pop ->
  foldm read_line (push :: body ++ [pop]) st = Ok st' ->
  f_last st' = f_last st /\ stack_of st' s = stack_of st s.
Proof.
  intros g lines push body pop s st st' Hh Hd R P Ha Hpush Hn Hpop E.
  apply Forall_app in R. destruct R as [R0 R]. inversion R as [|? ? R1 R2]; subst. apply Forall_app in R2. destruct R2 as [R2 R3].
  apply Forall_app in P. destruct P as [P0 P]. inversion P as [|? ? P1 P2]; subst. apply Forall_app in P2. destruct P2 as [P2 P3]. inversion P3 as [|? ? P4 _]; subst.
  destruct (after_good g lines st Hh Hd R0 P0 Ha) as [G _]. cbn [foldm] in E.
  pose proof (push_step read_datum d0 d1 rand cfg data classes add_loss_layer st push s G P1 Hpush) as St.
  destruct (length (stack_of st s) <? 64); [|rewrite St in E; discriminate]. destruct St as (st1 & E1 & G1 & _ & _ & _ & Es & _). rewrite E1 in E. cbn [bind] in E.
  rewrite foldm_app in E. destruct (foldm read_line body st1) as [st2| |] eqn:E2; try discriminate. cbn [bind] in E.
  destruct (run_nested read_datum d0 d1 rand cfg data classes add_loss_layer s body 0 Hn st1 st2 [] (stack_of st1 s) G1 R2 P2 eq_refl eq_refl E2) as [Es2 G2].
  pose proof (pop_step read_datum d0 d1 rand cfg data classes add_loss_layer st2 pop s G2 P4 Hpop) as St. rewrite Es2, Es in St.
  destruct St as (st3 & E3 & _ & _ & _ & El & Es3 & _). cbn [foldm] in E. rewrite E3 in E. cbn [bind] in E. injection E as <-. auto.
Qed.

(** Every other line: the layers it adds and their connections. *)
Theorem C58_connected : forall g lines line st, healthy g -> four_outputs g data -> Forall readable (line :: lines) -> Forall plain lines ->
  after g lines st -> ~ stack_command line ->
  exists st' made, read_line st line = Ok st' /\ built (f_graph st) (f_graph st') made /\ f_made st' = f_made st ++ made /\
    (forall s, stack_of st' s = stack_of st s) /\ line_effect data add_loss_layer line st st' made.
Proof.
  intros g lines line st Hh Hd R P Ha Ns. inversion R as [|? ? R1 R2]; subst. destruct (after_good g lines st Hh Hd R2 P Ha) as [G _].
  destruct (other_step read_datum d0 d1 rand cfg data classes add_loss_layer st line G R1 Ns) as (st' & made & E & [A1 A2 A3 A4] & L). exists st', made. auto.
Qed.

(** A configuration without stack commands and stack layers is one chain from the data node to the most recent output. *)
Theorem C58_chain : forall g text, healthy g -> four_outputs g data -> Forall readable (lines_of text) ->
  Forall (fun l => ~ stack_command l /\ ~ collects l) (lines_of text) ->
  exists st b, add_layers text g = Ok (st, b) /\ built g (f_graph st) (f_made st) /\
    chain data (heap (f_graph st)) data (produced (f_made st)) (f_last st).
Proof.
  intros g text Hh Hd R N. unfold Factory_Model.add_layers. destruct (@start_ok D cfg data g Hh Hd) as (st0 & -> & G0 & B0 & C0 & _). cbn [bind].
  destruct (run_chain read_datum d0 d1 rand cfg data classes add_loss_layer (lines_of text) st0 G0 R N) as (st & made & -> & Adv & C). cbn [bind].
  destruct (healthy_complete (f_graph st) (good_graph _ _ _ (adv_good _ _ _ _ _ Adv))) as (b & -> & _). cbn [bind]. exists st, b. split; [reflexivity|].
  rewrite (adv_made _ _ _ _ _ Adv). split; [eapply built_trans; [exact B0|apply (adv_built _ _ _ _ _ Adv)]|]. rewrite produced_app. eapply chain_app; [|exact C].
  now apply (chain_stable _ _ _ _ _ _ _ (adv_built _ _ _ _ _ Adv)).
Qed.

Lemma layers_run g text st b : healthy g -> four_outputs g data -> Forall readable (lines_of text) -> Forall plain (lines_of text) ->
  add_layers text g = Ok (st, b) -> after g (lines_of text) st /\ good cfg data st /\ built g (f_graph st) (f_made st) /\ is_complete (f_graph st) = Ok b.
Proof.
  intros Hh Hd R P E. unfold Factory_Model.add_layers in E. destruct (start cfg data g) as [st0| |] eqn:E0; try discriminate. cbn [bind] in E.
  destruct (foldm read_line (lines_of text) st0) as [st'| |] eqn:Er; try discriminate. cbn [bind] in E.
  destruct (is_complete (f_graph st')) as [b'| |] eqn:Ec; try discriminate. injection E as <- <-.
  assert (Ha : after g (lines_of text) st') by (exists st0; auto). destruct (after_good g _ _ Hh Hd R P Ha). auto.
Qed.

(** The network that results is properly built, so it can be initialized and both passes run in dependency order. *)
Theorem C58_network : forall g text st b, healthy g -> four_outputs g data -> Forall readable (lines_of text) -> Forall plain (lines_of text) ->
  add_layers text g = Ok (st, b) ->
  healthy (f_graph st) /\ built g (f_graph st) (f_made st) /\
  forall flagged fuel, length (nodes (f_graph st)) < fuel ->
    (exists fl order, feed_forward fuel (f_graph st) flagged = Ok (fl, order) /\ NoDup order /\
       (forall n, In n order <-> In n (nodes (f_graph st))) /\
       forall n q, In n (nodes (f_graph st)) -> reads (heap (f_graph st)) n q -> before q n order).
Proof.
  intros g text st b Hh Hd R P E. destruct (layers_run g text st b Hh Hd R P E) as (_ & G & Bt & _). pose proof (good_graph _ _ _ G) as Hg.
  split; [exact Hg|]. split; [exact Bt|]. intros flagged fuel Hf. destruct Hg as [S A _].
  destruct (C17_feed_forward (f_graph st) flagged fuel (sound_closed _ S) A Hf) as (fl & order & H). now exists fl, order.
Qed.

(** Of the layers made, exactly the HMax and the error layers are registered as loss functions, in the order of the text; none
    collects statistics or feeds training data. *)
Theorem C58_registered : forall g text st b, healthy g -> four_outputs g data -> Forall readable (lines_of text) -> Forall plain (lines_of text) ->
  add_layers text g = Ok (st, b) ->
  loss_nodes (f_graph st) = loss_nodes g ++ map fst (filter (fun made => match snd made with LHMax _ _ | LError _ => true | _ => false end) (f_made st)) /\
  stat_nodes (f_graph st) = stat_nodes g /\ training_nodes (f_graph st) = training_nodes g.
Proof.
  intros g text st b Hh Hd R P E. destruct (layers_run g text st b Hh Hd R P E) as (_ & G & Bt & _). split; [|apply (built_others _ _ _ Bt)].
  rewrite (built_losses _ _ _ Bt). f_equal. pose proof (built_new _ _ _ Bt) as Hn. clear - Hn. revert Hn. generalize (f_made st), (heap (f_graph st)).
  intros made h Hn. induction made as [|[p l] made IH]; [reflexivity|]. cbn [map fst filter snd].
  rewrite IH by (intros p' l' Hi; apply Hn; now right). destruct (Hn p l (or_introl eq_refl)) as (m & Em & Lm & _).
  unfold node_has at 1. rewrite Em. unfold layer_has at 1. rewrite Lm. destruct l; reflexivity.
Qed.
Print Assumptions C58_registered.

(** AddLayers returns true exactly if the network has an input and an output. An output line suffices for an output. *)
Theorem C58_complete : forall g text st b, healthy g -> four_outputs g data -> Forall readable (lines_of text) -> Forall plain (lines_of text) ->
  add_layers text g = Ok (st, b) ->
  (b = true <-> (exists n nd, In n (nodes (f_graph st)) /\ nth_error (heap (f_graph st)) n = Some nd /\ n_is_input nd = true) /\
                (exists n nd, In n (nodes (f_graph st)) /\ nth_error (heap (f_graph st)) n = Some nd /\ n_is_output nd = true)).
Proof.
  intros g text st b Hh Hd R P E. destruct (layers_run g text st b Hh Hd R P E) as (_ & G & Bt & Ec).
  destruct (healthy_complete (f_graph st) (good_graph _ _ _ G)) as (b' & Eb & H). rewrite Ec in Eb. injection Eb as <-. exact H.
Qed.
Theorem C58_output : forall g text st b n nd, healthy g -> four_outputs g data -> Forall readable (lines_of text) -> Forall plain (lines_of text) ->
  add_layers text g = Ok (st, b) -> In n (nodes g) -> nth_error (heap g) n = Some nd -> n_is_input nd = true ->
  Exists output_line (lines_of text) -> b = true.
Proof.
  intros g text st b n nd Hh Hd R P E Hn En Hi Ho. apply (C58_complete g text st b Hh Hd R P E).
  destruct (layers_run g text st b Hh Hd R P E) as ((st0 & E0 & Er) & G & Bt & _). split.
  - destruct (built_same _ _ _ Bt n nd En) as (m & Em & Sm). exists n, m. split; [rewrite (built_nodes _ _ _ Bt); apply in_or_app; now left|].
    split; [exact Em|]. destruct Sm as (_ & _ & _ & _ & _ & Hs). congruence.
  - apply Exists_exists in Ho. destruct Ho as (line & Hl & Ho). destruct (in_split _ _ Hl) as (l1 & l2 & El). rewrite El in *. 
    apply Forall_app in R. destruct R as [R1 R]. inversion R as [|? ? Rl R2]; subst. apply Forall_app in P. destruct P as [P1 P]. inversion P as [|? ? Pl P2]; subst.
    rewrite foldm_app in Er. destruct (foldm read_line l1 st0) as [st1| |] eqn:E1; try discriminate. cbn [bind] in Er.
    assert (Ha : after g l1 st1) by (exists st0; auto).
    assert (Ns : ~ stack_command line) by (intros ([] & [[r Hr]|[r Hr]]); destruct Ho as [r' Hr']; rewrite Hr' in Hr; discriminate).
    destruct (after_good g l1 st1 Hh Hd R1 P1 Ha) as [G1 _].
    destruct (other_step read_datum d0 d1 rand cfg data classes add_loss_layer st1 line G1 Rl Ns) as (st2 & made & E2 & Adv & _ & _ & Hq).
    destruct (Hq Pl Ho) as (q & Eq & _ & _). cbn [foldm] in Er. rewrite E2 in Er. cbn [bind] in Er.
    destruct (run_lines read_datum d0 d1 rand cfg data classes add_loss_layer l2 st2 (adv_good _ _ _ _ _ Adv) R2 P2) as [(st' & made' & E' & _ & Bt' & _)|(E' & _)]; rewrite Er in E'; [|discriminate]. injection E' as <-.
    assert (Hin : In q (outputs_of (f_graph st2) made)) by (rewrite Eq; now left). unfold outputs_of in Hin. apply filter_In in Hin. destruct Hin as [Hin Hout].
    unfold node_has in Hout. destruct (nth_error (heap (f_graph st2)) q) as [m|] eqn:Em; [|discriminate].
    destruct (built_same _ _ _ Bt' q m Em) as (m' & Em' & Sm). exists q, m'. split.
    + rewrite (built_nodes _ _ _ Bt'). apply in_or_app. left. rewrite (built_nodes _ _ _ (adv_built _ _ _ _ _ Adv)). apply in_or_app. now right.
    + split; [exact Em'|]. destruct Sm as (_ & _ & _ & _ & Hs & _). congruence.
Qed.
End Props.

Print Assumptions C58_stacks.
Print Assumptions C58_balanced.
Print Assumptions C58_push.
Print Assumptions C58_pop.
Print Assumptions C58_brackets.
Print Assumptions C58_connected.
Print Assumptions C58_chain.
Print Assumptions C58_network.
Print Assumptions C58_complete.
Print Assumptions C58_output.

(** ** Concrete configurations *)
Definition ex_data : connection := mkConn (Some 0) 0 false.
(** A network with only a dataset input layer. *)
Definition ex_graph : graph :=
  mkGraph [mkNode (Some (mkKind false false true false)) [] [] 4 "data" false true] [0] [0] [] [] [] [0] 1.
Lemma ex_healthy : healthy ex_graph.
Proof.
  constructor.
  - constructor.
    + repeat constructor. intros [].
    + intros [|n] nd [H|[]] E; [|discriminate]. injection E as <-. discriminate.
    + intros n [<-|[]]. eexists. split; [reflexivity|]. intros c [].
    + intros [|n] nd E; [|destruct n; discriminate]. injection E as <-. constructor.
    + intros [|n] nd E; [|destruct n; discriminate]. injection E as <-. reflexivity.
  - intros n _ H. assert (K : forall a b, clos_trans nat (reads (heap ex_graph)) a b -> False).
    { intros a b H0. induction H0 as [a b (nd & c & E & Hc & _)|]; [|assumption]. destruct a as [|a]; [|destruct a; discriminate]. injection E as <-. destruct Hc. }
    now apply (K n n).
  - intros n nd [<-|[]] E. injection E as <-. split; [discriminate|]. split; [intros [_ H]; discriminate|constructor].
Qed.
Lemma ex_outputs : four_outputs ex_graph ex_data.
Proof.
  split; [|intros b Hb]; eexists 0, _; (split; [reflexivity|]; split; [now left|]; split; [reflexivity|]); cbn; lia.
Qed.

Notation ex_read cfg := (@read_config_line Z (fun _ => 0%Z) 0%Z 1%Z Z.of_nat cfg ex_data 3%Z true).
Notation ex_add cfg := (@add_layers Z (fun _ => 0%Z) 0%Z 1%Z Z.of_nat cfg ex_data 3%Z true).
Notation ex_readable cfg := (@readable Z (fun _ => 0%Z) 0%Z 1%Z Z.of_nat cfg ex_data 3%Z true).
Definition ex_state : @fstate Z := mkF ex_graph ex_data [ex_data] [ex_data] false 0 [] false.
Lemma readable_dec cfg lines : forallb (fun l => match ex_read cfg ex_state l with Ok _ => true | _ => false end) lines = true -> Forall (ex_readable cfg) lines.
Proof.
  intros H. apply Forall_forall. intros l Hl. rewrite forallb_forall in H. specialize (H l Hl). exists ex_state.
  destruct (ex_read cfg ex_state l) as [st'| |]; try discriminate. now exists st'.
Qed.
Definition mentionsb (w : string) (line : str) : bool := existsb (fun j => starts (s_ w) (skipn j line)) (seq 0 (S (length line))).
Lemma mentions_dec w line : mentionsb w line = false -> ~ mentions w line.
Proof.
  intros H (a & b & E). unfold mentionsb in H. assert (K : existsb (fun j => starts (s_ w) (skipn j line)) (seq 0 (S (length line))) = true); [|congruence].
  apply existsb_exists. exists (length a). split.
  - apply in_seq. rewrite E, app_length. lia.
  - rewrite E, skipn_app, skipn_all, Nat.sub_diag. cbn [skipn app]. apply begins_iff. now exists b.
Qed.
Lemma plain_dec lines : forallb (fun l => negb (mentionsb "(o)" l) && negb (mentionsb "fullyconnected" l) && negb (mentionsb "flatten" l) ||
    negb (existsb (fun w => starts (s_ w) l) ["pusha"; "pushb"; "popa"; "popb"; "?output"])) lines = true -> Forall plain lines.
Proof.
  intros H. apply Forall_forall. intros l Hl Hs. rewrite forallb_forall in H. specialize (H l Hl). apply orb_prop in H. destruct H as [H|H].
  - apply andb_prop in H. destruct H as [H H3]. apply andb_prop in H. destruct H as [H1 H2]. apply negb_true_iff in H1, H2, H3.
    split; [|split]; now apply mentions_dec.
  - exfalso. apply negb_true_iff in H. cbn [existsb] in H. repeat (apply orb_false_elim in H; destruct H as [? H]).
    destruct Hs as [([] & [Hp|Hp])|Hp]; apply begins_iff in Hp; congruence.
Qed.
Fixpoint nestedb (push pop : str) (n : nat) (lines : list str) : bool :=
  match lines with
  | [] => n =? 0
  | line :: lines =>
    if starts push line then nestedb push pop (S n) lines else
    if starts pop line then match n with 0 => false | S n => nestedb push pop n lines end else nestedb push pop n lines
  end.
Lemma nested_dec s lines : forall n, nestedb (s_ (match s with A => "pusha" | B => "pushb" end)) (s_ (match s with A => "popa" | B => "popb" end)) n lines = true -> nested s n lines.
Proof.
  induction lines as [|line lines IH]; intros n H; cbn [nestedb] in H.
  - apply Nat.eqb_eq in H. subst. constructor.
  - destruct (starts (s_ (match s with A => "pusha" | B => "pushb" end)) line) eqn:E1.
    + apply nested_push; [now apply begins_iff|now apply IH].
    + destruct (starts (s_ (match s with A => "popa" | B => "popb" end)) line) eqn:E2.
      * destruct n as [|n]; [discriminate|]. apply nested_pop; [now apply begins_iff|now apply IH].
      * apply nested_other; [| |now apply IH]; unfold pushes, pops; rewrite begins_iff; congruence.
Qed.

(** A residual block whose sum is kept on stack b while stack a is emptied. *)
Definition ex_text : str := concat (map (fun l => s_ l ++ ["010"%char])
  ["# residual block"; "?convolutional size=3x3 kernels=4"; "?relu"; "pusha"; "?convolutional size=3x3 kernels=4 pad=1x1";
   "pusha"; "?sum stack=a"; "pushb"; "popa"; "popa"; "popb"; "?maxpooling size=2x2"; "?fullyconnected neurons=(o)"; "?output"]).
Definition ex_cfg : geo := mkGeo (mkAxis 2 2) (mkAxis 2 2) false false.
Example C58_witness : factory false ex_text = Ok ex_cfg /\
  Forall (ex_readable ex_cfg) (lines_of ex_text) /\ Forall plain (lines_of ex_text) /\ (forall s, nested s 0 (lines_of ex_text)) /\
  Exists output_line (lines_of ex_text) /\
  length (filter (starts (s_ "pusha")) (lines_of ex_text)) = 2 /\ length (filter (starts (s_ "pushb")) (lines_of ex_text)) = 1 /\
  exists st, ex_add ex_cfg ex_text ex_graph = Ok (st, true) /\
    f_made st = [(1, LResize 2 2); (2, LConvolution 3 3 4 1 1 0 0 1 0 0%Z 1%Z); (3, LReLU); (4, LConvolution 3 3 4 1 1 1 1 1 1 0%Z 1%Z); (5, LSum);
      (6, LMaxPooling 2 2); (7, LConvolution 1 1 3 1 1 0 0 1 2 0%Z 1%Z); (8, LSigmoid); (9, LUpscale 2 2); (10, LError 1%Z)] /\
    map n_inputs (heap (f_graph st)) = [[]; [mkConn (Some 0) 0 false]; [mkConn (Some 1) 0 false]; [mkConn (Some 2) 0 true]; [mkConn (Some 3) 0 true];
      [mkConn (Some 4) 0 true; mkConn (Some 3) 0 true]; [mkConn (Some 5) 0 true]; [mkConn (Some 6) 0 true]; [mkConn (Some 7) 0 true];
      [mkConn (Some 8) 0 true]; [mkConn (Some 9) 0 true; mkConn (Some 0) 1 false; mkConn (Some 0) 3 false]].
Proof.
  split; [vm_compute; reflexivity|]. split; [apply readable_dec; vm_compute; reflexivity|]. split; [apply plain_dec; vm_compute; reflexivity|].
  split; [intros []; apply nested_dec; vm_compute; reflexivity|]. split.
  { apply Exists_exists. exists (s_ "?output"). split; [vm_compute; tauto|now exists []]. }
  split; [vm_compute; reflexivity|]. split; [vm_compute; reflexivity|].
  eexists. split; [vm_compute; reflexivity|]. split; vm_compute; reflexivity.
Qed.

(** The stacks are not checked: a pop too many, or the 65th push, is undefined behaviour. *)
Theorem C58_unchecked_stack_refuted : ex_add ex_cfg (s_ "popa") ex_graph = UB /\
  ex_add ex_cfg (concat (repeat (s_ "pusha" ++ ["010"%char]) 65)) ex_graph = UB /\
  exists st b, ex_add ex_cfg (concat (repeat (s_ "pusha" ++ ["010"%char]) 64)) ex_graph = Ok (st, b).
Proof. split; [vm_compute; reflexivity|]. split; [vm_compute; reflexivity|]. eexists _, _. vm_compute. reflexivity. Qed.

(** A second output is upscaled twice: the upscaling for the first output is not remembered. *)
Theorem C58_second_output_refuted : exists st b,
  ex_add ex_cfg (s_ "?maxpooling size=2x2" ++ ["010"%char] ++ s_ "?output" ++ ["010"%char] ++ s_ "?output") ex_graph = Ok (st, b) /\
  map snd (f_made st) = [LResize 2 2; LMaxPooling 2 2; LSigmoid; LUpscale 2 2; LError 1%Z; LSigmoid; LUpscale 2 2; LError 1%Z].
Proof. eexists _, _. split; [vm_compute; reflexivity|vm_compute; reflexivity]. Qed.

(** group=0 makes the constructor of the convolution layer divide by zero. *)
Theorem C58_group_zero_refuted : ex_add ex_cfg (s_ "?convolutional size=3x3 kernels=4 group=0") ex_graph = UB.
Proof. vm_compute. reflexivity. Qed.

Print Assumptions C58_unchecked_stack_refuted.
Print Assumptions C58_second_output_refuted.
Print Assumptions C58_group_zero_refuted.

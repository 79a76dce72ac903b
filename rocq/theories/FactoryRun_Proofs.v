(** Proofs about [Factory_Model]: the state during AddLayers. *)
From Coq Require Import Ascii String List.
From Verif Require Import Base BaseFacts Str_Model Config_Model Graph_Model Graph_Spec Graph_Proofs GraphAdd_Proofs
  Receptive_Model Factory_Model Factory_Spec Factory_Proofs.
Local Open Scope string_scope.
Local Open Scope list_scope.
Local Open Scope nat_scope.

Section Built.
Context {D : Type}.
Notation layer := (@layer D).
Notation built := (@built D).

Lemma same_refl m : same_node m m.
Proof. repeat split. Qed.
Lemma same_trans a b c : same_node a b -> same_node b c -> same_node a c.
Proof. intros (H1 & H2 & H3 & H4 & H5 & H6) (K1 & K2 & K3 & K4 & K5 & K6). repeat split; congruence. Qed.

Lemma built_nil g : built g g [].
Proof.
  constructor; cbn [map filter length]; rewrite ?app_nil_r; auto.
  - intros n m E. exists m. split; [exact E|apply same_refl].
  - intros p l [].
Qed.

Lemma built_bound g g' made p : built g g' made -> In p (map fst made) -> length (heap g) <= p < length (heap g').
Proof. intros Bt Hp. rewrite (built_fresh _ _ _ Bt) in Hp. apply in_seq in Hp. rewrite (built_heap _ _ _ Bt). exact Hp. Qed.

Lemma node_has_stable (f : node -> bool) g g' made p : built g g' made -> (forall m m', same_node m m' -> f m' = f m) ->
  p < length (heap g) -> node_has f (heap g') p = node_has f (heap g) p.
Proof.
  intros Bt Hf Hp. unfold node_has. destruct (nth_error_lt (heap g) Hp) as (m & Em). rewrite Em.
  destruct (built_same _ _ _ Bt p m Em) as (m' & -> & Sm). now apply Hf.
Qed.
Lemma filter_stable (f : node -> bool) g0 g g' made0 made : built g0 g made0 -> built g g' made -> (forall m m', same_node m m' -> f m' = f m) ->
  filter (node_has f (heap g')) (map fst made0) = filter (node_has f (heap g)) (map fst made0).
Proof.
  intros B0 Bt Hf. apply filter_ext_in. intros p Hp. apply (node_has_stable f g g' made p Bt Hf).
  now apply (built_bound _ _ _ _ B0 Hp).
Qed.
Lemma same_output m m' : same_node m m' -> n_is_output m' = n_is_output m.
Proof. now intros (_ & _ & _ & _ & ? & _). Qed.
Lemma same_loss m m' : same_node m m' -> layer_has k_loss m' = layer_has k_loss m.
Proof. intros (H & _). unfold layer_has. now rewrite H. Qed.

Lemma built_trans g1 g2 g3 m1 m2 : built g1 g2 m1 -> built g2 g3 m2 -> built g1 g3 (m1 ++ m2).
Proof.
  intros B1 B2. constructor.
  - rewrite (built_nodes _ _ _ B2), (built_nodes _ _ _ B1), map_app. now rewrite app_assoc.
  - rewrite map_app, app_length, seq_app, (built_fresh _ _ _ B1), (built_fresh _ _ _ B2), (built_heap _ _ _ B1). reflexivity.
  - rewrite (built_heap _ _ _ B2), (built_heap _ _ _ B1), app_length. lia.
  - intros n m E. destruct (built_same _ _ _ B1 n m E) as (m' & E' & S1). destruct (built_same _ _ _ B2 n m' E') as (m'' & E'' & S2).
    exists m''. split; [exact E''|]. eapply same_trans; eassumption.
  - intros p l H. apply in_app_or in H as [H|H]; [|now apply (built_new _ _ _ B2)].
    destruct (built_new _ _ _ B1 p l H) as (m & E & L & Bf & I & Nm). destruct (built_same _ _ _ B2 p m E) as (m' & E' & (S1 & S2 & S3 & S4 & S5 & S6)).
    exists m'. rewrite S1, S3, S4, S6. auto.
  - rewrite (built_outputs _ _ _ B2), (built_outputs _ _ _ B1), map_app, filter_app, app_assoc. f_equal. f_equal. symmetry.
    apply (filter_stable _ _ _ _ _ _ B1 B2). apply same_output.
  - rewrite (built_losses _ _ _ B2), (built_losses _ _ _ B1), map_app, filter_app, app_assoc. f_equal. f_equal. symmetry.
    apply (filter_stable _ _ _ _ _ _ B1 B2). apply same_loss.
  - destruct (built_others _ _ _ B1) as [A1 A2]. destruct (built_others _ _ _ B2) as [A3 A4]. now rewrite A3, A4.
Qed.

Lemma built_input g g' made n : built g g' made -> is_input_at (heap g') n = is_input_at (heap g) n.
Proof.
  intros Bt. unfold is_input_at. destruct (nth_error (heap g) n) as [m|] eqn:E.
  - destruct (built_same _ _ _ Bt n m E) as (m' & -> & (_ & _ & _ & _ & _ & S6)). exact S6.
  - destruct (nth_error (heap g') n) as [m'|] eqn:E'; [|reflexivity].
    assert (H1 : length (heap g) <= n) by (now apply nth_error_None).
    assert (H2 : n < length (heap g')) by (apply nth_error_Some; congruence).
    assert (Hi : In n (map fst made)). { rewrite (built_fresh _ _ _ Bt). apply in_seq. rewrite (built_heap _ _ _ Bt) in H2. lia. }
    apply in_map_iff in Hi as ([p l] & Ep & Hi). cbn in Ep. subst p. destruct (built_new _ _ _ Bt n l Hi) as (m & Em & _ & _ & I & _). congruence.
Qed.
Lemma built_settled g g' made c : built g g' made -> settled (heap g') c = settled (heap g) c.
Proof. intros Bt. apply settled_ext. intros x. now apply (built_input _ _ made). Qed.
Lemma inputs_stable g g' made p cs : built g g' made -> has_inputs (heap g) p cs -> has_inputs (heap g') p cs.
Proof.
  intros Bt (m & Em & Ei). destruct (built_same _ _ _ Bt p m Em) as (m' & Em' & (_ & S2 & _)). exists m'. split; [exact Em'|].
  rewrite S2, Ei. apply map_ext. intros c. symmetry. now apply (built_settled _ _ made).
Qed.
Lemma chain_stable data g g' made c (ps : list (nat * layer)) c' : built g g' made -> chain data (heap g) c ps c' -> chain data (heap g') c ps c'.
Proof.
  intros Bt. revert c. induction ps as [|[p l] ps IH]; intros c; cbn [chain]; [auto|].
  intros (Hi & bp & Hc). split; [now apply (inputs_stable _ _ made _ _ Bt)|]. exists bp. now apply IH.
Qed.
Lemma chain_app data h c (ps : list (nat * layer)) c1 qs c2 : chain data h c ps c1 -> chain data h c1 qs c2 -> chain data h c (ps ++ qs) c2.
Proof.
  revert c. induction ps as [|[p l] ps IH]; intros c; cbn [chain app]; [now intros ->|].
  intros (Hi & bp & Hc) H2. split; [exact Hi|]. exists bp. now apply IH.
Qed.
Lemma inside_stable g g' made c : built g g' made -> inside g c -> inside g' c.
Proof.
  intros Bt (q & m & E & H & Em & Hb). destruct (built_same _ _ _ Bt q m Em) as (m' & Em' & (_ & _ & E3 & _)). exists q, m'.
  split; [exact E|]. split; [rewrite (built_nodes _ _ _ Bt); apply in_or_app; now left|]. rewrite E3. auto.
Qed.
Lemma data_stable g g' made c : built g g' made -> four_outputs g c -> four_outputs g' c.
Proof. intros Bt [H1 H2]. split; [now apply (inside_stable _ _ made _ Bt)|]. intros b Hb. apply (inside_stable _ _ made _ Bt). auto. Qed.
Lemma inside_all g g' made cs : built g g' made -> Forall (inside g) cs -> Forall (inside g') cs.
Proof. intros Bt. apply Forall_impl. intros c. now apply (inside_stable _ _ made). Qed.
Lemma produced_app (a b : list (nat * layer)) : produced (a ++ b) = produced a ++ produced b.
Proof. apply filter_app. Qed.
End Built.

Section Run.
Context {D : Type} (rand : nat -> Z).
Variables (cfg : geo) (data : connection) (add_loss_layer : bool).
Notation layer := (@layer D).
Notation fstate := (@fstate D).
Notation outputs_of := (@Factory_Spec.outputs_of D).

(** The states AddLayers goes through. *)
Record good (st : fstate) : Prop := mkGood {
  good_graph : healthy (f_graph st);
  good_data : four_outputs (f_graph st) data;
  good_last : inside (f_graph st) (f_last st);
  good_stacks : forall s, Forall (inside (f_graph st)) (stack_of st s);
  good_up : f_up st = false -> (factorx cfg =? 1)%Z && (factory_ cfg =? 1)%Z = false }.

(** A step that only adds the layers [made]. *)
Record advances (st st' : fstate) (made : list (nat * layer)) : Prop := mkAdv {
  adv_good : good st';
  adv_built : built (f_graph st) (f_graph st') made;
  adv_made : f_made st' = f_made st ++ made;
  adv_stacks : forall s, stack_of st' s = stack_of st s }.


Lemma new_node_ok st l cs out : good st -> Forall (inside (f_graph st)) cs -> exists st',
  let p := length (heap (f_graph st)) in
  new_node st l cs out = Ok (p, st') /\ advances st st' [(p, l)] /\ f_last st' = f_last st /\ f_up st' = f_up st /\ f_out st' = f_out st /\
  f_draws st' = f_draws st /\
  has_inputs (heap (f_graph st')) p cs /\ node_has n_is_output (heap (f_graph st')) p = out.
Proof.
  intros G Hcs. destruct G as [Gh Gd Gl Gs Gu]. destruct (fresh_spec (f_graph st) (kind_of l) cs (buffers_of l) out Gh Hcs) as (g' & E & Gr).
  unfold new_node. rewrite E. cbn [bind]. eexists. split; [reflexivity|].
  destruct Gr as [R1 R2 R3 R4 (nd & En & El & Ei & Eb & Eo & Ein & Enm) R6 R7 R8 R9 R10].
  set (p := length (heap (f_graph st))) in *.
  assert (Bt : built (f_graph st) g' [(p, l)]).
  { constructor; cbn [map fst length seq filter].
    - exact R2.
    - reflexivity.
    - rewrite R4. lia.
    - exact R3.
    - intros p' l' [[= <- <-]|[]]. exists nd. rewrite Enm. repeat split; auto. discriminate.
    - unfold node_has. rewrite En, Eo, R6. destruct out; [reflexivity|now rewrite app_nil_r].
    - unfold node_has, layer_has. rewrite En, El, R7. destruct (k_loss (kind_of l)); [reflexivity|now rewrite app_nil_r].
    - rewrite R9, R10. split; destruct l; reflexivity. }
  split; [|split; [reflexivity|split; [reflexivity|split; [reflexivity|split; [reflexivity|split]]]]].
  - constructor; cbn [f_graph f_made].
    + constructor; cbn [f_graph f_last f_up].
      * exact R1.
      * now apply (data_stable _ _ _ _ Bt).
      * now apply (inside_stable _ _ _ _ Bt).
      * intros s. replace (stack_of _ s) with (stack_of st s) by (destruct s; reflexivity). now apply (inside_all _ _ _ _ Bt).
      * exact Gu.
    + exact Bt.
    + reflexivity.
    + intros s. destruct s; reflexivity.
  - cbn [f_graph]. exists nd. split; [exact En|]. rewrite Ei. apply map_ext. intros c. symmetry. now apply (built_settled _ _ _ _ Bt).
  - cbn [f_graph]. unfold node_has. rewrite En. exact Eo.
Qed.

Lemma advances_nil st : good st -> advances st st [].
Proof. intros G. constructor; auto using built_nil. now rewrite app_nil_r. Qed.
Lemma advances_trans s1 s2 s3 m1 m2 : advances s1 s2 m1 -> advances s2 s3 m2 -> advances s1 s3 (m1 ++ m2).
Proof.
  intros [G1 B1 M1 S1] [G2 B2 M2 S2]. constructor; [exact G2|eapply built_trans; eassumption|rewrite M2, M1; now rewrite app_assoc|].
  intros s. now rewrite S2.
Qed.
(** Variables that do not matter here. *)
Lemma advances_vars st st' st'' made : advances st st' made -> f_graph st'' = f_graph st' -> f_last st'' = f_last st' -> f_a st'' = f_a st' -> f_b st'' = f_b st' ->
  f_made st'' = f_made st' -> (f_up st'' = false -> f_up st' = false) -> advances st st'' made.
Proof.
  intros [[G1 G2 G3 G4 G5] B1 M1 S1] E1 E2 E3 E4 E5 E6.
  assert (Es : forall s, stack_of st'' s = stack_of st' s) by (intros []; assumption).
  constructor; rewrite ?E1, ?E5; auto.
  - constructor; rewrite ?E1, ?E2; auto. intros s. rewrite Es. apply G4.
  - intros s. rewrite Es. apply S1.
Qed.
Lemma good_vars st st' : good st -> f_graph st' = f_graph st -> f_last st' = f_last st -> f_a st' = f_a st -> f_b st' = f_b st ->
  (f_up st' = false -> f_up st = false) -> good st'.
Proof.
  intros [G1 G2 G3 G4 G5] E1 E2 E3 E4 E6. assert (Es : forall s, stack_of st' s = stack_of st s) by (intros []; assumption).
  constructor; rewrite ?E1, ?E2; auto. intros s. rewrite Es. apply G4.
Qed.

Lemma data_two st : good st -> inside (f_graph st) (mkConn (c_node data) 2 false).
Proof. intros G. destruct (good_data _ G) as [_ Hd]. destruct (Hd 2) as (q & m & H); [lia|]. exists q, m. exact H. Qed.

Definition no_error (l : layer) : Prop := match l with LError _ => False | _ => True end.
Lemma add_last_ok st l cs out bp : good st -> Forall (inside (f_graph st)) cs -> no_error l -> exists st',
  let p := length (heap (f_graph st)) in
  add_last st l cs out bp = Ok st' /\ advances st st' [(p, l)] /\ f_last st' = mkConn (Some p) 0 bp /\ f_up st' = f_up st /\ f_out st' = f_out st /\
  f_draws st' = f_draws st /\
  has_inputs (heap (f_graph st')) p cs /\ outputs_of (f_graph st') [(p, l)] = (if out then [p] else []) /\ produced [(p, l)] = [(p, l)].
Proof.
  intros G Hcs Hl. destruct (new_node_ok st l cs out G Hcs) as (st1 & E & A & E1 & E2 & E3 & E4 & Hi & Ho). cbn zeta in *.
  set (p := length (heap (f_graph st))) in *. unfold add_last. rewrite E. cbn [bind]. eexists. split; [reflexivity|].
  split; [|split; [reflexivity|split; [exact E2|split; [exact E3|split; [exact E4|split; [exact Hi|split]]]]]].
  - destruct A as [[G1 G2 G3 G4 G5] B1 M1 S1]. constructor; auto.
    constructor; cbn [f_graph f_last f_up set_last]; auto. 
    destruct (built_new _ _ _ B1 p l (or_introl eq_refl)) as (m & Em & _ & Eb & _). exists p, m. split; [reflexivity|].
    split; [rewrite (built_nodes _ _ _ B1); apply in_or_app; right; now left|]. split; [exact Em|]. rewrite Eb. cbn [c_buffer].
    destruct l; cbn; try lia. destruct Hl.
  - unfold outputs_of. cbn [map fst filter f_graph set_last]. rewrite Ho. destruct out; reflexivity.
  - unfold produced. cbn [filter snd map fst]. destruct l; try reflexivity. destruct Hl.
Qed.

(** One layer behind the last connection. *)
Lemma add_behind_ok st l out bp : good st -> no_error l -> l <> LConcatenation -> exists st',
  let p := length (heap (f_graph st)) in
  add_behind st l out bp = Ok st' /\ advances st st' [(p, l)] /\ f_last st' = mkConn (Some p) 0 bp /\ f_up st' = f_up st /\ f_out st' = f_out st /\
  f_draws st' = f_draws st /\
  chain data (heap (f_graph st')) (f_last st) [(p, l)] (f_last st') /\ has_inputs (heap (f_graph st')) p [f_last st] /\
  outputs_of (f_graph st') [(p, l)] = (if out then [p] else []) /\ produced [(p, l)] = [(p, l)].
Proof.
  intros G Hl Hc. destruct (add_last_ok st l [f_last st] out bp G) as (st' & E & A & E1 & E2 & E3 & E4 & Hi & Ho & Hp); [constructor; [apply (good_last st G)|constructor]|exact Hl|].
  cbn zeta in *. exists st'. unfold add_behind. repeat (split; [assumption|]). split; [|auto].
  cbn [chain]. split; [|exists bp; exact E1]. now destruct l.
Qed.

Lemma outputs_app g m1 m2 : outputs_of g (m1 ++ m2) = outputs_of g m1 ++ outputs_of g m2.
Proof. unfold outputs_of. now rewrite map_app, filter_app. Qed.
Lemma outputs_stable st0 st st' m1 m2 : advances st0 st m1 -> advances st st' m2 -> outputs_of (f_graph st') m1 = outputs_of (f_graph st) m1.
Proof. intros A1 A2. apply (filter_stable _ _ _ _ _ _ (adv_built _ _ _ A1) (adv_built _ _ _ A2)). apply same_output. Qed.

Definition act_fine (a : @act D) : Prop :=
  match a with ASeq l' _ _ | AActivation l' => no_error l' /\ l' <> LConcatenation | AStack l' _ => no_error l' | _ => True end.

(** The connections made by one layer line, up to the loss. *)
Definition wired (a : @act D) (st st' : fstate) (made : list (nat * layer)) : Prop :=
  match a with
  | AStack _ s => exists p ly ps bp, produced made = (p, ly) :: ps /\ has_inputs (heap (f_graph st')) p (stack_of st s) /\
      chain data (heap (f_graph st')) (mkConn (Some p) 0 bp) ps (f_last st')
  | _ => chain data (heap (f_graph st')) (f_last st) (produced made) (f_last st')
  end.

Lemma with_seed_fine z (l : layer) : no_error l -> no_error (with_seed z l).
Proof. destruct l; auto. Qed.
Lemma with_seed_conc z (l : layer) : l <> LConcatenation -> with_seed z l <> LConcatenation.
Proof. destruct l; cbn; congruence. Qed.

(** [perform]: what happens before lines 467ff. *)
Lemma perform_ok a st : good st -> act_fine a -> (f_out st = true -> exists l, a = AActivation l) ->
  exists st' made, perform rand cfg data a st = Ok st' /\ advances st st' made /\ wired a st st' made /\
    Forall (fun x => no_error (snd x)) made /\
    (f_out st' = false -> outputs_of (f_graph st') made = []) /\
    (f_out st' = true -> if g_patch cfg || f_up st'
       then exists q, outputs_of (f_graph st') made = [q] /\ f_last st' = mkConn (Some q) 0 true
       else outputs_of (f_graph st') made = []) /\
    (f_out st = true -> f_out st' = true).
Proof.
  intros G Hf Hout. destruct a as [|l seeded bp|l| |l s|fx fy o]; cbn [perform act_fine] in *.
  - exists st, []. split; [reflexivity|]. split; [now apply advances_nil|]. split; [reflexivity|]. split; [constructor|]. split; [reflexivity|].
    split; [|auto]. intros Ho. destruct (Hout Ho) as (l & H). discriminate.
  - assert (Ho : f_out st = false) by (destruct (f_out st); [destruct (Hout eq_refl) as (l' & H); discriminate|reflexivity]).
    destruct Hf as [Hf Hf']. destruct seeded.
    + destruct (add_behind_ok (draw st) (with_seed (rand (f_draws st)) l) false bp) as (st' & E & A & E1 & E2 & E3 & E4 & C & Hi & O & P).
      { now apply (good_vars st). } { now apply with_seed_fine. } { now apply with_seed_conc. } cbn zeta in *.
      exists st', [(length (heap (f_graph (draw st))), with_seed (rand (f_draws st)) l)]. split; [exact E|].
      split. { destruct A as [A1 A2 A3 A4]. now constructor. }
      split. { cbn [wired]. rewrite P. exact C. }
      split; [constructor; [now apply with_seed_fine|constructor]|].
      cbn [draw f_out] in E3. split; [auto|]. split; congruence.
    + destruct (add_behind_ok st l false bp G Hf Hf') as (st' & E & A & E1 & E2 & E3 & E4 & C & Hi & O & P). cbn zeta in *.
      exists st', [(length (heap (f_graph st)), l)]. split; [exact E|]. split; [exact A|].
      split. { cbn [wired]. rewrite P. exact C. }
      split; [constructor; [exact Hf|constructor]|]. split; [auto|]. split; congruence.
  - destruct Hf as [Hf Hf'].
    destruct (add_behind_ok st l (f_out st && (g_patch cfg || f_up st)) true G Hf Hf') as (st' & E & A & E1 & E2 & E3 & E4 & C & Hi & O & P). cbn zeta in *.
    exists st', [(length (heap (f_graph st)), l)]. split; [exact E|]. split; [exact A|].
    split. { cbn [wired]. rewrite P. exact C. }
    split; [constructor; [exact Hf|constructor]|]. rewrite E3, E2, O. split; [now intros ->|]. split; [|auto].
    intros ->. cbn [andb]. destruct (g_patch cfg || f_up st); [|reflexivity]. eauto.
  - assert (Ho : f_out st = false) by (destruct (f_out st); [destruct (Hout eq_refl) as (l' & H); discriminate|reflexivity]).
    destruct (negb (f_up st) && fcn cfg).
    + destruct (add_behind_ok st (LUpscale (to_uint (factorx cfg)) (to_uint (factory_ cfg))) false true G I ltac:(discriminate)) as (s1 & E & A & E1 & E2 & E3 & E4 & C & Hi & O & P).
      cbn zeta in *. rewrite E. cbn [bind].
      assert (A' : advances st (set_up s1) [(length (heap (f_graph st)), LUpscale (to_uint (factorx cfg)) (to_uint (factory_ cfg)))]).
      { apply (advances_vars _ _ _ _ A); try reflexivity. discriminate. }
      set (m1 := [(length (heap (f_graph st)), LUpscale (to_uint (factorx cfg)) (to_uint (factory_ cfg)))]) in *.
      assert (G1 : good (set_up s1)) by apply (adv_good _ _ _ A').
      destruct (add_last_ok (set_up s1) LConcatenation [f_last (set_up s1); mkConn (c_node data) 2 false] false true G1) as (s2 & F & B & F1 & F2 & F3 & F4 & Hj & Q & R).
      { constructor; [apply (good_last _ G1)|]. constructor; [|constructor]. apply (data_two _ G1). } { exact I. }
      cbn zeta in *. exists s2, (m1 ++ [(length (heap (f_graph (set_up s1))), LConcatenation)]). split; [exact F|].
      split; [now apply (advances_trans _ (set_up s1))|].
      split. { cbn [wired]. rewrite produced_app, P, R. eapply chain_app.
        - apply (chain_stable _ _ _ _ _ _ _ (adv_built _ _ _ B)). exact C.
        - cbn [chain]. split; [exact Hj|]. exists true. exact F1. }
      split; [repeat constructor|]. split; [|cbn [set_up f_out] in F3; split; congruence].
      intros _. rewrite outputs_app, (outputs_stable _ _ _ _ _ A' B), Q. cbn [f_graph set_up]. now rewrite O.
    + cbn [bind].
      destruct (add_last_ok st LConcatenation [f_last st; mkConn (c_node data) 2 false] false true G) as (s2 & F & B & F1 & F2 & F3 & F4 & Hj & Q & R).
      { constructor; [apply (good_last _ G)|]. constructor; [|constructor]. apply (data_two _ G). } { exact I. }
      cbn zeta in *. exists s2, [(length (heap (f_graph st)), LConcatenation)]. split; [exact F|]. split; [exact B|].
      split. { cbn [wired]. rewrite R. cbn [chain]. split; [exact Hj|]. exists true. exact F1. }
      split; [repeat constructor|]. split; [auto|]. split; congruence.
  - assert (Ho : f_out st = false) by (destruct (f_out st); [destruct (Hout eq_refl) as (l' & H); discriminate|reflexivity]).
    destruct (add_last_ok st l (stack_of st s) false true G (good_stacks _ G s) Hf) as (s2 & F & B & F1 & F2 & F3 & F4 & Hj & Q & R). cbn zeta in *.
    exists s2, [(length (heap (f_graph st)), l)]. split; [exact F|]. split; [exact B|].
    split. { cbn [wired]. exists (length (heap (f_graph st))), l, [], true. rewrite R. split; [reflexivity|]. split; [exact Hj|]. exact F1. }
    split; [repeat constructor; exact Hf|]. split; [auto|]. split; congruence.
  - assert (Ho : f_out st = false) by (destruct (f_out st); [destruct (Hout eq_refl) as (l' & H); discriminate|reflexivity]).
    destruct (add_behind_ok st (LUpscale fx fy) o true G I ltac:(discriminate)) as (s1 & E & A & E1 & E2 & E3 & E4 & C & Hi & O & P). cbn zeta in *. rewrite E. cbn [bind].
    exists (set_up (set_out s1 o)), [(length (heap (f_graph st)), LUpscale fx fy)]. split; [reflexivity|].
    split; [apply (advances_vars _ _ _ _ A); try reflexivity; discriminate|].
    split. { cbn [wired]. rewrite P. exact C. }
    split; [repeat constructor|]. cbn [f_out f_up f_graph f_last set_up set_out]. rewrite orb_true_r, O. split; [now intros ->|].
    split; [intros ->; exists (length (heap (f_graph st))); split; [reflexivity|exact E1]|congruence].
Qed.

Lemma chain_end h c (ps : list (nat * layer)) c' c'' : chain data h c ps c' -> c'' = c' -> chain data h c ps c''.
Proof. now intros H ->. Qed.

(** Lines 467-477. *)
Lemma upscale_ok st : good st -> exists st' made, final_upscale cfg st = Ok st' /\ advances st st' made /\ f_out st' = f_out st /\
  chain data (heap (f_graph st')) (f_last st) (produced made) (f_last st') /\ Forall (fun x => no_error (snd x)) made /\
  (if f_out st && negb (g_patch cfg || f_up st)
   then exists q, outputs_of (f_graph st') made = [q] /\ f_last st' = mkConn (Some q) 0 true else made = [] /\ st' = st).
Proof.
  intros G. unfold final_upscale.
  assert (Ec : f_out st && negb (f_up st) && fcn cfg && (negb (factorx cfg =? 1)%Z || negb (factory_ cfg =? 1)%Z) = f_out st && negb (g_patch cfg || f_up st)).
  { unfold fcn. destruct (f_up st) eqn:Eu; [cbn [negb]; rewrite !andb_false_r, orb_true_r; cbn; now rewrite andb_false_r|].
    rewrite <- negb_andb, (good_up _ G Eu). rewrite orb_false_r. cbn [negb]. now rewrite !andb_true_r. }
  rewrite Ec. destruct (f_out st && negb (g_patch cfg || f_up st)).
  - destruct (add_behind_ok st (LUpscale (to_uint (factorx cfg)) (to_uint (factory_ cfg))) true true G I ltac:(discriminate)) as (s1 & E & A & E1 & E2 & E3 & E4 & C & Hi & O & P).
    cbn zeta in *. do 2 eexists. split; [exact E|]. split; [exact A|]. split; [exact E3|]. split; [rewrite P; exact C|]. split; [repeat constructor|]. eauto.
  - exists st, []. split; [reflexivity|]. split; [now apply advances_nil|]. split; [reflexivity|]. split; [reflexivity|]. split; [constructor|]. auto.
Qed.

(** Lines 479-496. *)
Notation loss_inputs := (Factory_Spec.loss_inputs data).
Lemma loss_ok w st : good st -> exists st' made, add_loss data add_loss_layer w st = Ok st' /\ advances st st' made /\ f_out st' = f_out st /\
  f_last st' = f_last st /\ produced made = [] /\ outputs_of (f_graph st') made = [] /\
  (if f_out st && add_loss_layer
   then exists p, made = [(p, LError w)] /\ has_inputs (heap (f_graph st')) p (loss_inputs (f_last st'))
   else made = []).
Proof.
  intros G. unfold add_loss. destruct (f_out st && add_loss_layer).
  - destruct (new_node_ok st (LError w) (loss_inputs (f_last st)) false G) as (s1 & E & A & E1 & E2 & E3 & E4 & Hi & O).
    { destruct (good_data _ G) as [_ Hd]. constructor; [|constructor; [apply Hd; lia|constructor; [apply Hd; lia|constructor]]].
      destruct (good_last _ G) as (q & m & Eq & Hq & Em & Hb). exists q, m. cbn [c_node c_buffer]. repeat (split; [assumption|]). lia. }
    cbn zeta in *. unfold loss_inputs in E. rewrite E. cbn [bind snd]. do 2 eexists. split; [reflexivity|]. split; [exact A|]. split; [exact E3|].
    split; [exact E1|]. split; [reflexivity|]. split; [unfold outputs_of; cbn [map fst filter]; now rewrite O|]. rewrite E1. eauto.
  - exists st, []. split; [reflexivity|]. split; [now apply advances_nil|]. auto 6.
Qed.

(** A whole layer line. *)
Lemma layer_line_ok w out a st : good st -> act_fine a -> (out = true -> exists l, a = AActivation l) ->
  exists st' made, perform_line rand cfg data add_loss_layer (KLayer w out a) st = Ok st' /\ advances st st' made /\ wired a st st' made /\
    (forall p l, In (p, l) made -> no_error l \/ l = LError w /\ has_inputs (heap (f_graph st')) p (loss_inputs (f_last st'))) /\
    (if f_out st'
     then exists q, outputs_of (f_graph st') made = [q] /\ f_last st' = mkConn (Some q) 0 true /\
            (add_loss_layer = true -> exists p, In (p, LError w) made /\ has_inputs (heap (f_graph st')) p (loss_inputs (f_last st')))
     else outputs_of (f_graph st') made = []) /\
    (out = true -> f_out st' = true).
Proof.
  intros G Hf Hout. cbn [perform_line].
  assert (G0 : good (set_out st out)) by (now apply (good_vars st)).
  destruct (perform_ok a (set_out st out) G0 Hf Hout) as (s1 & m1 & E1 & A1 & W1 & F1 & O1 & O1' & K1).
  rewrite E1. cbn [bind].
  destruct (upscale_ok s1 (adv_good _ _ _ A1)) as (s2 & m2 & E2 & A2 & U2 & C2 & F2 & O2). rewrite E2. cbn [bind].
  destruct (loss_ok w s2 (adv_good _ _ _ A2)) as (s3 & m3 & E3 & A3 & U3 & L3 & P3 & Q3 & O3).
  exists s3, (m1 ++ m2 ++ m3). split; [exact E3|].
  assert (A23 : advances s1 s3 (m2 ++ m3)) by (eapply advances_trans; eassumption).
  assert (A123 : advances (set_out st out) s3 (m1 ++ m2 ++ m3)) by (eapply advances_trans; eassumption).
  split. { destruct A123 as [X1 X2 X3 X4]. now constructor. }
  assert (C3 : chain data (heap (f_graph s3)) (f_last s1) (produced (m2 ++ m3)) (f_last s3)).
  { rewrite produced_app, P3, app_nil_r, L3. apply (chain_stable _ _ _ _ _ _ _ (adv_built _ _ _ A3)). exact C2. }
  split.
  { assert (St : forall c, chain data (heap (f_graph s1)) c (produced m1) (f_last s1) -> chain data (heap (f_graph s3)) c (produced (m1 ++ m2 ++ m3)) (f_last s3)).
    { intros c Hc. rewrite produced_app. eapply chain_app; [|exact C3]. now apply (chain_stable _ _ _ _ _ _ _ (adv_built _ _ _ A23)). }
    destruct a as [|l seeded bp|l| |l s|fx fy o]; cbn [wired] in W1 |- *; try (now apply St).
    destruct W1 as (p & ly & ps & bp & Ep & Hi & Hc). exists p, ly, (ps ++ produced (m2 ++ m3)), bp. rewrite (produced_app m1), Ep. split; [reflexivity|].
    split.
    - replace (stack_of st s) with (stack_of (set_out st out) s) by (now destruct s). now apply (inputs_stable _ _ _ _ _ (adv_built _ _ _ A23)).
    - eapply chain_app; [|exact C3]. now apply (chain_stable _ _ _ _ _ _ _ (adv_built _ _ _ A23)). }
  split.
  { intros p l H. rewrite Forall_forall in F1, F2. apply in_app_or in H as [H|H]; [left; now apply (F1 (p, l))|].
    apply in_app_or in H as [H|H]; [left; now apply (F2 (p, l))|]. right.
    destruct (f_out s2 && add_loss_layer); [|subst m3; destruct H]. destruct O3 as (p' & -> & Hi). destruct H as [[= <- <-]|[]]. auto. }
  assert (Eo : outputs_of (f_graph s3) (m1 ++ m2 ++ m3) = outputs_of (f_graph s1) m1 ++ outputs_of (f_graph s2) m2).
  { rewrite !outputs_app, Q3, app_nil_r. f_equal; [now apply (outputs_stable _ _ _ _ _ A1 A23)|now apply (outputs_stable _ _ _ _ _ A2 A3)]. }
  rewrite Eo, U3, U2. split; [|intros ->; cbn [set_out f_out] in K1; auto].
  destruct (f_out s1) eqn:Ef.
  - cbn [andb] in O2. rewrite U2 in O3. cbn [andb] in O3.
    assert (Loss : add_loss_layer = true -> exists p, In (p, LError w) (m1 ++ m2 ++ m3) /\ has_inputs (heap (f_graph s3)) p (loss_inputs (f_last s3))).
    { intros El. rewrite El in O3. destruct O3 as (p & -> & Hi). exists p. split; [|exact Hi]. rewrite !in_app_iff. right. right. now left. }
    destruct (g_patch cfg || f_up s1); cbn [negb] in O2.
    + destruct O2 as [-> ->]. destruct (O1' eq_refl) as (q & -> & Eq). exists q. split; [reflexivity|]. split; [congruence|exact Loss].
    + rewrite (O1' eq_refl). destruct O2 as (q & -> & Eq). exists q. split; [reflexivity|]. split; [congruence|exact Loss].
  - cbn [andb] in O2. destruct O2 as [-> ->]. rewrite (O1 eq_refl). reflexivity.
Qed.
End Run.

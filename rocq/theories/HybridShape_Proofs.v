(** The sizes of the tensors in two corresponding networks. *)
From Coq Require Import List.
From Verif Require Import Base BaseFacts Str_Model Graph_Model Graph_Spec Receptive_Model Factory_Model Factory_Spec
  Hybrid_Model Hybrid_Spec.
Local Open Scope list_scope.
Local Open Scope nat_scope.

Section Shapes.
Context {D : Type}.
Notation layer := (@layer D).
Definition same_maps (d d' : dims) : Prop := d_maps d = d_maps d'.

Scheme sized_ind2 := Minimality for sized Sort Prop
  with all_sized_ind2 := Minimality for all_sized Sort Prop.
Combined Scheme sized_mut from sized_ind2, all_sized_ind2.

Ltac ones F := repeat match type of F with
  | Forall2 _ (_ :: _) ?l => let H := fresh "M" in let F' := fresh "F" in inversion F as [|? ? ? ? H F']; subst; clear F; rename F' into F
  | Forall2 _ [] ?l => inversion F; subst; clear F
  end.
Lemma create_maps (l : layer) ds ds' os os' : Forall2 same_maps ds ds' -> create_outputs l ds = Some os -> create_outputs l ds' = Some os' -> Forall2 same_maps os os'.
Proof.
  intros F E E'.
  assert (K : forall i i' x x', Some [x] = Some os -> Some [x'] = Some os' -> (same_maps i i' -> same_maps x x') -> same_maps i i' -> Forall2 same_maps os os').
  { intros i i' x x' [= <-] [= <-] H1 H2. constructor; [auto|constructor]. }
  destruct F as [|i i' ds ds' M F]; [destruct l; discriminate E|]. destruct F as [|j j' ds ds' M2 F].
  - destruct l; cbn [create_outputs] in E, E'; try discriminate E;
      repeat match type of E with (if ?b then _ else _) = _ => destruct b; [discriminate E|] end;
      repeat match type of E' with (if ?b then _ else _) = _ => destruct b; [discriminate E'|] end;
      refine (K _ _ _ _ E E' _ M); unfold same_maps; cbn [d_maps]; auto.
  - destruct F as [|k k' ds ds' M3 F].
    + destruct l; cbn [create_outputs] in E, E'; try discriminate E;
        repeat match type of E with (if ?b then _ else _) = _ => destruct b; [discriminate E|] end;
        repeat match type of E' with (if ?b then _ else _) = _ => destruct b; [discriminate E'|] end;
        refine (K _ _ _ _ E E' _ M); unfold same_maps in *; cbn [d_maps]; lia.
    + destruct F; destruct l; cbn [create_outputs] in E, E'; try discriminate E.
      repeat match type of E with (if ?b then _ else _) = _ => destruct b; [discriminate E|] end.
      repeat match type of E' with (if ?b then _ else _) = _ => destruct b; [discriminate E'|] end.
      injection E as <-. injection E' as <-. constructor.
Qed.
Lemma parameters_maps (l : layer) ds ds' : Forall2 same_maps ds ds' -> parameters_of l ds = parameters_of l ds'.
Proof. intros [|i i' es es' M _]; destruct l; try reflexivity. unfold parameters_of. now rewrite M. Qed.

(** Corresponding layers. *)
Lemma aligned_twin made made' tw (ex : list (nat * layer)) p p' : aligned made made' tw ex -> In (p, p') tw -> exists l, In (p, l) made /\ In (p', l) made'.
Proof.
  induction 1 as [|made made' tw ex q q' l _ IH|made made' tw ex q' l _ IH]; intros H.
  - destruct H.
  - apply in_app_or in H. destruct H as [H|[[= <- <-]|[]]].
    + destruct (IH H) as (k & H1 & H2). exists k. split; apply in_or_app; now left.
    + exists l. split; apply in_or_app; right; now left.
  - destruct (IH H) as (k & H1 & H2). exists k. split; [exact H1|]. apply in_or_app. now left.
Qed.
Lemma aligned_in_extra made made' tw (ex : list (nat * layer)) x : aligned made made' tw ex -> In x ex -> In x made'.
Proof.
  induction 1 as [|made made' tw ex q q' l _ IH|made made' tw ex q' l _ IH]; intros H.
  - destruct H.
  - apply in_or_app. left. auto.
  - apply in_app_or in H. apply in_or_app. destruct H as [H|H]; [left; auto|now right].
Qed.
Lemma pair_unique {X} (l : list (nat * X)) p a b : NoDup (map fst l) -> In (p, a) l -> In (p, b) l -> a = b.
Proof.
  induction l as [|[q c] l IH]; [intros _ []|]. cbn [map fst]. intros N Ha Hb. inversion N as [|? ? N1 N2]; subst.
  destruct Ha as [Ha|Ha], Hb as [Hb|Hb]; try (injection Ha as -> ->); try (injection Hb as -> ->).
  - congruence.
  - exfalso. apply N1. change p with (fst (p, b)). now apply in_map.
  - exfalso. apply N1. change p with (fst (p, a)). now apply in_map.
  - auto.
Qed.

Section Pair.
Variables (cfg : geo) (h h' : list node) (data data' : connection) (made made' : list (nat * layer)) (tw : list (nat * nat)) (ex : list (nat * layer)).
Variables (source source' : nat -> dims).
Hypothesis Al : aligned made made' tw ex.
Hypothesis Ex : Forall (fun x => whole_image cfg (snd x)) ex.
Hypothesis Tw : forall p p', In (p, p') tw -> exists nd nd', nth_error h p = Some nd /\ nth_error h' p' = Some nd' /\
  Forall2 (leads data data' h' tw ex) (n_inputs nd) (n_inputs nd').
Hypothesis N : NoDup (map fst made).
Hypothesis N' : NoDup (map fst made').
Hypothesis Hd : forall p, In p (map fst made) -> c_node data <> Some p.
Hypothesis Hd' : forall p, In p (map fst made') -> c_node data' <> Some p.
Hypothesis Src : forall b, same_maps (source b) (source' b).
Notation sz := (sized h made data source).
Notation sz' := (sized h' made' data' source').

Lemma made_node {X} (l : list (nat * X)) p x : In (p, x) l -> In p (map fst l).
Proof. intros H. change p with (fst (p, x)). now apply in_map. Qed.

Lemma extra_step c' d' q nd c'' : In q (map fst ex) -> c_node c' = Some q -> c_buffer c' = 0 -> nth_error h' q = Some nd -> n_inputs nd = [c''] ->
  sz' c' d' -> exists d'', sz' c'' d'' /\ same_maps d'' d'.
Proof.
  intros Hq Eq Eb En Ei S. apply in_map_iff in Hq. destruct Hq as ([q0 l] & E0 & Hq). cbn [fst] in E0. subst q0.
  pose proof (aligned_in_extra _ _ _ _ _ Al Hq) as Hm. rewrite Forall_forall in Ex. specialize (Ex _ Hq). cbn [snd] in Ex.
  inversion S as [c0 E1|c0 p l0 nd0 ds os d0 E1 E2 E3 E4 E5 E6]; subst.
  - exfalso. apply (Hd' q (made_node _ _ _ Hm)). congruence.
  - rewrite Eq in E1. injection E1 as <-. rewrite (pair_unique _ _ _ _ N' E2 Hm) in E5. rewrite En in E3. injection E3 as <-. rewrite Ei in E4.
    inversion E4 as [|? ? d ds0 S1 S2]; subst. inversion S2; subst. exists d. split; [exact S1|]. rewrite Eb in E6.
    destruct Ex as [-> | ->]; cbn [create_outputs] in E5; injection E5 as <-; cbn in E6; injection E6 as <-; reflexivity.
Qed.

Lemma sized_maps :
  (forall c d, sz c d -> forall c' d', leads data data' h' tw ex c c' -> sz' c' d' -> same_maps d d') /\
  (forall cs ds, all_sized h made data source cs ds -> forall cs' ds', Forall2 (leads data data' h' tw ex) cs cs' ->
     all_sized h' made' data' source' cs' ds' -> Forall2 same_maps ds ds').
Proof.
  apply sized_mut.
  - intros c Hc c' d' Hl. revert d'. induction Hl as [c c' H1 H2 H3|c c' p p' H1 H2 H3 H4|c c' q nd c'' H1 H2 H3 H4 H5 _ IH]; intros d' S.
    + inversion S as [c0 E1|c0 p l0 nd0 ds os d0 E1 E2 E3 E4 E5 E6]; subst.
      * rewrite H3. apply Src.
      * exfalso. apply (Hd' p (made_node _ _ _ E2)). congruence.
    + exfalso. destruct (aligned_twin _ _ _ _ _ _ Al H1) as (l & Hl & _). apply (Hd p (made_node _ _ _ Hl)). congruence.
    + destruct (extra_step c' d' q nd c'' H1 H2 H3 H4 H5 S) as (d'' & S'' & M). unfold same_maps in *. rewrite <- M. now apply IH.
  - intros c p l nd ds os d Hn Hp En _ IHs Ec Eo c' d' Hl. revert d'.
    induction Hl as [c c' H1 H2 H3|c c' q q' H1 H2 H3 H4|c c' q nd' c'' H1 H2 H3 H4 H5 _ IH]; intros d' S.
    + exfalso. apply (Hd p (made_node _ _ _ Hp)). congruence.
    + assert (q = p) by congruence. subst q. destruct (aligned_twin _ _ _ _ _ _ Al H1) as (k & Hk & Hk').
      pose proof (pair_unique _ _ _ _ N Hk Hp) as ->. destruct (Tw p q' H1) as (nd1 & nd1' & F1 & F2 & F3). rewrite En in F1. injection F1 as <-.
      inversion S as [c0 E1|c0 p0 l0 nd0 ds' os' d0 E1 E2 E3 E4 E5 E6]; subst.
      * exfalso. apply (Hd' q' (made_node _ _ _ Hk')). congruence.
      * rewrite H3 in E1. injection E1 as <-. rewrite (pair_unique _ _ _ _ N' E2 Hk') in E5. rewrite F2 in E3. injection E3 as <-.
        pose proof (create_maps _ _ _ _ _ (IHs _ _ F3 E4) Ec E5) as FM. rewrite <- H4 in E6. clear - FM Eo E6.
        revert Eo E6. generalize (c_buffer c). induction FM as [|x x' xs xs' M _ IH]; intros [|n]; cbn; try discriminate.
        { now intros [= <-] [= <-]. } apply IH.
    + destruct (extra_step c' d' q nd' c'' H1 H2 H3 H4 H5 S) as (d'' & S'' & M). unfold same_maps in *. rewrite <- M. now apply IH.
  - intros cs' ds' F S. inversion F; subst. inversion S; subst. constructor.
  - intros c cs d ds _ IH1 _ IH2 cs' ds' F S. inversion F as [|? c' ? cs2 L1 L2]; subst. inversion S as [|? ? d' ds2 S1 S2]; subst.
    constructor; [now apply (IH1 c')|now apply (IH2 cs2)].
Qed.

(** The parameters. *)
Definition entry (hh : list node) (md : list (nat * layer)) dt src (x : nat * layer) (p : list dims) : Prop :=
  exists nd ds, nth_error hh (fst x) = Some nd /\ all_sized hh md dt src (n_inputs nd) ds /\ create_outputs (snd x) ds <> None /\ p = parameters_of (snd x) ds.
Lemma same_entry p p' l ps ps' : In (p, p') tw -> entry h made data source (p, l) ps -> entry h' made' data' source' (p', l) ps' -> ps = ps'.
Proof.
  intros H (nd & ds & E & A1 & _ & ->) (nd' & ds' & E' & A1' & _ & ->). cbn [fst snd] in *. destruct (Tw p p' H) as (m & m' & F & F' & HF).
  rewrite E in F. injection F as <-. rewrite E' in F'. injection F' as <-. apply parameters_maps. exact (proj2 sized_maps _ _ A1 _ _ HF A1').
Qed.
Lemma extra_entry x ps : In x ex -> entry h' made' data' source' x ps -> ps = [].
Proof.
  intros H (nd & ds & _ & _ & _ & ->). rewrite Forall_forall in Ex. destruct (Ex x H) as [-> | ->]; reflexivity.
Qed.
Lemma same_parameters_from m m' tw0 ex0 : aligned m m' tw0 ex0 -> incl tw0 tw -> incl ex0 ex -> forall ps ps',
  Forall2 (entry h made data source) m ps -> Forall2 (entry h' made' data' source') m' ps' -> concat ps = concat ps'.
Proof.
  induction 1 as [|m m' tw0 ex0 p p' l _ IH|m m' tw0 ex0 p' l _ IH]; intros I1 I2 ps ps' F F'.
  - inversion F; subst. inversion F'; subst. reflexivity.
  - apply Forall2_app_inv_l in F. destruct F as (a & b & Fa & Fb & ->). apply Forall2_app_inv_l in F'. destruct F' as (a' & b' & Fa' & Fb' & ->).
    inversion Fb as [|? x ? ? X1 X2]; subst. inversion X2; subst. inversion Fb' as [|? x' ? ? X1' X2']; subst. inversion X2'; subst.
    rewrite !concat_app. rewrite (IH (fun z Hz => I1 z (in_or_app _ _ _ (or_introl Hz))) I2 a a' Fa Fa'). f_equal. cbn [concat]. f_equal.
    apply (same_entry p p' l); auto. apply I1. apply in_or_app. right. now left.
  - apply Forall2_app_inv_l in F'. destruct F' as (a' & b' & Fa' & Fb' & ->).
    inversion Fb' as [|? x' ? ? X1' X2']; subst. inversion X2'; subst.
    rewrite concat_app. rewrite (IH I1 (fun z Hz => I2 z (in_or_app _ _ _ (or_introl Hz))) ps a' F Fa').
    assert (He : In (p', l) ex) by (apply I2, in_or_app; right; now left). rewrite (extra_entry _ _ He X1'). cbn [concat]. now rewrite !app_nil_r.
Qed.
Lemma same_parameters ps ps' : parameters h made data source ps -> parameters h' made' data' source' ps' -> concat ps = concat ps'.
Proof. apply (same_parameters_from _ _ _ _ Al); apply incl_refl. Qed.
End Pair.
End Shapes.

(** Computing the sizes. *)
Section Compute.
Context {D : Type}.
Notation layer := (@layer D).
Variables (h : list node) (data : connection) (source : nat -> dims).
Definition is_data (c : connection) : bool :=
  match c_node c, c_node data with Some p, Some q => p =? q | None, None => true | _, _ => false end.
Fixpoint known (acc : list (nat * list dims)) (p : nat) : option (list dims) :=
  match acc with [] => None | (q, os) :: r => if p =? q then Some os else known r p end.
Definition look (acc : list (nat * list dims)) (c : connection) : option dims :=
  if is_data c then Some (source (c_buffer c)) else
  match c_node c with None => None | Some p => match known acc p with Some os => nth_error os (c_buffer c) | None => None end end.
Fixpoint look_all (acc : list (nat * list dims)) (cs : list connection) : option (list dims) :=
  match cs with [] => Some [] | c :: r => match look acc c, look_all acc r with Some d, Some ds => Some (d :: ds) | _, _ => None end end.
Fixpoint sizes (made : list (nat * layer)) (acc : list (nat * list dims)) : option (list (list dims)) :=
  match made with
  | [] => Some []
  | (p, l) :: r =>
    match nth_error h p with None => None | Some nd =>
    match look_all acc (n_inputs nd) with None => None | Some ds =>
    match create_outputs l ds with None => None | Some os =>
    match sizes r ((p, os) :: acc) with None => None | Some ps => Some (parameters_of l ds :: ps) end end end end
  end.
Definition acc_ok (all : list (nat * layer)) (acc : list (nat * list dims)) : Prop :=
  forall p os, known acc p = Some os -> exists l nd ds, In (p, l) all /\ nth_error h p = Some nd /\ all_sized h all data source (n_inputs nd) ds /\ create_outputs l ds = Some os.
Lemma look_sized all acc c d : acc_ok all acc -> look acc c = Some d -> sized h all data source c d.
Proof.
  intros Ha. unfold look. destruct (is_data c) eqn:E.
  - intros [= <-]. apply sized_data. unfold is_data in E. destruct (c_node c), (c_node data); try discriminate; [|reflexivity]. apply Nat.eqb_eq in E. now subst.
  - destruct (c_node c) as [p|] eqn:Ep; [|discriminate]. destruct (known acc p) as [os|] eqn:Ek; [|discriminate]. intros Hd.
    destruct (Ha p os Ek) as (l & nd & ds & H1 & H2 & H3 & H4). exact (sized_layer h all data source c p l nd ds os d Ep H1 H2 H3 H4 Hd).
Qed.
Lemma look_all_sized all acc cs : acc_ok all acc -> forall ds, look_all acc cs = Some ds -> all_sized h all data source cs ds.
Proof.
  intros Ha. induction cs as [|c cs IH]; intros ds; cbn [look_all]; [intros [= <-]; constructor|].
  destruct (look acc c) as [d|] eqn:E; [|discriminate]. destruct (look_all acc cs) as [r|]; [|discriminate]. intros [= <-].
  constructor; [exact (look_sized _ _ _ _ Ha E)|now apply IH].
Qed.
Lemma sizes_parameters_from all made : incl made all -> forall acc ps, acc_ok all acc -> sizes made acc = Some ps ->
  Forall2 (fun x p => exists nd ds, nth_error h (fst x) = Some nd /\ all_sized h all data source (n_inputs nd) ds /\
    create_outputs (snd x) ds <> None /\ p = parameters_of (snd x) ds) made ps.
Proof.
  induction made as [|[p l] made IH]; intros Hi acc ps Ha; cbn [sizes]; [intros [= <-]; constructor|].
  destruct (nth_error h p) as [nd|] eqn:En; [|discriminate]. destruct (look_all acc (n_inputs nd)) as [ds|] eqn:El; [|discriminate].
  destruct (create_outputs l ds) as [os|] eqn:Ec; [|discriminate]. destruct (sizes made ((p, os) :: acc)) as [r|] eqn:Es; [|discriminate]. intros [= <-].
  pose proof (look_all_sized all acc _ Ha ds El) as Hs. constructor.
  - exists nd, ds. cbn [fst snd]. repeat split; auto. congruence.
  - apply (IH (fun x Hx => Hi x (or_intror Hx)) ((p, os) :: acc)); [|exact Es]. intros q os' E. cbn [known] in E. destruct (q =? p) eqn:Eq; [|now apply Ha].
    apply Nat.eqb_eq in Eq. subst q. injection E as <-. exists l, nd, ds. repeat split; auto. apply Hi. now left.
Qed.
Lemma sizes_parameters made ps : sizes made [] = Some ps -> parameters h made data source ps.
Proof. apply (sizes_parameters_from made made (incl_refl _)). intros p os E. discriminate E. Qed.
End Compute.

(** Proofs about [Trainer_Model]. *)
From Verif Require Import Base BaseFacts LoopFacts Trainer_Model Trainer_Spec.

Section Proofs.
Variable D : Type.
Variable A : arith D.
Variable cfg : settings D.
Variable dl : data_layer D.

Definition is_gd : bool := match optimization cfg with GradientDescent => true | QuickProp => false end.

(** What happens to one weight: new weight, remembered step, remembered gradient. *)
Definition weight_rule (first : bool) (lr llr x g s q : D) : D * D * D :=
  let delta := weight_delta D A cfg dl llr x g in
  match optimization cfg with
  | GradientDescent => let step := add A (mul A lr delta) (mul A (momentum cfg) s) in (sub A x step, step, q)
  | QuickProp => let step := fst (quickprop_step D A cfg first lr delta s q) in (add A x step, step, delta)
  end.

Lemma upd_same (l : list D) w x : nth_error l w = Some x -> upd l w x = l.
Proof.
  revert w. induction l as [|y l IH]; intros [|w] H; cbn in *; try discriminate; [congruence|]. now rewrite IH.
Qed.

Lemma store_some (l : list D) w x v : nth_error l w = Some x -> store l w v = Ok (upd l w v).
Proof.
  intros H. unfold store. assert (w < length l) by (apply nth_error_Some; congruence).
  destruct (Nat.ltb_spec w (length l)); [reflexivity|lia].
Qed.

Lemma update_weight_ok lr llr acc first data ld lg w x g s q :
  nth_error data w = Some x -> nth_error acc w = Some g -> nth_error ld w = Some s -> nth_error lg w = Some q ->
  let '(x', s', q') := weight_rule first lr llr x g s q in
  update_weight D A cfg dl lr llr acc (first, data, ld, lg) w = Ok (first && is_gd, upd data w x', upd ld w s', upd lg w q').
Proof.
  intros Hx Hg Hs Hq. unfold weight_rule, update_weight, is_gd. rewrite (load_ok _ _ _ Hx), (load_ok _ _ _ Hg), (load_ok _ _ _ Hs).
  cbn [bind]. destruct (optimization cfg).
  - rewrite (store_some _ _ _ _ Hx), (store_some _ _ _ _ Hs). cbn [bind]. rewrite andb_true_r, (upd_same lg w q Hq). reflexivity.
  - rewrite (load_ok _ _ _ Hq). cbn [bind]. rewrite (store_some _ _ _ _ Hx), (store_some _ _ _ _ Hs), (store_some _ _ _ _ Hq).
    cbn [bind]. rewrite andb_false_r. reflexivity.
Qed.

(** The loop over the weights of one tensor, from weight [a] on. *)
Lemma update_weights_ok lr llr acc : forall n a first data ld lg,
  a + n <= length data -> length acc = length data -> length ld = length data -> length lg = length data ->
  exists first' data' ld' lg',
    foldm (update_weight D A cfg dl lr llr acc) (seq a n) (first, data, ld, lg) = Ok (first', data', ld', lg') /\
    first' = first && (is_gd || (n =? 0)) /\
    length data' = length data /\ length ld' = length data /\ length lg' = length data /\
    (forall w, ~ (a <= w < a + n) -> nth_error data' w = nth_error data w /\ nth_error ld' w = nth_error ld w /\ nth_error lg' w = nth_error lg w) /\
    (forall w x g s q, a <= w < a + n ->
       nth_error data w = Some x -> nth_error acc w = Some g -> nth_error ld w = Some s -> nth_error lg w = Some q ->
       let '(x', s', q') := weight_rule (first && (is_gd || (w =? a))) lr llr x g s q in
       nth_error data' w = Some x' /\ nth_error ld' w = Some s' /\ nth_error lg' w = Some q').
Proof.
  induction n as [|n IH]; intros a first data ld lg Ha La Ld Lg.
  - exists first, data, ld, lg. cbn [seq foldm Nat.eqb]. rewrite orb_true_r, andb_true_r. repeat split; auto; lia.
  - cbn [seq foldm].
    destruct (nth_error_lt data (a := a)) as [x Ex]; [lia|]. destruct (nth_error_lt acc (a := a)) as [g Eg]; [lia|].
    destruct (nth_error_lt ld (a := a)) as [s Es]; [lia|]. destruct (nth_error_lt lg (a := a)) as [q Eq]; [lia|].
    pose proof (update_weight_ok lr llr acc first data ld lg a x g s q Ex Eg Es Eq) as H.
    destruct (weight_rule first lr llr x g s q) as [[x' s'] q'] eqn:Er. rewrite H. cbn [bind].
    destruct (IH (S a) (first && is_gd) (upd data a x') (upd ld a s') (upd lg a q'))
      as (f' & d' & ld' & lg' & E & Ef & L1 & L2 & L3 & Out & In_); rewrite ?upd_length; try lia.
    rewrite upd_length in L1, L2, L3.
    exists f', d', ld', lg'. split; [exact E|]. split; [|split; [exact L1|split; [exact L2|split; [exact L3|split]]]].
    + rewrite Ef. cbn [Nat.eqb]. destruct is_gd, first; cbn; reflexivity.
    + intros w Hw. destruct (Out w) as (O1 & O2 & O3); [lia|]. rewrite O1, O2, O3.
      rewrite !nth_error_upd_neq by lia. auto.
    + intros w x0 g0 s0 q0 Hw Hx Hg Hs Hq. destruct (Nat.eq_dec w a) as [->|Hne].
      * rewrite Nat.eqb_refl, orb_true_r, andb_true_r.
        assert (x0 = x) by congruence. assert (g0 = g) by congruence. assert (s0 = s) by congruence. assert (q0 = q) by congruence.
        subst. rewrite Er. destruct (Out a) as (O1 & O2 & O3); [lia|]. rewrite O1, O2, O3.
        rewrite !nth_error_upd_eq by lia. auto.
      * assert (Hw' : S a <= w < S a + n) by lia.
        pose proof (In_ w x0 g0 s0 q0 Hw') as G.
        rewrite !nth_error_upd_neq in G by lia. specialize (G Hx Hg Hs Hq).
        replace (first && (is_gd || (w =? a))) with (first && is_gd && (is_gd || (w =? S a))); [exact G|].
        destruct first; [|reflexivity]. destruct (Nat.eqb_spec w a); [lia|]. destruct is_gd; reflexivity.
Qed.

Definition emptyb (l : list D) : bool := length l =? 0.

(** The parameters of one layer, starting at position [dp]. *)
Lemma apply_params_ok lr llr acc : forall ps dp first lds lgs,
  (forall j, j < length ps -> exists a ld lg data, nth_error ps j = Some data /\
     nth_error acc (dp + j) = Some a /\ nth_error lds (dp + j) = Some ld /\ nth_error lgs (dp + j) = Some lg /\
     length a = length data /\ length ld = length data /\ length lg = length data) ->
  exists ps' first' lds' lgs',
    apply_params D A cfg dl lr llr acc dp ps (first, lds, lgs) = Ok (ps', dp + length ps, (first', lds', lgs')) /\
    first' = first && (is_gd || forallb emptyb ps) /\
    shape ps' = shape ps /\ shape lds' = shape lds /\ shape lgs' = shape lgs /\
    (forall i, ~ (dp <= i < dp + length ps) -> nth_error lds' i = nth_error lds i /\ nth_error lgs' i = nth_error lgs i) /\
    (forall j w x g s q, elem ps j w = Some x -> elem acc (dp + j) w = Some g -> elem lds (dp + j) w = Some s -> elem lgs (dp + j) w = Some q ->
       let '(x', s', q') := weight_rule (first && (is_gd || ((w =? 0) && forallb emptyb (firstn j ps)))) lr llr x g s q in
       elem ps' j w = Some x' /\ elem lds' (dp + j) w = Some s' /\ elem lgs' (dp + j) w = Some q').
Proof.
  induction ps as [|data ps IH]; intros dp first lds lgs H.
  - exists [], first, lds, lgs. cbn [apply_params length forallb]. rewrite Nat.add_0_r, orb_true_r, andb_true_r.
    repeat split; auto. intros j w x g s q Hx. unfold elem in Hx. destruct j; discriminate.
  - cbn [apply_params].
    destruct (H 0) as (a & ld & lg & data0 & E0 & Ea & Eld & Elg & La & Lld & Llg); [cbn; lia|].
    cbn in E0. injection E0 as <-. rewrite Nat.add_0_r in Ea, Eld, Elg.
    rewrite (load_ok _ _ _ Ea), (load_ok _ _ _ Eld), (load_ok _ _ _ Elg). cbn [bind].
    destruct (update_weights_ok lr llr a (length data) 0 first data ld lg) as (f' & d' & ld' & lg' & E & Ef & L1 & L2 & L3 & _ & In_); try lia; auto.
    rewrite E. cbn [bind].
    assert (Hdl : dp < length lds) by (apply nth_error_Some; congruence).
    assert (Hdg : dp < length lgs) by (apply nth_error_Some; congruence).
    destruct (IH (S dp) f' (upd lds dp ld') (upd lgs dp lg')) as (ps' & f'' & lds' & lgs' & E' & Ef' & S1 & S2 & S3 & Out & In').
    { intros j Hj. destruct (H (S j)) as (a1 & ld1 & lg1 & data1 & ? & ? & ? & ? & ? & ? & ?); [cbn; lia|].
      exists a1, ld1, lg1, data1. rewrite !nth_error_upd_neq by lia. replace (S dp + j) with (dp + S j) by lia. auto 10. }
    rewrite E'. cbn [bind].
    assert (Sh : forall (ts : list (list D)) k old new, nth_error ts k = Some old -> length new = length old -> shape (upd ts k new) = shape ts).
    { clear. intros ts. induction ts as [|y ts IH]; intros [|k] old new H1 H2; cbn in *; try discriminate; [congruence|].
      f_equal. now apply (IH k old). }
    exists (d' :: ps'), f'', lds', lgs'. split; [|split; [|split; [|split; [|split; [|split]]]]].
    + cbn [length]. now rewrite Nat.add_succ_r.
    + rewrite Ef', Ef. cbn [forallb]. unfold emptyb at 2. destruct first, is_gd; cbn; try reflexivity.
    + unfold shape in *. cbn [map]. now rewrite S1, L1.
    + rewrite S2. apply (Sh lds dp ld ld' Eld). lia.
    + rewrite S3. apply (Sh lgs dp lg lg' Elg). lia.
    + intros i Hi. cbn [length] in Hi. destruct (Out i) as (O1 & O2); [lia|]. rewrite O1, O2, !nth_error_upd_neq by lia. auto.
    + intros j w x g s q Hx Hg Hs Hq. destruct j as [|j].
      * rewrite Nat.add_0_r in *. cbn [firstn forallb]. rewrite andb_true_r.
        unfold elem in *. cbn [nth_error] in *. rewrite Ea in Hg. rewrite Eld in Hs. rewrite Elg in Hq.
        assert (Hw : 0 <= w < 0 + length data) by (split; [lia|]; apply nth_error_Some; congruence).
        specialize (In_ w x g s q Hw Hx Hg Hs Hq).
        destruct (weight_rule _ lr llr x g s q) as [[x' s'] q']. destruct In_ as (I1 & I2 & I3).
        destruct (Out dp) as (O1 & O2); [lia|]. rewrite O1, O2, !nth_error_upd_eq by lia. auto.
      * assert (En : forall (ts : list (list D)) v, elem (upd ts dp v) (S dp + j) w = elem ts (dp + S j) w).
        { intros ts v. unfold elem. rewrite nth_error_upd_neq by lia. now replace (S dp + j) with (dp + S j) by lia. }
        specialize (In' j w x g s q). rewrite !En in In'. replace (S dp + j) with (dp + S j) in In' by lia.
        specialize (In' Hx Hg Hs Hq). cbn [firstn forallb].
        assert (Efl : f' && (is_gd || (w =? 0) && forallb emptyb (firstn j ps)) =
                      first && (is_gd || (w =? 0) && (emptyb data && forallb emptyb (firstn j ps)))).
        { rewrite Ef. unfold emptyb at 2. destruct first, is_gd; cbn; try reflexivity.
          destruct (length data =? 0), (w =? 0); reflexivity. }
        rewrite Efl in In'. exact In'.
Qed.

(** All layers. *)
Lemma apply_layers_ok lr acc : forall ls dp first lds lgs,
  (forall j, j < length (concat (map snd ls)) -> exists a ld lg data, nth_error (concat (map snd ls)) j = Some data /\
     nth_error acc (dp + j) = Some a /\ nth_error lds (dp + j) = Some ld /\ nth_error lgs (dp + j) = Some lg /\
     length a = length data /\ length ld = length data /\ length lg = length data) ->
  exists ls' first' lds' lgs',
    apply_layers D A cfg dl lr acc dp ls (first, lds, lgs) = Ok (ls', (first', lds', lgs')) /\
    first' = first && (is_gd || forallb emptyb (concat (map snd ls))) /\
    map (fun '(r, ps) => (r, shape ps)) ls' = map (fun '(r, ps) => (r, shape ps)) ls /\
    shape lds' = shape lds /\ shape lgs' = shape lgs /\
    (forall i, i < dp -> nth_error lds' i = nth_error lds i /\ nth_error lgs' i = nth_error lgs i) /\
    (forall l llr ps p w x g s q, nth_error ls l = Some (llr, ps) -> elem ps p w = Some x ->
       let k := dp + (length (concat (map snd (firstn l ls))) + p) in
       elem acc k w = Some g -> elem lds k w = Some s -> elem lgs k w = Some q ->
       let '(x', s', q') := weight_rule (first && (is_gd || ((w =? 0) && forallb emptyb (concat (map snd (firstn l ls)) ++ firstn p ps)))) lr llr x g s q in
       (exists ps', nth_error ls' l = Some (llr, ps') /\ elem ps' p w = Some x') /\ elem lds' k w = Some s' /\ elem lgs' k w = Some q').
Proof.
  induction ls as [|[llr ps] ls IH]; intros dp first lds lgs H.
  - exists [], first, lds, lgs. cbn [apply_layers map concat forallb]. rewrite orb_true_r, andb_true_r.
    repeat split; auto. intros l llr ps p w x g s q Hl. destruct l; discriminate.
  - cbn [apply_layers]. cbn [map snd concat] in H. rewrite app_length in H.
    destruct (apply_params_ok lr llr acc ps dp first lds lgs) as (ps' & f' & lds1 & lgs1 & E & Ef & S1 & S2 & S3 & Out & In_).
    { intros j Hj. destruct (H j) as (a & ld & lg & data & E & R); [lia|]. rewrite nth_error_app1 in E by exact Hj.
      exists a, ld, lg, data. auto. }
    rewrite E. cbn [bind].
    destruct (IH (dp + length ps) f' lds1 lgs1) as (ls' & f'' & lds2 & lgs2 & E' & Ef' & T1 & T2 & T3 & Out' & In').
    { intros j Hj. destruct (H (length ps + j)) as (a & ld & lg & data & E0 & ? & ? & ? & ? & ? & ?); [lia|].
      rewrite nth_error_app2 in E0 by lia. replace (length ps + j - length ps) with j in E0 by lia.
      exists a, ld, lg, data. destruct (Out (dp + length ps + j)) as (O1 & O2); [lia|]. rewrite O1, O2, <- !Nat.add_assoc. auto 10. }
    rewrite E'. cbn [bind]. exists ((llr, ps') :: ls'), f'', lds2, lgs2. split; [reflexivity|]. split; [|split; [|split; [|split; [|split]]]].
    + rewrite Ef', Ef. cbn [map snd concat]. rewrite forallb_app. destruct first, is_gd; cbn; try reflexivity.
    + cbn [map]. now rewrite T1, S1.
    + congruence.
    + congruence.
    + intros i Hi. destruct (Out' i) as (O1 & O2); [lia|]. destruct (Out i) as (O3 & O4); [lia|]. rewrite O1, O2, O3, O4. auto.
    + intros l llr0 ps0 p w x g s q Hl Hx. set (k := dp + (length (concat (map snd (firstn l ((llr, ps) :: ls)))) + p)). intros Hg Hs Hq. destruct l as [|l]; cbn [nth_error] in Hl.
      * injection Hl as -> ->. subst k. cbn [firstn map concat length app] in *. rewrite Nat.add_0_l in *.
        specialize (In_ p w x g s q Hx Hg Hs Hq).
        destruct (weight_rule _ lr llr0 x g s q) as [[x' s'] q']. destruct In_ as (I1 & I2 & I3).
        split; [exists ps'; split; [reflexivity|exact I1]|].
        assert (Hp : p < length ps0) by (unfold elem in Hx; destruct (nth_error ps0 p) eqn:Ep; [|discriminate]; apply nth_error_Some; congruence).
        destruct (Out' (dp + p)) as (O1 & O2); [lia|]. unfold elem in *. rewrite O1, O2. auto.
      * specialize (In' l llr0 ps0 p w x g s q Hl Hx). cbn zeta in In'.
        assert (Ek : dp + length ps + (length (concat (map snd (firstn l ls))) + p) = k).
        { subst k. cbn [firstn map snd concat]. rewrite app_length. lia. }
        rewrite Ek in In'. assert (Hk : ~ (dp <= k < dp + length ps)) by lia.
        destruct (Out k Hk) as (O1 & O2). unfold elem in In' at 2 3. rewrite O1, O2 in In'.
        fold (elem lds k w) in In'. fold (elem lgs k w) in In'. specialize (In' Hg Hs Hq).
        cbn [firstn map snd concat].
        assert (Efl : f' && (is_gd || (w =? 0) && forallb emptyb (concat (map snd (firstn l ls)) ++ firstn p ps0)) =
          first && (is_gd || (w =? 0) && forallb emptyb ((ps ++ concat (map snd (firstn l ls))) ++ firstn p ps0))).
        { rewrite Ef, !forallb_app. destruct first, is_gd; cbn; try reflexivity.
          destruct (w =? 0), (forallb emptyb ps); reflexivity. }
        rewrite Efl in In'. exact In'.
Qed.

Lemma shape_nth (ts us : list (list D)) i x : shape ts = shape us -> nth_error us i = Some x ->
  exists y, nth_error ts i = Some y /\ length y = length x.
Proof.
  intros H E. assert (Hi : nth_error (shape ts) i = Some (length x)) by (rewrite H; unfold shape; now rewrite nth_error_map, E).
  unfold shape in Hi. rewrite nth_error_map in Hi. destruct (nth_error ts i) as [y|]; [|discriminate]. exists y. split; [reflexivity|].
  now injection Hi.
Qed.

Lemma elem_shape (ts us : list (list D)) i w x : shape ts = shape us -> elem us i w = Some x -> exists y, elem ts i w = Some y.
Proof.
  intros H E. unfold elem in *. destruct (nth_error us i) as [u|] eqn:Eu; [|discriminate].
  destruct (shape_nth ts us i u H Eu) as (y & Ey & Ly). rewrite Ey. apply nth_error_lt. rewrite Ly. apply nth_error_Some. congruence.
Qed.

Lemma structure_shape (ls ls' : list (D * list (list D))) :
  map (fun '(r, ps) => (r, shape ps)) ls' = map (fun '(r, ps) => (r, shape ps)) ls ->
  shape (concat (map snd ls')) = shape (concat (map snd ls)).
Proof.
  revert ls'. induction ls as [|[r ps] ls IH]; intros [|[r' ps'] ls'] H; try discriminate; [reflexivity|].
  cbn [map] in H. injection H as -> H1 H2. cbn [map snd concat]. unfold shape in *. rewrite !map_app, H1. f_equal. now apply IH.
Qed.

Lemma parameters_nth (ls : list (D * list (list D))) : forall l llr ps p x, nth_error ls l = Some (llr, ps) -> nth_error ps p = Some x ->
  nth_error (concat (map snd ls)) (length (concat (map snd (firstn l ls))) + p) = Some x.
Proof.
  induction ls as [|[r qs] ls IH]; intros [|l] llr ps p x Hl Hp; try discriminate; cbn [nth_error] in Hl.
  - injection Hl as -> ->. cbn [map snd concat firstn length Nat.add]. rewrite nth_error_app1; [exact Hp|]. apply nth_error_Some. congruence.
  - cbn [map snd concat firstn]. rewrite app_length, nth_error_app2 by lia.
    replace (length qs + length (concat (map snd (firstn l ls))) + p - length qs) with (length (concat (map snd (firstn l ls))) + p) by lia.
    now apply (IH l llr ps).
Qed.

(** ** The update as a whole *)
Section Update.
Variable W : Type.

Lemma apply_gradients_ok (t : trainer D W) lr : fits t ->
  exists t', apply_gradients D A cfg dl t lr = Ok t' /\ fits t' /\ structure t' = structure t /\
    world t' = world t /\ accumulated t' = accumulated t /\ epoch t' = epoch t /\
    first_iteration t' = first_iteration t && (is_gd || forallb emptyb (parameters t)) /\
    (forall l p w llr x, local_rate t l = Some llr -> weight t l p w = Some x ->
       exists g s q, elem (accumulated t) (position t l p) w = Some g /\ elem (last_deltas t) (position t l p) w = Some s /\
         elem (last_gradients t) (position t l p) w = Some q /\
       let '(x', s', q') := weight_rule (first_iteration t && (is_gd || ((w =? 0) && forallb emptyb (firstn (position t l p) (parameters t))))) lr llr x g s q in
       weight t' l p w = Some x' /\ elem (last_deltas t') (position t l p) w = Some s' /\ elem (last_gradients t') (position t l p) w = Some q').
Proof.
  intros (F1 & F2 & F3). unfold apply_gradients.
  destruct (apply_layers_ok lr (accumulated t) (layers t) 0 (first_iteration t) (last_deltas t) (last_gradients t))
    as (ls' & f' & lds' & lgs' & E & Ef & S1 & S2 & S3 & _ & In_).
  { intros j Hj. apply nth_error_lt in Hj as (data & Ed). cbn [Nat.add].
    destruct (shape_nth _ _ _ _ F1 Ed) as (ld & E1 & L1). destruct (shape_nth _ _ _ _ F2 Ed) as (lg & E2 & L2).
    destruct (shape_nth _ _ _ _ F3 Ed) as (a & E3 & L3). exists a, ld, lg, data. auto 10. }
  rewrite E. cbn [bind]. eexists. split; [reflexivity|].
  assert (Sp : shape (concat (map snd ls')) = shape (parameters t)) by now apply structure_shape.
  split; [|split; [exact S1|split; [reflexivity|split; [reflexivity|split; [reflexivity|split; [exact Ef|]]]]]].
  - unfold fits, parameters. cbn [layers last_deltas last_gradients accumulated]. rewrite Sp, S2, S3. auto.
  - intros l p w llr x Hr Hw. unfold local_rate, weight in Hr, Hw. destruct (nth_error (layers t) l) as [[r ps]|] eqn:El; [|discriminate].
    injection Hr as ->. assert (Hp : exists data, nth_error ps p = Some data /\ nth_error data w = Some x).
    { unfold elem in Hw. destruct (nth_error ps p) as [data|]; [|discriminate]. now exists data. }
    destruct Hp as (data & Ep & Ew).
    pose proof (parameters_nth _ _ _ _ _ _ El Ep) as Epar.
    assert (Epe : elem (parameters t) (position t l p) w = Some x) by (unfold elem, parameters, position; now rewrite Epar).
    destruct (elem_shape _ _ _ _ _ F3 Epe) as (g & Eg). destruct (elem_shape _ _ _ _ _ F1 Epe) as (s & Es).
    destruct (elem_shape _ _ _ _ _ F2 Epe) as (q & Eq). exists g, s, q. split; [exact Eg|]. split; [exact Es|]. split; [exact Eq|].
    specialize (In_ l llr ps p w x g s q El Hw Eg Es Eq). cbn [Nat.add] in In_. fold (position t l p) in In_.
    assert (Efst : concat (map snd (firstn l (layers t))) ++ firstn p ps = firstn (position t l p) (parameters t)).
    { unfold position, parameters. clear -El Ep. revert l El. induction (layers t) as [|[r0 qs] ls IH]; intros [|l] El; try discriminate; cbn [nth_error] in El.
      - injection El as -> ->. cbn [firstn map snd concat app length Nat.add].
        rewrite firstn_app. assert (p < length ps) by (apply nth_error_Some; congruence).
        replace (p - length ps) with 0 by lia. cbn. now rewrite app_nil_r.
      - cbn [firstn map snd concat]. rewrite app_length, firstn_app, <- app_assoc, (IH l El).
        rewrite (firstn_all2 qs) by lia. f_equal. f_equal. lia. }
    rewrite Efst in In_. unfold weight. cbn [layers last_deltas last_gradients].
    destruct (weight_rule _ lr llr x g s q) as [[x' s'] q']. destruct In_ as ((ps' & E1 & E2) & I2 & I3). rewrite E1. auto.
Qed.
End Update.
End Proofs.

(** Proofs about NetGraph::AddNode (C21). *)
From Coq Require Import String Decimal DecimalString DecimalNat Permutation.
From Verif Require Import Base BaseFacts Graph_Model Graph_Spec.
Local Open Scope list_scope.

Lemma auto_name_inj a b : auto_name a = auto_name b -> a = b.
Proof.
  unfold auto_name. intros H. assert (E : NilEmpty.string_of_uint (Nat.to_uint a) = NilEmpty.string_of_uint (Nat.to_uint b)).
  { cbn [String.append] in H. congruence. }
  apply (f_equal NilEmpty.uint_of_string) in E. rewrite !NilEmpty.usu in E. injection E as E.
  now apply Unsigned.to_uint_inj.
Qed.
Lemma auto_name_nonempty a : String.eqb (auto_name a) "" = false.
Proof. reflexivity. Qed.

(** The requests node [p] with connections [cs] makes to node [x], as AddNode sees them. *)
Definition asks (h : list node) (x p : nat) (cs : list connection) : list bconnection :=
  map (fun c => mkB p (c_buffer c))
      (filter (fun c => ptr_eqb (c_node c) x && c_backprop c && negb (is_input_at h x)) cs).

Lemma asks_app h x p a b : asks h x p (a ++ b) = asks h x p a ++ asks h x p b.
Proof. unfold asks. now rewrite filter_app, map_app. Qed.

Definition grown (h : list node) (p : nat) (done rest : list connection) (x : nat) (m : node) : node :=
  mkNode (n_layer m) (if x =? p then map (settled h) done ++ rest else n_inputs m)
    (n_backprop m ++ asks h x p done) (n_buffers m) (n_name m) (n_is_output m) (n_is_input m).

Lemma upd_middle {A} (a : list A) x y b : upd (a ++ x :: b) (length a) y = a ++ y :: b.
Proof. induction a as [|z a IH]; cbn [app length upd]; [reflexivity|]. now rewrite IH. Qed.
Lemma nth_middle {A} (a : list A) x b : nth_error (a ++ x :: b) (length a) = Some x.
Proof. induction a; cbn; auto. Qed.

Lemma connections_fold h p n : nth_error h p = Some n -> forall rest done hi,
  length hi = length h ->
  (forall x, nth_error hi x = option_map (grown h p done rest x) (nth_error h x)) ->
  (forall c, In c rest -> c_backprop c = true -> exists q, c_node c = Some q /\ q < length h) ->
  exists h', foldm (add_connection p) (seq (length done) (length rest)) hi = Ok h' /\ length h' = length h /\
    forall x, nth_error h' x = option_map (grown h p (done ++ rest) [] x) (nth_error h x).
Proof.
  intros Hp. induction rest as [|c rest IH]; intros done hi Hl Hx Hok.
  - exists hi. cbn [length seq foldm]. rewrite app_nil_r. auto.
  - cbn [length seq foldm]. unfold add_connection at 1.
    pose proof (Hx p) as Ep. rewrite Hp in Ep. cbn [option_map] in Ep.
    rewrite (load_ok _ _ _ Ep). cbn [bind].
    assert (Ei : n_inputs (grown h p done (c :: rest) p n) = map (settled h) done ++ c :: rest).
    { unfold grown. cbn [n_inputs]. now rewrite Nat.eqb_refl. }
    assert (Ec : nth_error (map (settled h) done ++ c :: rest) (length done) = Some c).
    { rewrite <- (map_length (settled h) done). apply nth_middle. }
    rewrite Ei, (load_ok _ _ _ Ec). cbn [bind].
    assert (Step : forall hi', length hi' = length h ->
       (forall x, nth_error hi' x = option_map (grown h p (done ++ [c]) rest x) (nth_error h x)) ->
       exists h', foldm (add_connection p) (seq (S (length done)) (length rest)) hi' = Ok h' /\ length h' = length h /\
         forall x, nth_error h' x = option_map (grown h p (done ++ c :: rest) [] x) (nth_error h x)).
    { intros hi' Hl' Hx'. destruct (IH (done ++ [c]) hi' Hl' Hx') as (h' & E & L & X).
      - intros c' Hc'. apply Hok. now right.
      - rewrite app_length in E. cbn [length] in E. rewrite Nat.add_1_r in E. exists h'.
        split; [exact E|]. split; [exact L|]. intros x. rewrite X, <- app_assoc. reflexivity. }
    destruct (c_backprop c) eqn:Eb.
    + destruct (Hok c (or_introl eq_refl) Eb) as (q & Eq & Hq). rewrite Eq.
      assert (Hlt : q < length h) by exact Hq.
      apply nth_error_lt in Hq as (m & Em). pose proof (Hx q) as Eqn. rewrite Em in Eqn. cbn [option_map] in Eqn.
      rewrite (load_ok _ _ _ Eqn). cbn [bind].
      change (n_is_input (grown h p done (c :: rest) q m)) with (n_is_input m).
      destruct (n_is_input m) eqn:Eim; cbn [bind]; apply Step.
      * now rewrite upd_length.
      * intros x. rewrite nth_error_upd. rewrite Hl.
        assert (Hpl : p < length h) by (apply nth_error_Some; congruence).
        destruct (p =? x) eqn:Epx.
        -- apply Nat.eqb_eq in Epx. subst x. rewrite (proj2 (Nat.ltb_lt _ _) Hpl). cbn [andb].
           rewrite Hp. cbn [option_map]. f_equal. unfold grown, set_inputs.
           cbn [n_layer n_inputs n_backprop n_buffers n_name n_is_output n_is_input]. rewrite Nat.eqb_refl.
           f_equal.
           ++ rewrite <- (map_length (settled h) done), upd_middle, map_app. cbn [map].
              rewrite <- app_assoc. cbn [app]. unfold settled at 3. rewrite Eq, Eb. unfold is_input_at. rewrite Em, Eim.
              reflexivity.
           ++ rewrite asks_app. unfold asks at 3. cbn [filter]. rewrite Eq. cbn [ptr_eqb].
              destruct (q =? p) eqn:Eqp; cbn [andb map]; [|now rewrite app_nil_r].
              apply Nat.eqb_eq in Eqp. subst q. unfold is_input_at. rewrite Em, Eim, andb_false_r. cbn [map].
              now rewrite app_nil_r.
        -- rewrite andb_false_r || cbn [andb]. rewrite Hx. destruct (nth_error h x) as [mx|] eqn:Emx; [|reflexivity].
           cbn [option_map]. f_equal. unfold grown. rewrite Nat.eqb_sym, Epx. f_equal.
           rewrite asks_app. unfold asks at 3. cbn [filter]. rewrite Eq. cbn [ptr_eqb].
           destruct (q =? x) eqn:Eqx; cbn [andb map]; [|now rewrite app_nil_r].
           apply Nat.eqb_eq in Eqx. subst q. unfold is_input_at. rewrite Em, Eim, andb_false_r. cbn [map].
           now rewrite app_nil_r.
      * now rewrite upd_length.
      * intros x. rewrite nth_error_upd, Hl.
        assert (Sc : settled h c = c).
        { unfold settled. rewrite Eq, Eb. unfold is_input_at. now rewrite Em, Eim. }
        assert (Si : forall y, (if y =? p then map (settled h) (done ++ [c]) ++ rest else []) =
                               (if y =? p then map (settled h) done ++ c :: rest else [])).
        { intros y. destruct (y =? p); [|reflexivity]. rewrite map_app. cbn [map]. rewrite Sc, <- app_assoc. reflexivity. }
        destruct (q =? x) eqn:Eqx.
        -- apply Nat.eqb_eq in Eqx. subst x. rewrite (proj2 (Nat.ltb_lt _ _) Hlt). cbn [andb].
           rewrite Em. cbn [option_map]. f_equal. unfold grown, set_backprop.
           cbn [n_layer n_inputs n_backprop n_buffers n_name n_is_output n_is_input]. f_equal.
           ++ specialize (Si q). destruct (q =? p); [|reflexivity]. now rewrite Si.
           ++ rewrite asks_app. unfold asks at 3. cbn [filter]. rewrite Eq, Eb. cbn [ptr_eqb]. rewrite Nat.eqb_refl.
              unfold is_input_at. rewrite Em, Eim. cbn [andb negb map]. now rewrite app_assoc.
        -- rewrite andb_false_r || cbn [andb]. rewrite Hx. destruct (nth_error h x) as [mx|] eqn:Emx; [|reflexivity].
           cbn [option_map]. f_equal. unfold grown. f_equal.
           ++ specialize (Si x). destruct (x =? p); [|reflexivity]. now rewrite Si.
           ++ rewrite asks_app. unfold asks at 3. cbn [filter]. rewrite Eq. cbn [ptr_eqb]. rewrite Eqx.
              cbn [andb map]. now rewrite app_nil_r.
    + cbn [bind]. apply Step; [exact Hl|]. intros x. rewrite Hx. destruct (nth_error h x) as [mx|] eqn:Emx; [|reflexivity].
      cbn [option_map]. f_equal. unfold grown. f_equal.
      * destruct (x =? p); [|reflexivity]. rewrite map_app. cbn [map]. rewrite <- app_assoc. cbn [app].
        do 2 f_equal. unfold settled. rewrite Eb. cbn [andb]. now destruct (c_node c).
      * rewrite asks_app. unfold asks at 3. cbn [filter]. rewrite Eb, andb_false_r. cbn [andb map]. now rewrite app_nil_r.
Qed.

Definition inputs_at (h : list node) (p : nat) : list connection :=
  match nth_error h p with Some nd => n_inputs nd | None => [] end.

Lemma settled_ext h h' c : (forall x, is_input_at h x = is_input_at h' x) -> settled h c = settled h' c.
Proof. intros H. unfold settled. destruct (c_node c); [|reflexivity]. now rewrite H. Qed.
Lemma asks_ext h h' x p cs : is_input_at h x = is_input_at h' x -> asks h x p cs = asks h' x p cs.
Proof. intros H. unfold asks. now rewrite H. Qed.
Lemma settled_parts h c : c_node (settled h c) = c_node c /\ c_buffer (settled h c) = c_buffer c /\
  c_backprop (settled h c) = c_backprop c && match c_node c with Some q => negb (is_input_at h q) | None => true end.
Proof.
  unfold settled. destruct (c_node c) as [q|] eqn:E.
  - destruct (c_backprop c) eqn:Eb, (is_input_at h q) eqn:Ei; cbn [andb negb c_node c_buffer c_backprop];
      rewrite ?E, ?Eb, ?andb_false_r; auto.
  - rewrite andb_true_r. auto.
Qed.
Lemma settled_idem h c : settled h (settled h c) = settled h c.
Proof.
  destruct (settled_parts h (settled h c)) as (A1 & A2 & A3). destruct (settled_parts h c) as (B1 & B2 & B3).
  rewrite B1, B3 in A3. destruct (settled h (settled h c)) as [p1 p2 p3], (settled h c) as [q1 q2 q3]. cbn [c_node c_buffer c_backprop] in *.
  subst. f_equal. destruct (c_backprop c), (c_node c) as [q|]; try destruct (is_input_at h q); reflexivity.
Qed.
Lemma settled_map_idem h cs : map (settled h) (map (settled h) cs) = map (settled h) cs.
Proof. rewrite map_map. apply map_ext. intros. apply settled_idem. Qed.
Lemma asks_settled h x p cs : asks h x p (map (settled h) cs) = asks h x p cs.
Proof.
  unfold asks. induction cs as [|c cs IH]; [reflexivity|]. cbn [map filter].
  destruct (settled_parts h c) as (E1 & E2 & E3). rewrite E1, E3.
  assert (Eb : ptr_eqb (c_node c) x && (c_backprop c && match c_node c with Some q => negb (is_input_at h q) | None => true end)
                 && negb (is_input_at h x) = ptr_eqb (c_node c) x && c_backprop c && negb (is_input_at h x)).
  { unfold ptr_eqb. destruct (c_node c) as [q|]; [|reflexivity]. destruct (q =? x) eqn:E; [|reflexivity].
    apply Nat.eqb_eq in E. subst q. destruct (c_backprop c), (is_input_at h x); reflexivity. }
  rewrite Eb. destruct (ptr_eqb (c_node c) x && c_backprop c && negb (is_input_at h x)); cbn [map]; [rewrite E2|]; now rewrite IH.
Qed.
(** After settling, what a node asks for is what its connections say. *)
Lemma asks_requests h x p cs :
  asks h x p cs = map (fun c => mkB p (c_buffer c)) (filter (fun c => ptr_eqb (c_node c) x && c_backprop c) (map (settled h) cs)).
Proof.
  rewrite <- asks_settled. unfold asks. f_equal. apply filter_ext_in. intros c Hc.
  apply in_map_iff in Hc as (c0 & <- & _). destruct (settled_parts h c0) as (E1 & _ & E3). rewrite E1, E3.
  unfold ptr_eqb. destruct (c_node c0) as [q|]; [|reflexivity]. destruct (q =? x) eqn:E; [|reflexivity].
  apply Nat.eqb_eq in E. subst q. destruct (c_backprop c0), (is_input_at h x); reflexivity.
Qed.

Definition added (h : list node) (p uid x : nat) (m : node) : node :=
  mkNode (n_layer m) (if x =? p then map (settled h) (n_inputs m) else n_inputs m)
    (n_backprop m ++ asks h x p (inputs_at h p)) (n_buffers m)
    (if (x =? p) && String.eqb (n_name m) "" then auto_name uid else n_name m) (n_is_output m) (n_is_input m).

Lemma add_node_spec g p n k :
  nth_error (heap g) p = Some n -> n_layer n = Some k ->
  (forall c, In c (n_inputs n) -> c_backprop c = true -> exists q, c_node c = Some q /\ q < length (heap g)) ->
  let reg (b : bool) (l : list nat) := if b then l ++ [p] else l in
  exists h2, add_node g (Some p) =
    Ok (mkGraph h2 (nodes g ++ [p])
          (reg (n_is_input n) (input_nodes g)) (reg (n_is_output n) (output_nodes g))
          (reg (k_stat k) (stat_nodes g)) (reg (k_loss k) (loss_nodes g)) (reg (k_training k) (training_nodes g))
          (if String.eqb (n_name n) "" then S (next_uid g) else next_uid g)) /\
    length h2 = length (heap g) /\
    forall x, nth_error h2 x = option_map (added (heap g) p (next_uid g) x) (nth_error (heap g) x).
Proof.
  intros Hp Hk Hcs reg. unfold add_node. rewrite (load_ok _ _ _ Hp). cbn [bind]. rewrite Hk.
  set (n1 := if String.eqb (n_name n) "" then set_name n (auto_name (next_uid g)) else n).
  set (h1 := upd (heap g) p n1).
  assert (Hpl : p < length (heap g)) by (apply nth_error_Some; congruence).
  assert (Hp1 : nth_error h1 p = Some n1) by (now apply nth_error_upd_eq).
  assert (Hl1 : length h1 = length (heap g)) by apply upd_length.
  assert (Ei : n_inputs n1 = n_inputs n) by (unfold n1; now destruct (String.eqb _ _)).
  assert (Eb : n_backprop n1 = n_backprop n) by (unfold n1; now destruct (String.eqb _ _)).
  assert (Einp : forall x, is_input_at h1 x = is_input_at (heap g) x).
  { intros x. unfold is_input_at, h1. rewrite nth_error_upd. destruct (p =? x) eqn:E; [|reflexivity].
    apply Nat.eqb_eq in E. subst x. rewrite (proj2 (Nat.ltb_lt _ _) Hpl), Hp. unfold n1. now destruct (String.eqb _ _). }
  destruct (connections_fold h1 p n1 Hp1 (n_inputs n) [] h1 eq_refl) as (h2 & E & L & X).
  - intros x. destruct (nth_error h1 x) as [m|] eqn:Em; [|reflexivity]. cbn [option_map]. f_equal.
    unfold grown, asks. cbn [map app filter]. rewrite app_nil_r. destruct (x =? p) eqn:Ex.
    + apply Nat.eqb_eq in Ex. subst x. rewrite Hp1 in Em. injection Em as <-. rewrite <- Ei. now destruct n1.
    + now destruct m.
  - intros c Hc Hb. rewrite Hl1. now apply Hcs.
  - cbn [length app] in *. rewrite Ei. rewrite E. cbn [bind]. exists h2. split; [reflexivity|].
    split; [congruence|]. intros x. rewrite X. unfold h1. rewrite nth_error_upd, (Nat.eqb_sym p x).
    destruct (x =? p) eqn:Ex.
    + apply Nat.eqb_eq in Ex. subst x. rewrite (proj2 (Nat.ltb_lt _ _) Hpl), Hp. cbn [option_map]. f_equal.
      unfold grown, added. rewrite Nat.eqb_refl, Eb, app_nil_r. unfold inputs_at. rewrite Hp. cbn [andb].
      rewrite (map_ext _ _ (fun c => settled_ext h1 (heap g) c Einp)).
      rewrite (asks_ext h1 (heap g)) by apply Einp. unfold n1. now destruct (String.eqb (n_name n) "").
    + destruct (nth_error (heap g) x) as [m|]; [|reflexivity]. cbn [option_map]. f_equal.
      unfold grown, added. rewrite Ex. unfold inputs_at. rewrite Hp. cbn [andb].
      now rewrite (asks_ext h1 (heap g)) by apply Einp.
Qed.

(** State of the network after the additions [H], in terms of the program's nodes [h0]. *)
Record history_inv (h0 : list node) (H : list nat) (g : graph) : Prop := mkHist {
  hi_length : length (heap g) = length h0;
  hi_nodes : nodes g = H;
  hi_input : input_nodes g = filter (node_has n_is_input h0) H;
  hi_output : output_nodes g = filter (node_has n_is_output h0) H;
  hi_stat : stat_nodes g = filter (node_has (layer_has k_stat) h0) H;
  hi_loss : loss_nodes g = filter (node_has (layer_has k_loss) h0) H;
  hi_training : training_nodes g = filter (node_has (layer_has k_training) h0) H;
  hi_heap : forall x m0, nth_error h0 x = Some m0 -> exists m, nth_error (heap g) x = Some m /\
    n_layer m = n_layer m0 /\ n_buffers m = n_buffers m0 /\ n_is_output m = n_is_output m0 /\ n_is_input m = n_is_input m0 /\
    n_inputs m = (if existsb (Nat.eqb x) H then map (settled h0) (n_inputs m0) else n_inputs m0) /\
    n_backprop m = n_backprop m0 ++ flat_map (fun k => asks h0 x k (inputs_at h0 k)) H /\
    (n_name m0 <> ""%string -> n_name m = n_name m0) /\
    (n_name m0 = ""%string -> existsb (Nat.eqb x) H = false -> n_name m = ""%string) /\
    (n_name m0 = ""%string -> existsb (Nat.eqb x) H = true -> exists u, u < next_uid g /\ n_name m = auto_name u);
  hi_names : forall x y mx0 my0 mx my, x <> y -> In x H -> In y H ->
    nth_error h0 x = Some mx0 -> nth_error h0 y = Some my0 -> n_name mx0 = ""%string -> n_name my0 = ""%string ->
    nth_error (heap g) x = Some mx -> nth_error (heap g) y = Some my -> n_name mx <> n_name my }.

Lemma filter_app_one {A} (f : A -> bool) l x : filter f (l ++ [x]) = if f x then filter f l ++ [x] else filter f l.
Proof. rewrite filter_app. cbn [filter]. destruct (f x); [reflexivity|apply app_nil_r]. Qed.
Lemma existsb_app_one x l p : existsb (Nat.eqb x) (l ++ [p]) = existsb (Nat.eqb x) l || (x =? p).
Proof. rewrite existsb_app. cbn [existsb]. now rewrite orb_false_r. Qed.

Lemma history_step h0 H g p : history_inv h0 H g -> addable h0 p ->
  exists g', add_node g (Some p) = Ok g' /\ history_inv h0 (H ++ [p]) g'.
Proof.
  intros I (n0 & En0 & Ly & Cs). destruct (hi_heap _ _ _ I p n0 En0) as (n & En & El & Ebf & Eo & Ein & Eins & Ebp & Nm1 & Nm2 & Nm3).
  destruct (n_layer n0) as [k|] eqn:Ek; [|congruence].
  destruct (add_node_spec g p n k En) as (h2 & E & L & X); [congruence| |].
  - intros c Hc Hb. rewrite (hi_length _ _ _ I). rewrite Eins in Hc. destruct (existsb (Nat.eqb p) H); [|now apply Cs].
    apply in_map_iff in Hc as (c0 & <- & Hc0). destruct (settled_parts h0 c0) as (E1 & _ & E3). rewrite E1.
    rewrite E3 in Hb. apply andb_prop in Hb as [Hb _]. now apply Cs.
  - assert (Einp : forall x, is_input_at (heap g) x = is_input_at h0 x).
    { intros x. unfold is_input_at. destruct (nth_error h0 x) as [m0|] eqn:Em0.
      - destruct (hi_heap _ _ _ I x m0 Em0) as (m & Em & _ & _ & _ & Hm & _). now rewrite Em.
      - destruct (nth_error (heap g) x) eqn:Em; [|reflexivity]. exfalso.
        assert (x < length (heap g)) by (apply nth_error_Some; congruence). rewrite (hi_length _ _ _ I) in *.
        apply nth_error_Some in H0. congruence. }
    assert (Easks : forall x, asks (heap g) x p (inputs_at (heap g) p) = asks h0 x p (inputs_at h0 p)).
    { intros x. rewrite (asks_ext _ h0 _ _ _ (Einp x)). unfold inputs_at. rewrite En, En0, Eins.
      destruct (existsb _ H); [apply asks_settled|reflexivity]. }
    assert (Eun : String.eqb (n_name n) "" = true -> n_name n0 = ""%string /\ existsb (Nat.eqb p) H = false).
    { intros Hu. apply String.eqb_eq in Hu. destruct (string_dec (n_name n0) "") as [E0|E0].
      - split; [exact E0|]. destruct (existsb (Nat.eqb p) H) eqn:Ex; [|reflexivity].
        destruct (Nm3 E0 eq_refl) as (u & _ & Hu'). rewrite Hu in Hu'. discriminate.
      - rewrite (Nm1 E0) in Hu. contradiction. }
    assert (Euid : next_uid g <= (if String.eqb (n_name n) "" then S (next_uid g) else next_uid g)) by (destruct (String.eqb _ _); lia).
    eexists. split; [exact E|]. constructor; cbn [heap nodes input_nodes output_nodes stat_nodes loss_nodes training_nodes next_uid].
    + rewrite L. apply (hi_length _ _ _ I).
    + now rewrite (hi_nodes _ _ _ I).
    + rewrite filter_app_one, (hi_input _ _ _ I). unfold node_has at 3. now rewrite En0, Ein.
    + rewrite filter_app_one, (hi_output _ _ _ I). unfold node_has at 3. now rewrite En0, Eo.
    + rewrite filter_app_one, (hi_stat _ _ _ I). unfold node_has at 3. rewrite En0. unfold layer_has at 3. now rewrite Ek.
    + rewrite filter_app_one, (hi_loss _ _ _ I). unfold node_has at 3. rewrite En0. unfold layer_has at 3. now rewrite Ek.
    + rewrite filter_app_one, (hi_training _ _ _ I). unfold node_has at 3. rewrite En0. unfold layer_has at 3. now rewrite Ek.
    + intros x m0 Em0. destruct (hi_heap _ _ _ I x m0 Em0) as (m & Em & F1 & F2 & F3 & F4 & F5 & F6 & F7 & F8 & F9).
      exists (added (heap g) p (next_uid g) x m). split; [rewrite X, Em; reflexivity|].
      unfold added; cbn [n_layer n_inputs n_backprop n_buffers n_name n_is_output n_is_input].
      split; [exact F1|]. split; [exact F2|]. split; [exact F3|]. split; [exact F4|].
      rewrite existsb_app_one. split; [|split; [|split; [|split]]].
      * rewrite F5. destruct (x =? p) eqn:Ex.
        -- rewrite orb_true_r. rewrite (map_ext _ _ (fun c => settled_ext (heap g) h0 c Einp)).
           destruct (existsb (Nat.eqb x) H); [apply settled_map_idem|reflexivity].
        -- now rewrite orb_false_r.
      * rewrite F6, flat_map_app, <- app_assoc. cbn [flat_map]. rewrite app_nil_r, Easks. reflexivity.
      * intros Hn. destruct ((x =? p) && String.eqb (n_name m) "") eqn:Ex; [|auto].
        apply andb_prop in Ex as [_ Ex]. apply String.eqb_eq in Ex. rewrite (F7 Hn) in Ex. contradiction.
      * intros Hn Hx. apply orb_false_elim in Hx as [Hx1 Hx2]. rewrite Hx2. cbn [andb]. auto.
      * intros Hn Hx. destruct (existsb (Nat.eqb x) H) eqn:Ex.
        -- destruct (F9 Hn eq_refl) as (u & Hu & Eu). exists u. split; [lia|]. rewrite Eu, auto_name_nonempty, andb_false_r. reflexivity.
        -- cbn [orb] in Hx. rewrite Hx. apply Nat.eqb_eq in Hx. subst x. rewrite Em in En. injection En as ->.
           rewrite (F8 Hn eq_refl). cbn. exists (next_uid g). split; [lia|reflexivity].
    + assert (Old : forall x mx0 mx, In x (H ++ [p]) -> nth_error h0 x = Some mx0 -> n_name mx0 = ""%string -> nth_error h2 x = Some mx ->
         (x = p /\ String.eqb (n_name n) "" = true /\ n_name mx = auto_name (next_uid g)) \/
         (In x H /\ exists m u, nth_error (heap g) x = Some m /\ n_name m = n_name mx /\ u < next_uid g /\ n_name m = auto_name u)).
      { intros x mx0 mx Hx Ex0 Nx Ex. destruct (hi_heap _ _ _ I x mx0 Ex0) as (m & Em & _ & _ & _ & _ & _ & _ & _ & F8 & F9).
        rewrite X, Em in Ex. injection Ex as <-. cbn [added n_name].
        destruct (existsb (Nat.eqb x) H) eqn:Ee.
        - right. split; [apply existsb_exists in Ee as (y & Hy & Ey); apply Nat.eqb_eq in Ey; now subst|].
          destruct (F9 Nx eq_refl) as (u & Hu & Eu). exists m, u. split; [exact Em|]. split; [|auto].
          rewrite Eu, auto_name_nonempty, andb_false_r. reflexivity.
        - left. apply in_app_or in Hx as [Hx|[<-|[]]].
          + assert (existsb (Nat.eqb x) H = true); [|congruence]. apply existsb_exists. exists x. split; [exact Hx|apply Nat.eqb_refl].
          + split; [reflexivity|]. rewrite En in Em. injection Em as <-. rewrite (F8 Nx eq_refl), Nat.eqb_refl. split; reflexivity. }
      intros x y mx0 my0 mx my Hxy Hx Hy Ex0 Ey0 Nx Ny Ex Ey Heq.
      destruct (Old x mx0 mx Hx Ex0 Nx Ex) as [(-> & Ux & Vx)|(Ix & m & u & Em & Wx & Hu & Vx)];
        destruct (Old y my0 my Hy Ey0 Ny Ey) as [(-> & Uy & Vy)|(Iy & m' & u' & Em' & Wy & Hu' & Vy)].
      * contradiction.
      * rewrite Vx in Heq. assert (E2 : auto_name (next_uid g) = auto_name u') by congruence.
        apply auto_name_inj in E2. lia.
      * assert (E2 : auto_name (next_uid g) = auto_name u) by congruence. apply auto_name_inj in E2. lia.
      * apply (hi_names _ _ _ I x y mx0 my0 m m' Hxy Ix Iy Ex0 Ey0 Nx Ny Em Em'). congruence.
Qed.

Lemma history_start h0 : history_inv h0 [] (new_graph h0).
Proof.
  constructor; try reflexivity.
  - intros x m0 E. exists m0. cbn [new_graph heap nodes existsb flat_map next_uid]. rewrite app_nil_r.
    split; [exact E|]. split; [reflexivity|]. split; [reflexivity|]. split; [reflexivity|]. split; [reflexivity|].
    split; [reflexivity|]. split; [reflexivity|]. split; [auto|]. split; [auto|]. discriminate.
  - intros x y mx0 my0 mx my _ [].
Qed.

Lemma history_run h0 H : Forall (addable h0) H ->
  exists g, add_nodes (new_graph h0) (map Some H) = Ok g /\ history_inv h0 H g.
Proof.
  assert (Gen : forall rest done g, history_inv h0 done g -> Forall (addable h0) rest ->
    exists g', add_nodes g (map Some rest) = Ok g' /\ history_inv h0 (done ++ rest) g').
  { induction rest as [|p rest IH]; intros done g I F.
    - exists g. rewrite app_nil_r. auto.
    - inversion F as [|? ? F1 F2]; subst. unfold add_nodes. cbn [map foldm].
      destruct (history_step h0 done g p I F1) as (g1 & -> & I1). cbn [bind].
      destruct (IH _ _ I1 F2) as (g2 & E2 & I2). exists g2. split; [exact E2|]. now rewrite <- app_assoc in I2. }
  intros F. apply (Gen H [] _ (history_start h0) F).
Qed.

Lemma history_sound h0 H g : history_inv h0 H g ->
  NoDup H -> closed h0 H -> (forall n nd, In n H -> nth_error h0 n = Some nd -> n_layer nd <> None) ->
  (forall n nd, nth_error h0 n = Some nd -> n_backprop nd = []) -> sound g.
Proof.
  intros I Nd Cl Ly Bp.
  assert (Back : forall n nd, nth_error (heap g) n = Some nd -> exists m0, nth_error h0 n = Some m0).
  { intros n nd E. assert (Hl : n < length (heap g)) by (apply nth_error_Some; congruence).
    rewrite (hi_length _ _ _ I) in Hl. now apply nth_error_lt. }
  constructor; rewrite ?(hi_nodes _ _ _ I).
  - exact Nd.
  - intros n nd Hn E. destruct (Back n nd E) as (m0 & E0).
    destruct (hi_heap _ _ _ I n m0 E0) as (m & Em & El & _). rewrite E in Em. injection Em as <-. rewrite El. eauto.
  - intros n Hn. destruct (Cl n Hn) as (m0 & E0 & Hc). destruct (hi_heap _ _ _ I n m0 E0) as (m & Em & _ & _ & _ & _ & Ei & _).
    exists m. split; [exact Em|]. intros c Hc'. rewrite Ei in Hc'. destruct (existsb (Nat.eqb n) H); [|auto].
    apply in_map_iff in Hc' as (c0 & <- & Hc0). destruct (settled_parts h0 c0) as (-> & _). auto.
  - intros n nd E. destruct (Back n nd E) as (m0 & E0).
    destruct (hi_heap _ _ _ I n m0 E0) as (m & Em & _ & _ & _ & _ & _ & Eb & _). rewrite E in Em. injection Em as <-.
    rewrite Eb, (Bp n m0 E0). cbn [app]. rewrite (hi_nodes _ _ _ I).
    replace (flat_map (requests (heap g) n) H) with (flat_map (fun k => asks h0 n k (inputs_at h0 k)) H); [apply Permutation_refl|].
    assert (Ext : forall f1 f2 : nat -> list bconnection, (forall k, In k H -> f1 k = f2 k) -> flat_map f1 H = flat_map f2 H).
    { clear. induction H as [|k l IH]; intros f1 f2 Hf; [reflexivity|]. cbn [flat_map].
      rewrite Hf by now left. rewrite (IH f1 f2); [reflexivity|]. intros k' Hk'. apply Hf. now right. }
    apply Ext. intros k Hk. destruct (Cl k Hk) as (k0 & Ek0 & _).
    destruct (hi_heap _ _ _ I k k0 Ek0) as (mk & Emk & _ & _ & _ & _ & Ei & _).
    assert (Ex : existsb (Nat.eqb k) H = true) by (apply existsb_exists; exists k; split; [exact Hk|apply Nat.eqb_refl]).
    unfold requests, inputs_at. rewrite Emk, Ek0, Ei, Ex. apply asks_requests.
  - intros n nd E Hi. destruct (Back n nd E) as (m0 & E0).
    destruct (hi_heap _ _ _ I n m0 E0) as (m & Em & _ & _ & _ & Ein & _ & Eb & _). rewrite E in Em. injection Em as <-.
    rewrite Eb, (Bp n m0 E0). cbn [app].
    assert (Z : forall l, flat_map (fun k => asks h0 n k (inputs_at h0 k)) l = []); [|apply Z].
    assert (In0 : is_input_at h0 n = true) by (unfold is_input_at; rewrite E0; congruence).
    induction l as [|k l IH]; [reflexivity|]. cbn [flat_map]. rewrite IH, app_nil_r. unfold asks. rewrite In0.
    induction (inputs_at h0 k) as [|c cs IHc]; [reflexivity|]. cbn [filter]. rewrite andb_false_r. exact IHc.
Qed.

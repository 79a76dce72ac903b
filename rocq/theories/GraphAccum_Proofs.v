(** Proofs about the insertion of gradient accumulation nodes (C19). *)
From Coq Require Import String Relations Permutation.
From Verif Require Import Base BaseFacts Graph_Model Graph_Spec Graph_Proofs GraphAdd_Proofs.
Local Open Scope list_scope.

Definition bc_dec (x y : bconnection) : {x = y} + {x <> y}.
Proof. decide equality; apply Nat.eq_dec. Defined.

(** Buffers of node [t] from which the connections [cs] want gradients. *)
Definition wants (t : nat) (c : connection) : bool := ptr_eqb (c_node c) t && c_backprop c.
Definition buf_to (t : nat) (cs : list connection) : list nat := map c_buffer (filter (wants t) cs).
Definition bnode_cons (k : nat) (b : nat) : bconnection := mkB k b.

Lemma requests_buf h t k nd : nth_error h k = Some nd -> requests h t k = map (mkB k) (buf_to t (n_inputs nd)).
Proof. intros E. unfold requests. rewrite E. unfold buf_to. rewrite map_map. reflexivity. Qed.

Lemma buf_to_cons t c cs : buf_to t (c :: cs) = if wants t c then c_buffer c :: buf_to t cs else buf_to t cs.
Proof. unfold buf_to. cbn [filter]. now destruct (wants t c). Qed.

Lemma wants_two p ga c : p <> ga -> wants p c = true -> wants ga c = false.
Proof.
  unfold wants, ptr_eqb. destruct (c_node c) as [q|]; [|discriminate]. intros Hne H. apply andb_prop in H as [H _].
  apply Nat.eqb_eq in H. subst q. now rewrite (proj2 (Nat.eqb_neq _ _) Hne).
Qed.

Notation cnt := (count_occ Nat.eq_dec).
Notation bcnt := (count_occ bc_dec).

Definition redirected (p ga : nat) (c c' : connection) : Prop :=
  c' = c \/ (wants p c = true /\ exists w, c' = mkConn (Some ga) w true).

Lemma redirect_spec p ga : p <> ga -> forall cs v b cs' v' b',
  redirect p ga cs v b = (cs', v', b') ->
  exists j, b' = b + j /\
    (forall w, cnt (v' :: buf_to p cs ++ buf_to ga cs) w = cnt (v :: buf_to p cs' ++ buf_to ga cs') w) /\
    Permutation (buf_to ga cs') (buf_to ga cs ++ seq b j) /\
    (forall w, cnt (buf_to p cs') w <= cnt (buf_to p cs) w) /\
    cnt (buf_to p cs') v <= pred (cnt (buf_to p cs) v) /\
    Forall2 (redirected p ga) cs cs'.
Proof.
  intros Hne. induction cs as [|c cs IH]; intros v b cs' v' b' E; cbn [redirect] in E.
  - injection E as <- <- <-. exists 0. rewrite Nat.add_0_r. cbn. repeat split; auto.
  - destruct (ptr_eqb (c_node c) p && (c_buffer c =? v) && c_backprop c) eqn:M.
    + destruct (redirect p ga cs b (S b)) as [[r buf'] bb] eqn:Er. injection E as <- <- <-.
      destruct (IH _ _ _ _ _ Er) as (j & -> & H1 & H2 & H3 & H4 & H5).
      apply andb_prop in M as [M Mb]. apply andb_prop in M as [Mp Mv]. apply Nat.eqb_eq in Mv.
      assert (Wp : wants p c = true) by (unfold wants; now rewrite Mp, Mb).
      assert (Wg := wants_two p ga c Hne Wp).
      assert (Np : wants p (mkConn (Some ga) b true) = false).
      { unfold wants. cbn. rewrite andb_true_r. apply Nat.eqb_neq. congruence. }
      assert (Ng : wants ga (mkConn (Some ga) b true) = true).
      { unfold wants. cbn. now rewrite Nat.eqb_refl. }
      exists (S j). rewrite !buf_to_cons, Wp, Wg, Np, Ng. cbn [c_buffer]. rewrite Mv.
      split; [lia|]. split; [|split; [|split; [|split]]].
      * intros w. specialize (H1 w). cbn [app] in H1. cbn [count_occ app] in *. rewrite !count_occ_app in *.
        cbn [count_occ] in *. destruct (Nat.eq_dec v w), (Nat.eq_dec buf' w), (Nat.eq_dec b w); lia.
      * cbn [seq]. apply Permutation_cons_app. exact H2.
      * intros w. specialize (H3 w). cbn [count_occ]. destruct (Nat.eq_dec v w); lia.
      * specialize (H3 v). cbn [count_occ]. destruct (Nat.eq_dec v v); [|congruence]. cbn [pred]. exact H3.
      * constructor; [|exact H5]. right. split; [exact Wp|]. eauto.
    + destruct (redirect p ga cs v b) as [[r buf'] bb] eqn:Er. injection E as <- <- <-.
      destruct (IH _ _ _ _ _ Er) as (j & -> & H1 & H2 & H3 & H4 & H5). exists j. split; [reflexivity|].
      rewrite !buf_to_cons.
      assert (Hv : wants p c = true -> c_buffer c <> v).
      { intros W Hv. unfold wants in W. apply andb_prop in W as [W1 W2]. rewrite W1, W2, (proj2 (Nat.eqb_eq _ _) Hv) in M.
        discriminate. }
      split; [|split; [|split; [|split]]].
      * intros w. specialize (H1 w). cbn [app count_occ] in *.
        destruct (wants p c), (wants ga c); cbn [app count_occ]; rewrite !count_occ_app in *; cbn [count_occ] in *;
          destruct (Nat.eq_dec (c_buffer c) w), (Nat.eq_dec v w), (Nat.eq_dec buf' w); lia.
      * destruct (wants ga c); [|exact H2]. cbn [app]. now apply Permutation_cons.
      * intros w. specialize (H3 w). destruct (wants p c); [|exact H3]. cbn [count_occ]. destruct (Nat.eq_dec (c_buffer c) w); lia.
      * destruct (wants p c) eqn:W; [|exact H4]. cbn [count_occ]. destruct (Nat.eq_dec (c_buffer c) v); [|exact H4].
        exfalso. now apply Hv.
      * constructor; [now left|exact H5].
Qed.

(** All gradients wanted from [t] by the nodes [ns]. *)
Definition conns (h : list node) (t : nat) (ns : list nat) : list bconnection := flat_map (requests h t) ns.

Lemma conns_app h t a b : conns h t (a ++ b) = conns h t a ++ conns h t b.
Proof. apply flat_map_app. Qed.

Lemma flat_map_in_ext {A B} (f g : A -> list B) l : (forall x, In x l -> f x = g x) -> flat_map f l = flat_map g l.
Proof.
  induction l as [|x l IH]; intros H; [reflexivity|]. cbn [flat_map]. rewrite (H x) by now left.
  rewrite IH; [reflexivity|]. intros y Hy. apply H. now right.
Qed.

Lemma requests_upd_other h k m t x : x <> k -> requests (upd h k m) t x = requests h t x.
Proof. intros H. unfold requests. rewrite nth_error_upd_neq by congruence. reflexivity. Qed.

Lemma bcnt_map k l v : bcnt (map (mkB k) l) (mkB k v) = cnt l v.
Proof.
  induction l as [|x l IH]; [reflexivity|]. cbn [map count_occ]. rewrite IH.
  destruct (Nat.eq_dec x v), (bc_dec (mkB k x) (mkB k v)); congruence.
Qed.
Lemma bcnt_map_other k l bc : b_node bc <> k -> bcnt (map (mkB k) l) bc = 0.
Proof.
  intros H. induction l as [|x l IH]; [reflexivity|]. cbn [map count_occ].
  destruct (bc_dec (mkB k x) bc) as [<-|]; [cbn in H; congruence|exact IH].
Qed.

Record loop_inv (p ga : nat) (ns : list nat) (h1 : list node) (h : list node) (b : nat)
  (acc pending : list bconnection) : Prop := mkLoop {
  li_count : forall bc, bcnt (pending ++ acc) bc = bcnt (conns h p ns ++ conns h ga ns) bc;
  li_left : forall bc, bcnt (conns h p ns) bc <= bcnt pending bc;
  li_outputs : Permutation (map b_buffer (conns h ga ns)) (seq 0 b);
  li_length : length h = length h1;
  li_heap : forall x m, nth_error h1 x = Some m -> exists cs, nth_error h x = Some (set_inputs m cs) /\
     Forall2 (redirected p ga) (n_inputs m) cs /\ (~ In x ns -> cs = n_inputs m) }.

Lemma redirected_trans p ga c1 c2 c3 : p <> ga -> redirected p ga c1 c2 -> redirected p ga c2 c3 -> redirected p ga c1 c3.
Proof.
  intros Hne [->|(W & w & ->)] [->|(W' & w' & ->)].
  - now left.
  - right. eauto.
  - right. eauto.
  - unfold wants in W'. cbn in W'. rewrite andb_true_r in W'. apply Nat.eqb_eq in W'. congruence.
Qed.
Lemma Forall2_trans {A} (R : A -> A -> Prop) : (forall x y z, R x y -> R y z -> R x z) ->
  forall a b c, Forall2 R a b -> Forall2 R b c -> Forall2 R a c.
Proof.
  intros T a b c H. revert c. induction H as [|x y a b Hxy H IH]; intros c H2; inversion H2; subst; constructor; eauto.
Qed.

Lemma conns_split h t n1 k n2 : conns h t (n1 ++ k :: n2) = conns h t n1 ++ requests h t k ++ conns h t n2.
Proof. rewrite conns_app. reflexivity. Qed.

Lemma conns_upd h k m t n1 n2 : NoDup (n1 ++ k :: n2) -> k < length h ->
  conns (upd h k m) t (n1 ++ k :: n2) = conns h t n1 ++ map (mkB k) (buf_to t (n_inputs m)) ++ conns h t n2.
Proof.
  intros Nd Hk. rewrite conns_split. apply NoDup_remove_2 in Nd.
  f_equal; [|f_equal].
  - apply flat_map_in_ext. intros x Hx. apply requests_upd_other. intros ->. apply Nd. apply in_or_app. now left.
  - apply requests_buf. now apply nth_error_upd_eq.
  - apply flat_map_in_ext. intros x Hx. apply requests_upd_other. intros ->. apply Nd. apply in_or_app. now right.
Qed.

Lemma redirect_loop p ga ns h1 : p <> ga -> NoDup ns -> (forall x, In x ns -> x < length h1) ->
  forall pending h b acc,
  loop_inv p ga ns h1 h b acc pending ->
  (forall bc, In bc pending -> In (b_node bc) ns /\ b_node bc <> ga) ->
  exists h' b' acc', foldm (redirect_one p ga) pending (h, b, acc) = Ok (h', b', acc') /\
    loop_inv p ga ns h1 h' b' acc' [] /\ (forall bc, In bc acc' -> In bc acc \/ In (b_node bc) ns).
Proof.
  intros Hne Nd Hns. induction pending as [|bc pending IH]; intros h b acc I Hp.
  - exists h, b, acc. split; [reflexivity|]. split; [exact I|]. auto.
  - cbn [foldm]. unfold redirect_one at 1. destruct bc as [k v].
    destruct (Hp (mkB k v) (or_introl eq_refl)) as [Hk Hkga]. cbn [b_node b_buffer] in *.
    rewrite (proj2 (Nat.eqb_neq _ _) Hkga).
    assert (Hkl : k < length h) by (rewrite (li_length _ _ _ _ _ _ _ _ I); auto).
    destruct (nth_error_lt h Hkl) as (m & Em). rewrite (load_ok _ _ _ Em). cbn [bind].
    destruct (redirect p ga (n_inputs m) v b) as [[cs v'] b'] eqn:Er. cbn [bind].
    destruct (redirect_spec p ga Hne _ _ _ _ _ _ Er) as (j & -> & R1 & R2 & R3 & R4 & R5).
    assert (Hin : In k ns) by exact Hk. apply in_split in Hk as (n1 & n2 & Ens).
    set (h' := upd h k (set_inputs m cs)).
    assert (C : forall t, conns h' t ns = conns h t n1 ++ map (mkB k) (buf_to t cs) ++ conns h t n2).
    { intros t. unfold h'. rewrite Ens. rewrite conns_upd; [reflexivity|now rewrite <- Ens|exact Hkl]. }
    assert (C0 : forall t, conns h t ns = conns h t n1 ++ map (mkB k) (buf_to t (n_inputs m)) ++ conns h t n2).
    { intros t. rewrite Ens, conns_split. now rewrite (requests_buf _ _ _ _ Em). }
    assert (I' : loop_inv p ga ns h1 h' (b + j) (acc ++ [mkB k v']) pending).
    { destruct I as [I1 I2 I3 I4 I5]. constructor.
      - intros bc. specialize (I1 bc). rewrite !C. rewrite !C0 in I1.
        cbn [app count_occ] in I1. rewrite !count_occ_app in *. cbn [count_occ].
        destruct (Nat.eq_dec (b_node bc) k) as [Ek|Ek].
        + destruct bc as [k' w]. cbn in Ek. subst k'. rewrite !bcnt_map in *. specialize (R1 w).
          cbn [app count_occ] in R1. rewrite !count_occ_app in R1.
          destruct (bc_dec (mkB k v) (mkB k w)) as [E1|E1], (bc_dec (mkB k v') (mkB k w)) as [E2|E2],
            (Nat.eq_dec v w) as [E3|E3], (Nat.eq_dec v' w) as [E4|E4]; try congruence; lia.
        + rewrite !bcnt_map_other in * by exact Ek.
          destruct (bc_dec (mkB k v) bc) as [<-|]; [now cbn in Ek|].
          destruct (bc_dec (mkB k v') bc) as [<-|]; [now cbn in Ek|]. lia.
      - intros bc. specialize (I2 bc). rewrite C. rewrite C0 in I2. cbn [count_occ] in I2. rewrite !count_occ_app in *.
        destruct (Nat.eq_dec (b_node bc) k) as [Ek|Ek].
        + destruct bc as [k' w]. cbn in Ek. subst k'. rewrite !bcnt_map in *.
          specialize (R3 w). destruct (bc_dec (mkB k v) (mkB k w)) as [E1|E1]; [|lia].
          assert (w = v) by congruence. subst w. destruct (cnt (buf_to p (n_inputs m)) v) eqn:Ec; [|lia].
          (* no connection left to redirect: others are of other nodes, which have none either *)
          assert (Z : forall l, ~ In k l -> bcnt (conns h p l) (mkB k v) = 0).
          { clear. induction l as [|x l IHl]; intros Hl; [reflexivity|]. change (conns h p (x :: l)) with (requests h p x ++ conns h p l).
            rewrite count_occ_app. rewrite IHl by (intros Hx; apply Hl; now right).
            assert (x <> k) by (intros ->; apply Hl; now left).
            unfold requests. destruct (nth_error h x); [|reflexivity]. rewrite Nat.add_0_r.
            induction (filter _ _) as [|c r IHr]; [reflexivity|]. cbn [map count_occ].
            destruct (bc_dec (mkB x (c_buffer c)) (mkB k v)); [congruence|exact IHr]. }
          rewrite Ens in Nd. apply NoDup_remove_2 in Nd.
          rewrite (Z n1), (Z n2) by (intros Hx; apply Nd; apply in_or_app; auto). lia.
        + rewrite !bcnt_map_other in * by exact Ek. destruct (bc_dec (mkB k v) bc) as [<-|]; [now cbn in Ek|]. lia.
      - rewrite C. rewrite C0 in I3. rewrite !map_app, !map_map in *. cbn [b_buffer] in *. rewrite map_id in *.
        rewrite seq_app. cbn [Nat.add]. rewrite <- I3. rewrite <- !app_assoc.
        apply Permutation_app_head. rewrite R2, <- app_assoc. apply Permutation_app_head. apply Permutation_app_comm.
      - unfold h'. now rewrite upd_length.
      - intros x mx Ex. destruct (I5 x mx Ex) as (csx & E5 & F5 & N5). unfold h'. rewrite nth_error_upd.
        destruct (k =? x) eqn:Ekx.
        + apply Nat.eqb_eq in Ekx. subst x. rewrite (proj2 (Nat.ltb_lt _ _) Hkl).
          rewrite Em in E5. injection E5 as ->. exists cs. split; [reflexivity|]. split; [|intros Hx; contradiction].
          cbn [set_inputs n_inputs] in R5. eapply Forall2_trans; [|exact F5|exact R5].
          intros c1 c2 c3. now apply redirected_trans.
        + exists csx. auto. }
    destruct (IH h' (b + j) (acc ++ [mkB k v']) I') as (h2 & b2 & acc2 & E2 & I2 & A2).
    { intros bc Hbc. apply Hp. now right. }
    exists h2, b2, acc2. split; [exact E2|]. split; [exact I2|].
    intros bc Hbc. destruct (A2 bc Hbc) as [Ha|Ha]; [|auto]. apply in_app_or in Ha as [Ha|[<-|[]]]; auto.
Qed.

Lemma redirect_loop_length p ga pending : forall h b acc h' b' acc',
  foldm (redirect_one p ga) pending (h, b, acc) = Ok (h', b', acc') ->
  (forall bc, In bc pending -> b_node bc <> ga) -> length acc' = length acc + length pending.
Proof.
  induction pending as [|bc pending IH]; intros h b acc h' b' acc' E Hp; cbn [foldm] in E.
  - injection E as <- <- <-. cbn. lia.
  - unfold redirect_one at 1 in E. rewrite (proj2 (Nat.eqb_neq _ _) (Hp bc (or_introl eq_refl))) in E.
    destruct (load h (b_node bc)) as [m| |]; try discriminate. cbn [bind] in E.
    destruct (redirect p ga (n_inputs m) (b_buffer bc) b) as [[cs v'] b2]. cbn [bind] in E.
    apply IH in E; [|intros; apply Hp; now right]. rewrite app_length in E. cbn in *. lia.
Qed.

(** What one insertion does. *)
Record inserted (g : graph) (p : nat) (n : node) (g' : graph) (ga : nat) : Prop := mkIns {
  ins_fresh : ga = length (heap g);
  ins_nodes : nodes g' = nodes g ++ [ga];
  ins_length : length (heap g') = S (length (heap g));
  ins_input : input_nodes g' = input_nodes g;
  ins_output : output_nodes g' = output_nodes g;
  ins_stat : stat_nodes g' = stat_nodes g;
  ins_loss : loss_nodes g' = loss_nodes g;
  ins_training : training_nodes g' = training_nodes g;
  ins_heap : forall x m, nth_error (heap g) x = Some m -> exists cs,
    nth_error (heap g') x = Some (set_inputs (set_backprop m (if x =? p then [mkB ga 0] else n_backprop m)) cs) /\
    Forall2 (redirected p ga) (n_inputs m) cs;
  ins_node : exists nm acc, nth_error (heap g') ga =
      Some (mkNode (Some accumulation_kind) [mkConn (Some p) 0 true] acc (length (n_backprop n)) nm false false) /\
    Permutation acc (conns (heap g') ga (nodes g));
  ins_none : conns (heap g') p (nodes g) = [];
  ins_outputs : Permutation (map b_buffer (conns (heap g') ga (nodes g))) (seq 0 (length (n_backprop n))) }.

Lemma valid_node g x : sound g -> In x (nodes g) -> x < length (heap g).
Proof. intros S Hx. destruct (sound_closed g S x Hx) as (m & E & _). apply nth_error_Some. congruence. Qed.

Lemma conns_ext h h' t ns : (forall x, In x ns -> inputs_at h x = inputs_at h' x) -> conns h t ns = conns h' t ns.
Proof.
  intros H. apply flat_map_in_ext. intros x Hx. specialize (H x Hx). unfold inputs_at in H. unfold requests.
  destruct (nth_error h x) as [a|], (nth_error h' x) as [b|]; first [rewrite H; reflexivity | rewrite <- H; reflexivity | reflexivity].
Qed.

Lemma Forall2_refl {A} (R : A -> A -> Prop) l : (forall x, R x x) -> Forall2 R l l.
Proof. intros H. induction l; constructor; auto. Qed.

Lemma insert_spec g b p n k :
  sound g -> In p (nodes g) -> nth_error (heap g) p = Some n -> n_layer n = Some k -> k_accumulation k = false ->
  1 < length (n_backprop n) ->
  exists g', insert_accumulation (g, b) p = Ok (g', false) /\ inserted g p n g' (length (heap g)).
Proof.
  intros S Hp En Ek Hk HL. unfold insert_accumulation. rewrite (load_ok _ _ _ En). cbn [bind]. rewrite Ek, Hk.
  rewrite (proj2 (Nat.ltb_lt _ _) HL). cbn [negb andb].
  set (ga := length (heap g)). set (L := n_backprop n) in *. set (gnode := accumulation_node p (length L)).
  set (h00 := heap g ++ [gnode]).
  assert (Hpga : p < ga) by (unfold ga; now apply valid_node).
  assert (Hpne : p <> ga) by lia.
  assert (E00 : nth_error h00 ga = Some gnode).
  { unfold h00, ga. rewrite nth_error_app2 by lia. now rewrite Nat.sub_diag. }
  assert (E00' : forall x m, nth_error (heap g) x = Some m -> nth_error h00 x = Some m).
  { intros x m E. unfold h00. rewrite nth_error_app1; [exact E|]. apply nth_error_Some. congruence. }
  assert (Lh : length h00 = Datatypes.S ga).
  { unfold h00, ga. rewrite app_length. cbn. lia. }
  assert (Pin : is_input_at h00 p = false).
  { unfold is_input_at. rewrite (E00' p n En). destruct (n_is_input n) eqn:Ei; [|reflexivity].
    apply (sound_inputs g S p n En) in Ei. fold L in Ei. rewrite Ei in HL. cbn in HL. lia. }
  destruct (add_node_spec (with_heap g h00) ga gnode accumulation_kind E00 eq_refl) as (h1 & E1 & L1 & X1).
  { intros c [<-|[]] _. exists p. split; [reflexivity|]. cbn [with_heap heap]. lia. }
  rewrite E1. cbn [bind heap nodes].
  cbn [with_heap heap nodes input_nodes output_nodes stat_nodes loss_nodes training_nodes next_uid gnode accumulation_node
       n_is_input n_is_output accumulation_kind k_stat k_loss k_training n_name] in E1, X1, L1 |- *.
  set (nm := auto_name (next_uid g)).
  assert (Asks : forall x, asks h00 x ga (inputs_at h00 ga) = if x =? p then [mkB ga 0] else []).
  { intros x. unfold inputs_at. rewrite E00. unfold gnode, accumulation_node, asks. cbn [n_inputs filter c_node c_backprop ptr_eqb].
    rewrite (Nat.eqb_sym p x). destruct (x =? p) eqn:Ex; [|reflexivity]. apply Nat.eqb_eq in Ex. subst x. rewrite Pin. reflexivity. }
  assert (H1 : forall x m, nth_error (heap g) x = Some m ->
     nth_error h1 x = Some (set_backprop m (n_backprop m ++ if x =? p then [mkB ga 0] else []))).
  { intros x m E. rewrite X1, (E00' x m E). cbn [option_map]. f_equal. unfold added. rewrite Asks.
    assert (x < ga) by (apply nth_error_Some; congruence). rewrite (proj2 (Nat.eqb_neq x ga)) by lia.
    reflexivity. }
  assert (H1ga : nth_error h1 ga = Some (mkNode (Some accumulation_kind) [mkConn (Some p) 0 true] [] (length L) nm false false)).
  { rewrite X1, E00. cbn [option_map]. f_equal. unfold added. rewrite Asks, Nat.eqb_refl.
    rewrite (proj2 (Nat.eqb_neq ga p)) by congruence. unfold gnode, accumulation_node.
    cbn [n_layer n_inputs n_backprop n_buffers n_name n_is_output n_is_input map app andb String.eqb].
    unfold settled. cbn [c_node c_backprop andb]. rewrite Pin. reflexivity. }
  rewrite (load_ok _ _ _ (H1 p n En)). cbn [bind set_backprop n_backprop]. rewrite Nat.eqb_refl.
  fold L.
  assert (Inp1 : forall x, In x (nodes g) -> inputs_at h1 x = inputs_at (heap g) x).
  { intros x Hx. pose proof (valid_node g x S Hx) as Hl. apply nth_error_lt in Hl as (m & Em).
    unfold inputs_at. rewrite (H1 x m Em), Em. reflexivity. }
  assert (Cp : Permutation L (conns h1 p (nodes g))).
  { rewrite (conns_ext h1 (heap g)) by exact Inp1. apply (sound_consistent g S p n En). }
  assert (Cga : conns h1 ga (nodes g) = []).
  { rewrite (conns_ext h1 (heap g)) by exact Inp1.
    destruct (conns (heap g) ga (nodes g)) as [|bc r] eqn:Ec; [reflexivity|]. exfalso.
    assert (Hin : In bc (conns (heap g) ga (nodes g))) by (rewrite Ec; now left).
    apply in_flat_map in Hin as (x & Hx & Hin). apply in_requests in Hin as (nd & c & End & Hc & Eg & _).
    destruct (sound_closed g S x Hx) as (nd' & End' & Hcs). assert (nd' = nd) by congruence. subst nd'.
    destruct (Hcs c Hc) as (q & Eq & Hq). apply (valid_node g q S) in Hq. assert (q = ga) by congruence. unfold ga in *. lia. }
  assert (PL : forall bc, In bc L -> In (b_node bc) (nodes g) /\ b_node bc <> ga).
  { intros bc Hbc. apply (Permutation_in _ Cp) in Hbc. apply in_flat_map in Hbc as (x & Hx & Hbc).
    apply in_requests in Hbc as (nd & c & _ & _ & _ & _ & ->). cbn [b_node]. split; [exact Hx|].
    apply (valid_node g x S) in Hx. unfold ga. lia. }
  assert (I0 : loop_inv p ga (nodes g) h1 h1 0 [] L).
  { constructor.
    - intros bc. rewrite Cga, !app_nil_r. now apply Permutation_count_occ.
    - intros bc. apply Nat.eq_le_incl. symmetry. now apply Permutation_count_occ.
    - rewrite Cga. constructor.
    - reflexivity.
    - intros x m E. exists (n_inputs m). split; [rewrite E; now destruct m|]. split; [|auto].
      apply Forall2_refl. intros c. now left. }
  destruct (redirect_loop p ga (nodes g) h1 Hpne (sound_once g S)) with (pending := L) (h := h1) (b := 0) (acc := @nil bconnection)
    as (h2 & b2 & acc & E2 & I2 & A2); [|exact I0|exact PL|].
  { intros x Hx. apply (valid_node g x S) in Hx. unfold ga in *. lia. }
  rewrite foldm_app, E2. cbn [bind foldm]. unfold redirect_one. cbn [b_node]. rewrite Nat.eqb_refl. cbn [bind].
  assert (La : length acc = length L).
  { apply (redirect_loop_length _ _ _ _ _ _ _ _ _ E2). intros bc Hbc. now apply PL. }
  destruct (li_heap _ _ _ _ _ _ _ _ I2 ga _ H1ga) as (csg & Eg & _ & Ng).
  rewrite Ng in Eg by (intros Hx; apply (valid_node g ga S) in Hx; unfold ga in Hx; lia).
  unfold set_inputs in Eg. cbn [n_layer n_inputs n_backprop n_buffers n_name n_is_output n_is_input] in Eg.
  rewrite (load_ok _ _ _ Eg). cbn [bind set_backprop n_layer n_inputs n_backprop n_buffers n_name n_is_output n_is_input app].
  set (gn := mkNode (Some accumulation_kind) [mkConn (Some p) 0 true] acc (length L) nm false false).
  destruct (li_heap _ _ _ _ _ _ _ _ I2 p _ (H1 p n En)) as (csp & Epp & Fp & _).
  assert (Lh2 : length h2 = Datatypes.S ga) by (rewrite (li_length _ _ _ _ _ _ _ _ I2); congruence).
  assert (Ep3 : nth_error (upd h2 ga gn) p = nth_error h2 p) by (apply nth_error_upd_neq; congruence).
  rewrite Epp in Ep3.
  match goal with |- context [upd h2 ga ?e] => change e with gn end. rewrite (load_ok _ _ _ Ep3). cbn [bind].
  match goal with |- context [filter ?f (n_backprop ?e)] =>
    change (n_backprop e) with (L ++ (if p =? p then [mkB ga 0] else [])) end.
  rewrite Nat.eqb_refl.
  assert (Fl : filter (fun bc => b_node bc =? ga) (L ++ [mkB ga 0]) = [mkB ga 0]).
  { rewrite filter_app. cbn [filter b_node]. rewrite Nat.eqb_refl.
    assert (Z : filter (fun bc => b_node bc =? ga) L = []); [|now rewrite Z].
    clear - PL. induction L as [|bc l IH]; [reflexivity|]. cbn [filter].
    rewrite (proj2 (Nat.eqb_neq _ _)) by (apply PL; now left). apply IH. intros; apply PL; now right. }
  rewrite Fl. set (pn := set_backprop _ [mkB ga 0]).
  set (h4 := upd (upd h2 ga gn) p pn).
  eexists. split; [reflexivity|].
  assert (G4 : nth_error h4 ga = Some gn).
  { unfold h4. rewrite nth_error_upd_neq by congruence. apply nth_error_upd_eq. lia. }
  assert (H4 : forall x m, nth_error (heap g) x = Some m -> exists cs,
    nth_error h4 x = Some (set_inputs (set_backprop m (if x =? p then [mkB ga 0] else n_backprop m)) cs) /\
    Forall2 (redirected p ga) (n_inputs m) cs /\ inputs_at h4 x = inputs_at h2 x).
  { intros x m E. assert (Hx : x < ga) by (apply nth_error_Some; congruence).
    destruct (li_heap _ _ _ _ _ _ _ _ I2 x _ (H1 x m E)) as (cs & Ec & Fc & _).
    exists cs. unfold inputs_at. rewrite Ec. destruct (x =? p) eqn:Ex.
    - apply Nat.eqb_eq in Ex. subst x.
      assert (E4 : nth_error h4 p = Some pn) by (unfold h4; apply nth_error_upd_eq; rewrite upd_length; lia).
      rewrite E4. rewrite Epp in Ec. assert (Ecs : csp = cs) by (injection Ec; auto).
      assert (m = n) by congruence. subst m.
      split; [unfold pn, set_inputs, set_backprop; cbn [n_layer n_inputs n_backprop n_buffers n_name n_is_output n_is_input]; now rewrite Ecs|].
      split; [exact Fc|]. unfold pn, set_inputs, set_backprop; cbn [n_inputs]. exact Ecs.
    - apply Nat.eqb_neq in Ex.
      assert (E4 : nth_error h4 x = nth_error h2 x) by (unfold h4; rewrite !nth_error_upd_neq by lia; reflexivity).
      rewrite E4, Ec. split; [|split; [exact Fc|reflexivity]]. rewrite app_nil_r. reflexivity. }
  assert (C4 : forall t, conns h4 t (nodes g) = conns h2 t (nodes g)).
  { intros t. apply conns_ext. intros x Hx. pose proof (valid_node g x S Hx) as Hl. apply nth_error_lt in Hl as (m & Em).
    now destruct (H4 x m Em) as (_ & _ & _ & ?). }
  assert (PA : Permutation acc (conns h2 ga (nodes g)) /\ conns h2 p (nodes g) = []).
  { assert (Z : conns h2 p (nodes g) = []).
    { apply (count_occ_inv_nil bc_dec). intros bc. pose proof (li_left _ _ _ _ _ _ _ _ I2 bc) as Hb. cbn in Hb. lia. }
    split; [|exact Z]. apply (Permutation_count_occ bc_dec). intros bc.
    pose proof (li_count _ _ _ _ _ _ _ _ I2 bc) as Hb. rewrite Z in Hb. exact Hb. }
  destruct PA as [PA PZ].
  constructor; cbn [with_heap heap nodes input_nodes output_nodes stat_nodes loss_nodes training_nodes]; try reflexivity.
  - unfold h4. rewrite !upd_length. exact Lh2.
  - intros x m E. destruct (H4 x m E) as (cs & ? & ? & _). eauto.
  - exists nm, acc. rewrite C4. split; [exact G4|exact PA].
  - now rewrite C4.
  - rewrite C4. pose proof (li_outputs _ _ _ _ _ _ _ _ I2) as Ho.
    assert (b2 = length L); [|now subst b2].
    apply Permutation_length in Ho. rewrite map_length, seq_length in Ho. apply Permutation_length in PA. congruence.
Qed.

(** A redirected connection leads where the old one did, or to [ga] instead of [p]. *)
Lemma redirected_other p ga t cs cs' : t <> p -> t <> ga -> Forall2 (redirected p ga) cs cs' -> buf_to t cs' = buf_to t cs.
Proof.
  intros Hp Hg H. induction H as [|c c' cs cs' Hc H IH]; [reflexivity|]. rewrite !buf_to_cons, IH.
  destruct Hc as [->|(W & w & ->)]; [reflexivity|]. rewrite (wants_two p t c) by auto.
  unfold wants. cbn. rewrite (proj2 (Nat.eqb_neq _ _)) by congruence. reflexivity.
Qed.

Lemma in_buf_to t cs c : In c cs -> wants t c = true -> buf_to t cs <> [].
Proof.
  intros Hi W E. assert (Hf : In (c_buffer c) (buf_to t cs)) by (apply in_map, filter_In; auto). rewrite E in Hf. exact Hf.
Qed.

Section Inserted.
Variables (g : graph) (p : nat) (n : node) (g' : graph) (ga : nat).
Hypothesis S : sound g.
Hypothesis Hp : In p (nodes g).
Hypothesis En : nth_error (heap g) p = Some n.
Hypothesis HL : 1 < length (n_backprop n).
Hypothesis I : inserted g p n g' ga.

Lemma ga_new : ~ In ga (nodes g).
Proof using S I. intros H. apply (valid_node g ga S) in H. rewrite (ins_fresh _ _ _ _ _ I) in H. exact (Nat.lt_irrefl _ H). Qed.
Lemma ga_not_p : ga <> p.
Proof using S Hp I. intros E. apply ga_new. rewrite E. exact Hp. Qed.

Lemma back_heap x m : nth_error (heap g') x = Some m -> x = ga \/ exists m0, nth_error (heap g) x = Some m0.
Proof using I.
  intros E. destruct (Nat.eq_dec x ga) as [|Hx]; [now left|]. right. apply nth_error_lt.
  assert (Hl : x < length (heap g')) by (apply nth_error_Some; congruence).
  rewrite (ins_length _ _ _ _ _ I) in Hl. pose proof (ins_fresh _ _ _ _ _ I). clear HL. lia.
Qed.

Lemma requests_kept t x : t <> p -> t <> ga -> In x (nodes g) -> requests (heap g') t x = requests (heap g) t x.
Proof using S I.
  intros Ht Hg Hx. pose proof (valid_node g x S Hx) as Hl. apply nth_error_lt in Hl as (m & Em).
  destruct (ins_heap _ _ _ _ _ I x m Em) as (cs & Ec & Fc).
  rewrite (requests_buf _ _ _ _ Em), (requests_buf _ _ _ _ Ec). cbn [set_inputs n_inputs].
  f_equal. now apply (redirected_other p ga).
Qed.

Lemma requests_of_ga t : requests (heap g') t ga = if t =? p then [mkB ga 0] else [].
Proof using I.
  destruct (ins_node _ _ _ _ _ I) as (nm & acc & E & _). unfold requests. rewrite E. cbn [n_inputs filter c_node c_backprop ptr_eqb].
  rewrite (Nat.eqb_sym p t). now destruct (t =? p).
Qed.

Lemma inserted_sound : sound g'.
Proof using S Hp En HL I.
  destruct (ins_node _ _ _ _ _ I) as (nm & acc & Eg & Pa). pose proof ga_new as Hnew. pose proof ga_not_p as Hgp.
  constructor; rewrite ?(ins_nodes _ _ _ _ _ I).
  - apply NoDup_app_iff || idtac. assert (Nd := sound_once g S). revert Nd Hnew. clear. induction (nodes g) as [|x l IH]; intros Nd Hn.
    + constructor; [intros []|constructor].
    + inversion Nd; subst. cbn [app]. constructor.
      * intros Hx. apply in_app_or in Hx as [Hx|[->|[]]]; [contradiction|]. apply Hn. now left.
      * apply IH; [assumption|]. intros Hx. apply Hn. now right.
  - intros x m Hx E. apply in_app_or in Hx as [Hx|[<-|[]]]; [|rewrite Eg in E; injection E as <-; discriminate].
    pose proof (valid_node g x S Hx) as Hl. apply nth_error_lt in Hl as (m0 & Em).
    destruct (ins_heap _ _ _ _ _ I x m0 Em) as (cs & Ec & _). rewrite E in Ec. injection Ec as ->. cbn.
    apply (sound_layer g S x m0 Hx Em).
  - intros x Hx. apply in_app_or in Hx as [Hx|[<-|[]]].
    + destruct (sound_closed g S x Hx) as (m & Em & Hc). destruct (ins_heap _ _ _ _ _ I x m Em) as (cs & Ec & Fc).
      eexists. split; [exact Ec|]. cbn [set_inputs n_inputs]. intros c Hi.
      clear Ec. induction Fc as [|c0 c' cs0 cs' Hcc Fc IH]; [destruct Hi|].
      destruct Hi as [<-|Hi]; [|apply IH; [|exact Hi]; intros; apply Hc; now right].
      destruct Hcc as [->|(_ & w & ->)].
      * destruct (Hc c0) as (q & ? & ?); [now left|]. exists q. split; [assumption|]. apply in_or_app. now left.
      * exists ga. split; [reflexivity|]. apply in_or_app. right. now left.
    + eexists. split; [exact Eg|]. cbn. intros c [<-|[]]. exists p. split; [reflexivity|]. apply in_or_app. now left.
  - intros x m E. rewrite (ins_nodes _ _ _ _ _ I), flat_map_app. cbn [flat_map]. rewrite app_nil_r, requests_of_ga.
    destruct (Nat.eq_dec x ga) as [->|Hxg].
    + rewrite Eg in E. injection E as <-. cbn [n_backprop]. rewrite (proj2 (Nat.eqb_neq _ _) Hgp), app_nil_r. exact Pa.
    + destruct (back_heap x m E) as [?|(m0 & E0)]; [contradiction|].
      destruct (ins_heap _ _ _ _ _ I x m0 E0) as (cs & Ec & _). rewrite E in Ec. injection Ec as ->. cbn [set_inputs set_backprop n_backprop].
      destruct (x =? p) eqn:Ex.
      * apply Nat.eqb_eq in Ex. subst x. pose proof (ins_none _ _ _ _ _ I) as Z. unfold conns in Z. rewrite Z. constructor; constructor.
      * apply Nat.eqb_neq in Ex. rewrite app_nil_r. rewrite (sound_consistent g S x m0 E0).
        rewrite (flat_map_in_ext (requests (heap g') x) (requests (heap g) x)); [apply Permutation_refl|].
        intros y Hy. now apply requests_kept.
  - intros x m E Hi. destruct (back_heap x m E) as [->|(m0 & E0)].
    + rewrite Eg in E. injection E as <-. discriminate.
    + destruct (ins_heap _ _ _ _ _ I x m0 E0) as (cs & Ec & _). rewrite E in Ec. injection Ec as ->.
      cbn [set_inputs set_backprop n_backprop n_is_input] in *.
      pose proof (sound_inputs g S x m0 E0 Hi) as Hb. destruct (x =? p) eqn:Ex; [|exact Hb].
      exfalso. apply Nat.eqb_eq in Ex. subst x. assert (m0 = n) by congruence. subst m0.
      rewrite Hb in HL. cbn in HL. lia.
Qed.

(** The node a path through the accumulation node stands for. *)
Definition origin (x : nat) : nat := if x =? ga then p else x.

Lemma edge_origin x y : In x (nodes g') -> reads (heap g') x y ->
  In y (nodes g') /\ (reads (heap g) (origin x) (origin y) \/ (x = ga /\ y = p)).
Proof using S Hp En HL I.
  intros Hx (m & c & Em & Hc & Ec). pose proof inserted_sound as S'. split.
  { destruct (sound_closed g' S' x Hx) as (m' & Em' & Hcs). assert (m' = m) by congruence. subst m'.
    destruct (Hcs c Hc) as (q & Eq & Hq). congruence. }
  rewrite (ins_nodes _ _ _ _ _ I) in Hx. unfold origin.
  apply in_app_or in Hx as [Hx|[<-|[]]].
  - left. rewrite (proj2 (Nat.eqb_neq x ga)) by (intros ->; now apply ga_new).
    pose proof (valid_node g x S Hx) as Hl. apply nth_error_lt in Hl as (m0 & Em0).
    destruct (ins_heap _ _ _ _ _ I x m0 Em0) as (cs & Ecs & Fc). rewrite Em in Ecs. injection Ecs as ->.
    cbn [set_inputs n_inputs] in Hc.
    assert (Hc0 : exists c0, In c0 (n_inputs m0) /\ redirected p ga c0 c).
    { clear - Hc Fc. induction Fc as [|a b l l' Hab Fc IH]; [destruct Hc|]. destruct Hc as [<-|Hc].
      - exists a. split; [now left|exact Hab].
      - destruct (IH Hc) as (c0 & ? & ?). exists c0. split; [now right|assumption]. }
    destruct Hc0 as (c0 & Hc0 & [->|(W & w & ->)]).
    + destruct (sound_closed g S x Hx) as (m1 & Em1 & Hcs). assert (m1 = m0) by congruence. subst m1.
      destruct (Hcs c0 Hc0) as (q & Eq & Hq). assert (q = y) by congruence. subst q.
      rewrite (proj2 (Nat.eqb_neq y ga)) by (intros ->; now apply ga_new).
      exists m0, c0. auto.
    + cbn in Ec. injection Ec as <-. rewrite Nat.eqb_refl. unfold wants, ptr_eqb in W.
      destruct (c_node c0) as [q|] eqn:Eq; [|discriminate]. apply andb_prop in W as [W _]. apply Nat.eqb_eq in W. subst q.
      exists m0, c0. auto.
  - right. destruct (ins_node _ _ _ _ _ I) as (nm & acc & Eg & _). rewrite Em in Eg. injection Eg as ->.
    cbn in Hc. destruct Hc as [<-|[]]. cbn in Ec. split; congruence.
Qed.

Lemma inserted_acyclic : acyclic (reads (heap g)) (nodes g) -> acyclic (reads (heap g')) (nodes g').
Proof using S Hp En HL I.
  intros A x Hx Hc. pose proof ga_not_p as Hgp.
  assert (T : forall a b, clos_trans nat (reads (heap g')) a b -> In a (nodes g') ->
     In b (nodes g') /\ (clos_trans nat (reads (heap g)) (origin a) (origin b) \/ (a = ga /\ b = p))).
  { intros a b Hab. induction Hab as [a b Hab|a b c _ IH1 _ IH2]; intros Ha.
    - destruct (edge_origin a b Ha Hab) as [Hb [?|?]]; split; auto. left. now apply t_step.
    - destruct (IH1 Ha) as [Hb H1]. destruct (IH2 Hb) as [Hcn H2]. split; [exact Hcn|].
      assert (Eo : forall u v, u = ga /\ v = p -> origin u = origin v).
      { intros u v [-> ->]. unfold origin. rewrite Nat.eqb_refl. destruct (p =? ga); reflexivity. }
      destruct H1 as [H1|H1], H2 as [H2|H2].
      + left. eapply t_trans; eassumption.
      + left. now rewrite <- (Eo _ _ H2).
      + left. now rewrite (Eo _ _ H1).
      + exfalso. destruct H1, H2. congruence. }
  destruct (T x x Hc Hx) as [_ [H|[E1 E2]]]; [|congruence].
  apply (A (origin x)); [|exact H]. unfold origin. destruct (x =? ga) eqn:E; [exact Hp|].
  apply Nat.eqb_neq in E. rewrite (ins_nodes _ _ _ _ _ I) in Hx. apply in_app_or in Hx as [Hx|[<-|[]]]; [exact Hx|congruence].
Qed.
End Inserted.

Lemma Forall2_nth {A B} (R : A -> B -> Prop) l l' : Forall2 R l l' -> forall i c, nth_error l i = Some c ->
  exists c', nth_error l' i = Some c' /\ R c c'.
Proof.
  intros H. induction H as [|a b l l' Hab H IH]; intros [|i] c E; try discriminate; cbn in *; [|eauto].
  injection E as <-. eauto.
Qed.

Record swept (g0 : graph) (done : list nat) (g : graph) : Prop := mkSwept {
  sw_sound : sound g;
  sw_acyclic : acyclic (reads (heap g0)) (nodes g0) -> acyclic (reads (heap g)) (nodes g);
  sw_extra : exists extra, nodes g = nodes g0 ++ extra /\ forall x, In x extra -> is_accumulation (heap g) x = true /\
    exists n, In n (nodes g0) /\ In n done /\ shared (heap g0) n = true /\ accumulates g0 g n x;
  sw_registries : input_nodes g = input_nodes g0 /\ output_nodes g = output_nodes g0 /\ stat_nodes g = stat_nodes g0 /\
    loss_nodes g = loss_nodes g0 /\ training_nodes g = training_nodes g0;
  sw_heap : forall x m0, In x (nodes g0) -> nth_error (heap g0) x = Some m0 -> exists m, nth_error (heap g) x = Some m /\
    n_layer m = n_layer m0 /\ n_buffers m = n_buffers m0 /\ n_name m = n_name m0 /\ n_is_output m = n_is_output m0 /\
    n_is_input m = n_is_input m0 /\ length (n_inputs m) = length (n_inputs m0) /\
    (~ (In x done /\ shared (heap g0) x = true) -> n_backprop m = n_backprop m0);
  sw_conn : forall k i c, In k (nodes g0) -> connection_at (heap g0) k i = Some c ->
    (forall q, c_node c = Some q -> c_backprop c = true -> shared (heap g0) q = true -> ~ In q done) ->
    connection_at (heap g) k i = Some c;
  sw_acc : forall n, In n (nodes g0) -> In n done -> shared (heap g0) n = true -> exists ga, accumulates g0 g n ga }.

Lemma swept_start g : sound g -> swept g [] g.
Proof.
  intros S. constructor; auto.
  - exists []. rewrite app_nil_r. split; [reflexivity|]. intros x [].
  - intros x m0 Hx E. exists m0. auto 12.
  - intros n _ [].
Qed.

Lemma shared_kept g0 done g p : sound g0 -> swept g0 done g -> In p (nodes g0) -> ~ In p done ->
  shared (heap g) p = shared (heap g0) p /\ backprop_count (heap g) p = backprop_count (heap g0) p.
Proof.
  intros S0 W Hp Hd. unfold shared, is_accumulation, kind_at, backprop_count.
  destruct (nth_error_lt (heap g0) (valid_node g0 p S0 Hp)) as (m0 & E0). rewrite E0.
  destruct (sw_heap _ _ _ W p m0 Hp E0) as (m & -> & -> & _ & _ & _ & _ & _ & Hb).
  rewrite Hb by tauto. auto.
Qed.

(** What an insertion at [p] keeps of an accumulation node inserted before. *)
Lemma accumulates_kept g0 g p n g' ga x gx :
  sound g -> In p (nodes g) -> nth_error (heap g) p = Some n -> 1 < length (n_backprop n) -> inserted g p n g' ga ->
  In p (nodes g0) -> incl (nodes g0) (nodes g) -> x <> p -> In x (nodes g0) ->
  accumulates g0 g x gx -> accumulates g0 g' x gx.
Proof.
  intros S Hp En HL I Hp0 Hinc Hxp Hx (A1 & A2 & (nd & A3 & A4 & A5 & A6 & A6i & A6o) & (nx & A7 & A8) & A9 & A10).
  assert (Hgx : gx <> p) by (intros ->; contradiction).
  assert (Hgg : gx <> ga) by (intros ->; now apply (ga_new g p n g' ga S I)).
  unfold accumulates. rewrite (ins_nodes _ _ _ _ _ I). split; [apply in_or_app; now left|]. split; [exact A2|].
  split; [|split; [|split]].
  - destruct (ins_heap _ _ _ _ _ I gx nd A3) as (cs & Ec & Fc). eexists. split; [exact Ec|].
    cbn [set_inputs set_backprop n_layer n_inputs n_buffers n_is_input n_is_output]. split; [exact A4|]. split; [|auto].
    rewrite A5 in Fc. inversion Fc as [|c c' l l' Hc Hl]; subst. inversion Hl; subst.
    destruct Hc as [->|(W & _)]; [reflexivity|]. unfold wants in W. cbn in W. rewrite andb_true_r in W.
    apply Nat.eqb_eq in W. congruence.
  - destruct (ins_heap _ _ _ _ _ I x nx A7) as (cs & Ec & _). eexists. split; [exact Ec|].
    cbn [set_inputs set_backprop n_backprop]. now rewrite (proj2 (Nat.eqb_neq _ _) Hxp).
  - intros k i c Hk Ec Hc Hb. destruct (A9 k i c Hk Ec Hc Hb) as (b & Hbl & Eb). exists b. split; [exact Hbl|].
    unfold connection_at in *. destruct (nth_error (heap g) k) as [m|] eqn:Em; [|discriminate].
    destruct (ins_heap _ _ _ _ _ I k m Em) as (cs & Ecs & Fc). rewrite Ecs. cbn [set_inputs n_inputs].
    destruct (Forall2_nth _ _ _ Fc _ _ Eb) as (c' & Ec' & [->|(W & _)]); [exact Ec'|].
    unfold wants in W. cbn in W. rewrite andb_true_r in W. apply Nat.eqb_eq in W. congruence.
  - rewrite flat_map_app. cbn [flat_map]. rewrite app_nil_r, (requests_of_ga g p n g' ga I).
    rewrite (proj2 (Nat.eqb_neq _ _) Hgx), app_nil_r.
    rewrite (flat_map_in_ext (requests (heap g') gx) (requests (heap g) gx)); [exact A10|].
    intros y Hy. now apply (requests_kept g p n g' ga S I).
Qed.

Lemma swept_step g0 done g b p :
  sound g0 -> swept g0 done g -> In p (nodes g0) -> ~ In p done ->
  exists g' b', insert_accumulation (g, b) p = Ok (g', b') /\ swept g0 (done ++ [p]) g'.
Proof.
  intros S0 W Hp0 Hd. destruct (shared_kept g0 done g p S0 W Hp0 Hd) as [Sh Cn].
  destruct (sw_extra _ _ _ W) as (extra & Enodes & Hextra).
  pose proof (sw_sound _ _ _ W) as S.
  assert (Hinc : incl (nodes g0) (nodes g)) by (intros x Hx; rewrite Enodes; apply in_or_app; now left).
  assert (Hp : In p (nodes g)) by auto.
  destruct (nth_error_lt (heap g) (valid_node g p S Hp)) as (n & En).
  destruct (n_layer n) as [k|] eqn:Ek; [|exfalso; now apply (sound_layer g S p n Hp En)].
  assert (Esh : shared (heap g) p = (1 <? length (n_backprop n)) && negb (k_accumulation k)).
  { unfold shared, is_accumulation, kind_at, backprop_count. now rewrite En, Ek. }
  destruct (shared (heap g0) p) eqn:Es.
  - (* a shared node *)
    rewrite Esh in Sh. apply andb_prop in Sh as [HL Hk]. apply Nat.ltb_lt in HL. apply negb_true_iff in Hk.
    destruct (insert_spec g b p n k S Hp En Ek Hk HL) as (g' & E & I). set (ga := length (heap g)) in *.
    exists g', false. split; [exact E|].
    pose proof (ga_new g p n g' ga S I) as Hnew.
    assert (Hcount : length (n_backprop n) = backprop_count (heap g0) p).
    { rewrite <- Cn. unfold backprop_count. now rewrite En. }
    assert (Hacc : accumulates g0 g' p ga).
    { unfold accumulates. rewrite (ins_nodes _ _ _ _ _ I).
      destruct (ins_node _ _ _ _ _ I) as (nm & acc & Eg & Pa).
      split; [apply in_or_app; right; now left|]. split; [intros Hx'; apply Hnew, Hinc, Hx'|].
      split; [|split; [|split]].
      -- eexists. split; [exact Eg|]. cbn. auto.
      -- destruct (ins_heap _ _ _ _ _ I p n En) as (cs & Ec & _). eexists. split; [exact Ec|].
         cbn [set_inputs set_backprop n_backprop]. now rewrite Nat.eqb_refl.
      -- intros j i c Hj Ec Hcn Hcb.
         assert (Ec1 : connection_at (heap g) j i = Some c).
         { apply (sw_conn _ _ _ W j i c Hj Ec). intros q E1 _ _ E4. assert (q = p) by congruence. subst q. contradiction. }
         unfold connection_at in *. destruct (nth_error (heap g) j) as [m|] eqn:Em; [|discriminate].
         destruct (ins_heap _ _ _ _ _ I j m Em) as (cs & Ecs & Fc). rewrite Ecs. cbn [set_inputs n_inputs].
         destruct (Forall2_nth _ _ _ Fc _ _ Ec1) as (c' & Ec' & [->|(Wc & w & ->)]).
         ++ exfalso. assert (Hz : In (mkB j (c_buffer c)) (conns (heap g') p (nodes g))).
            { apply in_flat_map. exists j. split; [now apply Hinc|]. apply in_requests. eexists. exists c.
              split; [exact Ecs|]. cbn [set_inputs n_inputs]. split; [eapply nth_error_In; exact Ec'|]. auto. }
            rewrite (ins_none _ _ _ _ _ I) in Hz. exact Hz.
         ++ exists w. split; [|exact Ec'].
            assert (Hz : In w (map b_buffer (conns (heap g') ga (nodes g)))).
            { apply in_map_iff. exists (mkB j w). split; [reflexivity|]. apply in_flat_map. exists j. split; [now apply Hinc|].
              apply in_requests. eexists. exists (mkConn (Some ga) w true). split; [exact Ecs|]. cbn [set_inputs n_inputs].
              split; [eapply nth_error_In; exact Ec'|]. auto. }
            apply (Permutation_in _ (ins_outputs _ _ _ _ _ I)) in Hz. apply in_seq in Hz. lia.
      -- rewrite flat_map_app. cbn [flat_map]. rewrite app_nil_r, (requests_of_ga g p n g' ga I).
         rewrite (proj2 (Nat.eqb_neq ga p)) by (intros E1; apply Hnew; now rewrite E1).
         rewrite app_nil_r, <- Hcount. apply (ins_outputs _ _ _ _ _ I). }
    constructor.
    + now apply (inserted_sound g p n g' ga).
    + intros A. apply (inserted_acyclic g p n g' ga); auto. apply (sw_acyclic _ _ _ W A).
    + exists (extra ++ [ga]). rewrite (ins_nodes _ _ _ _ _ I), Enodes, <- app_assoc. split; [reflexivity|].
      intros x Hx. apply in_app_or in Hx as [Hx|[<-|[]]]; (split; [unfold is_accumulation, kind_at|]).
      * destruct (Hextra x Hx) as [Hxa _]. unfold is_accumulation, kind_at in Hxa.
        destruct (nth_error (heap g) x) as [m|] eqn:Em; [|discriminate].
        destruct (ins_heap _ _ _ _ _ I x m Em) as (cs & -> & _). exact Hxa.
      * destruct (Hextra x Hx) as (_ & y & Hy & Hyd & Hys & Hya). exists y. split; [exact Hy|].
        split; [apply in_or_app; now left|]. split; [exact Hys|]. apply (accumulates_kept g0 g p n g' ga y x); auto. intros ->. contradiction.
      * destruct (ins_node _ _ _ _ _ I) as (nm & acc & -> & _). reflexivity.
      * exists p. split; [exact Hp0|]. split; [apply in_or_app; right; now left|]. split; [exact Es|exact Hacc].
    + destruct (sw_registries _ _ _ W) as (R1 & R2 & R3 & R4 & R5).
      rewrite (ins_input _ _ _ _ _ I), (ins_output _ _ _ _ _ I), (ins_stat _ _ _ _ _ I), (ins_loss _ _ _ _ _ I), (ins_training _ _ _ _ _ I).
      auto.
    + intros x m0 Hx E0. destruct (sw_heap _ _ _ W x m0 Hx E0) as (m & Em & F1 & F2 & F3 & F4 & F5 & F6 & F7).
      destruct (ins_heap _ _ _ _ _ I x m Em) as (cs & Ec & Fc). eexists. split; [exact Ec|].
      cbn [set_inputs set_backprop n_layer n_inputs n_backprop n_buffers n_name n_is_output n_is_input].
      split; [exact F1|]. split; [exact F2|]. split; [exact F3|]. split; [exact F4|]. split; [exact F5|].
      split; [rewrite <- F6; symmetry; now apply Forall2_length in Fc|].
      intros Hn. destruct (x =? p) eqn:Ex.
      * exfalso. apply Nat.eqb_eq in Ex. subst x. apply Hn. split; [apply in_or_app; right; now left|exact Es].
      * apply F7. intros [H1 H2]. apply Hn. split; [apply in_or_app; now left|exact H2].
    + intros j i c Hj Ec Hq. unfold connection_at.
      assert (Ec1 : connection_at (heap g) j i = Some c).
      { apply (sw_conn _ _ _ W j i c Hj Ec). intros q E1 E2 E3 E4. apply (Hq q E1 E2 E3). apply in_or_app. now left. }
      unfold connection_at in Ec1. destruct (nth_error (heap g) j) as [m|] eqn:Em; [|discriminate].
      destruct (ins_heap _ _ _ _ _ I j m Em) as (cs & -> & Fc). cbn [set_inputs n_inputs].
      destruct (Forall2_nth _ _ _ Fc _ _ Ec1) as (c' & Ec' & [->|(Wc & _)]); [exact Ec'|]. exfalso.
      unfold wants, ptr_eqb in Wc. destruct (c_node c) as [q|] eqn:Eq; [|discriminate].
      apply andb_prop in Wc as [Wq Wb]. apply Nat.eqb_eq in Wq. subst q.
      apply (Hq p eq_refl Wb Es). apply in_or_app. right. now left.
    + intros x Hx Hxd Hxs. destruct (Nat.eq_dec x p) as [->|Hxp].
      * exists ga. exact Hacc.
      * apply in_app_or in Hxd as [Hxd|[?|[]]]; [|congruence].
        destruct (sw_acc _ _ _ W x Hx Hxd Hxs) as (gx & Ax). exists gx.
        apply (accumulates_kept g0 g p n g' ga x gx); auto.
  - (* not shared: nothing happens *)
    rewrite Esh in Sh. exists g, b. split.
    { unfold insert_accumulation. rewrite (load_ok _ _ _ En). cbn [bind]. now rewrite Ek, Sh. }
    destruct W as [W1 W2 W3 W4 W5 W6 W7]. constructor; auto.
    + destruct W3 as (ex & Ex & Hex). exists ex. split; [exact Ex|]. intros x Hx. destruct (Hex x Hx) as (Hx1 & y & Y1 & Y2 & Y3 & Y4).
      split; [exact Hx1|]. exists y. split; [exact Y1|]. split; [apply in_or_app; now left|]. auto.
    + intros x m0 Hx E0. destruct (W5 x m0 Hx E0) as (m & Em & F1 & F2 & F3 & F4 & F5 & F6 & F7).
      exists m. do 7 (split; [assumption|]). intros Hn. apply F7. intros [H1 H2]. apply Hn. split; [apply in_or_app; now left|exact H2].
    + intros j i c Hj Ec Hq. apply (W6 j i c Hj Ec). intros q E1 E2 E3 E4. apply (Hq q E1 E2 E3). apply in_or_app. now left.
    + intros x Hx Hxd Hxs. apply in_app_or in Hxd as [Hxd|[<-|[]]]; [now apply W7|congruence].
Qed.

Lemma sweep_all g0 : sound g0 -> forall rest done g b,
  swept g0 done g -> incl rest (nodes g0) -> NoDup rest -> (forall x, In x rest -> ~ In x done) ->
  exists g' b', foldm insert_accumulation rest (g, b) = Ok (g', b') /\ swept g0 (done ++ rest) g'.
Proof.
  intros S0. induction rest as [|p rest IH]; intros done g b W Hi Nd Hd.
  - exists g, b. rewrite app_nil_r. auto.
  - cbn [foldm]. inversion Nd; subst.
    destruct (swept_step g0 done g b p S0 W) as (g1 & b1 & -> & W1); [apply Hi; now left|apply Hd; now left|].
    cbn [bind]. destruct (IH (done ++ [p]) g1 b1 W1) as (g2 & b2 & E2 & W2); auto.
    + intros x Hx. apply Hi. now right.
    + intros x Hx Hx'. apply in_app_or in Hx' as [Hx'|[<-|[]]]; [|contradiction]. apply (Hd x); [now right|exact Hx'].
    + exists g2, b2. split; [exact E2|]. now rewrite <- app_assoc in W2.
Qed.

Lemma sweep_none g ps b : sound g -> incl ps (nodes g) -> (forall x, In x ps -> shared (heap g) x = false) ->
  foldm insert_accumulation ps (g, b) = Ok (g, b).
Proof.
  intros S. induction ps as [|p ps IH]; intros Hi Hs; [reflexivity|]. cbn [foldm].
  assert (Hp : In p (nodes g)) by (apply Hi; now left).
  destruct (nth_error_lt (heap g) (valid_node g p S Hp)) as (n & En).
  destruct (n_layer n) as [k|] eqn:Ek; [|exfalso; now apply (sound_layer g S p n Hp En)].
  assert (Esh := Hs p (or_introl eq_refl)). unfold shared, is_accumulation, kind_at, backprop_count in Esh. rewrite En, Ek in Esh.
  unfold insert_accumulation at 1. rewrite (load_ok _ _ _ En). cbn [bind]. rewrite Ek, Esh. cbn [bind].
  apply IH; [intros x Hx; apply Hi; now right|intros x Hx; apply Hs; now right].
Qed.

Lemma initialize_spec g0 fuel : sound g0 ->
  exists g, insert_sweeps (Datatypes.S (Datatypes.S fuel)) g0 = Ok g /\ swept g0 (nodes g0) g /\
    forall x, In x (nodes g) -> shared (heap g) x = false.
Proof.
  intros S0. destruct (sweep_all g0 S0 (nodes g0) [] g0 true (swept_start g0 S0) (incl_refl _) (sound_once g0 S0))
    as (g & b & E & W); [auto|]. cbn [app] in W.
  assert (N : forall x, In x (nodes g) -> shared (heap g) x = false).
  { destruct (sw_extra _ _ _ W) as (extra & En & He). intros x Hx. rewrite En in Hx. apply in_app_or in Hx as [Hx|Hx].
    - destruct (shared (heap g0) x) eqn:Es.
      + destruct (sw_acc _ _ _ W x Hx Hx Es) as (ga & _ & _ & _ & (nd & End & Hb) & _).
        unfold shared, backprop_count. rewrite End, Hb. reflexivity.
      + destruct (nth_error_lt (heap g0) (valid_node g0 x S0 Hx)) as (m0 & E0).
        destruct (sw_heap _ _ _ W x m0 Hx E0) as (m & Em & F1 & _ & _ & _ & _ & _ & F7).
        rewrite <- Es. unfold shared, is_accumulation, kind_at, backprop_count. rewrite Em, E0, F1, F7; [reflexivity|].
        intros [_ ?]. congruence.
    - unfold shared. rewrite (proj1 (He x Hx)). cbn [negb]. apply andb_false_r. }
  exists g. split; [|split; [exact W|exact N]].
  cbn [insert_sweeps]. rewrite E. cbn [bind]. destruct b; [reflexivity|].
  rewrite (sweep_none g (nodes g) true (sw_sound _ _ _ W) (incl_refl _) N). reflexivity.
Qed.

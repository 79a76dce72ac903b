(** Proofs for C80. *)
From Coq Require Import List Permutation.
From Verif Require Import Base BaseFacts Str_Model Config_Model Graph_Model Graph_Spec Graph_Props Init_Model Init_Spec.
Local Open Scope list_scope.
Local Open Scope nat_scope.

Section Init.
Context {D E : Type} (uniform : D -> D -> E -> D * E) (neg : D -> D) (range : Z -> D).
Notation glayer := (@glayer D E).
Notation on_layer_connect := (on_layer_connect uniform neg range).
Notation connect_node := (connect_node uniform neg range).
Notation draws := (draws uniform).

Scheme fan_ind2 := Minimality for fan Sort Prop with fans_ind2 := Minimality for fans Sort Prop.
Combined Scheme fan_mut from fan_ind2, fans_ind2.

Variables (g : graph) (kinds : list gkind).
Hypothesis Hs : Forall sensible kinds.

Lemma fan_nonneg : (forall n z, fan g kinds n z -> (0 <= z)%Z) /\ (forall ns z, fans g kinds ns z -> (0 <= z)%Z).
Proof.
  apply fan_mut.
  - intros n kw kh maps H. apply nth_error_In in H. rewrite Forall_forall in Hs. apply Hs in H. cbn in H. nia.
  - intros n rw rh z H _ IH. apply nth_error_In in H. rewrite Forall_forall in Hs. apply Hs in H. cbn in H. apply Z.div_pos; lia.
  - auto.
  - lia.
  - lia.
Qed.
Lemma fans_perm ns ns' z : Permutation ns ns' -> fans g kinds ns z -> fans g kinds ns' z.
Proof.
  intros P. revert z. induction P as [|x l l' _ IH|x y l|l1 l2 l3 _ IH1 _ IH2]; intros z H; auto.
  - inversion H as [|? ? a b Ha Hb]; subst. apply fans_cons; auto.
  - inversion H as [|? ? a u Ha H1]; subst. inversion H1 as [|? ? b v Hb H2]; subst. replace (a + (b + v))%Z with (b + (a + v))%Z by lia.
    apply fans_cons; [exact Hb|]. now apply fans_cons.
Qed.
Lemma fan_unique : (forall n z, fan g kinds n z -> forall z', fan g kinds n z' -> z' = z) /\ (forall ns z, fans g kinds ns z -> forall z', fans g kinds ns z' -> z' = z).
Proof.
  apply fan_mut.
  - intros n kw kh maps H z' H'. inversion H'; subst; congruence.
  - intros n rw rh z H _ IH z' H'. inversion H' as [? ? ? ? H1|? rw' rh' z1 H1 H2|? ? H1]; subst; try congruence. rewrite (IH _ H2). congruence.
  - intros n z H _ IH z' H'. inversion H' as [? ? ? ? H1|? rw' rh' z1 H1 H2|? ? H1 H2]; subst; try congruence. auto.
  - intros z' H'. now inversion H'.
  - intros n ns z zs _ IH1 _ IH2 z' H'. inversion H' as [|? ? a b H1 H2]; subst. now rewrite (IH1 _ H1), (IH2 _ H2).
Qed.

(** ** One layer *)
Definition knows (l : glayer) (n : nat) : Prop := exists z, fan g kinds n z /\ gain l = Ok z.
Lemma sum_known ls ns : Forall2 knows ls ns -> exists z, fans g kinds ns z /\
  forall acc, (0 <= acc)%Z -> (acc + z < 2 ^ 32)%Z -> foldm (fun acc l => g <- gain l ;; Ok (to_uint (acc + g))) ls acc = Ok (acc + z)%Z.
Proof.
  induction 1 as [|l n ls ns (z & F & G) _ (zs & Fs & IH)].
  - exists 0%Z. split; [constructor|]. intros acc _ _. cbn [foldm]. now rewrite Z.add_0_r.
  - exists (z + zs)%Z. split; [now constructor|]. intros acc H0 H1. cbn [foldm]. rewrite G. cbn [bind]. pose proof (proj1 fan_nonneg n z F). pose proof (proj2 fan_nonneg ns zs Fs).
    unfold to_uint. rewrite Z.mod_small by lia. rewrite IH by lia. f_equal. lia.
Qed.
Lemma load_list (ls : list glayer) ts next : Forall2 (fun t l => nth_error ls t = Some l) ts next ->
  forall acc, foldm (fun acc t => l <- load ls t ;; Ok (acc ++ [l])) ts acc = Ok (acc ++ next).
Proof.
  induction 1 as [|t l ts next H _ IH]; intros acc; cbn [foldm]; [now rewrite app_nil_r|]. unfold load at 1. rewrite H. cbn [bind]. rewrite IH, <- app_assoc. reflexivity.
Qed.

(** What InitializeWeights does to the layer of a node. *)
Definition initialized (n : nat) (l l' : glayer) : Prop :=
  g_kind l' = g_kind l /\ g_rest l' = g_rest l /\ knows l' n /\
  match g_kind l with
  | GConv kw kh maps => g_gain l' = g_gain l /\ exists z, fans g kinds (consumers g n) z /\
      (g_weights l', g_engine l') = let r := range (z + kw * kh * maps) in draws (neg r) r (length (g_weights l)) (g_engine l)
  | _ => g_weights l' = g_weights l /\ g_engine l' = g_engine l
  end.
Hypothesis Hf : fits g kinds.

Lemma connect_ok n l next ts : In n (nodes g) -> nth_error kinds n = Some (g_kind l) -> Forall2 knows next ts -> Permutation ts (consumers g n) ->
  exists l', on_layer_connect l next = Ok l' /\ initialized n l l'.
Proof.
  intros Hn Hk F P. destruct (sum_known next ts F) as (z & Fz & Sum). apply (fans_perm _ _ _ P) in Fz. pose proof (Hf n _ z Hn Hk Fz) as Hz. pose proof (proj2 fan_nonneg _ _ Fz) as H0.
  assert (Hse : sensible (g_kind l)) by (rewrite Forall_forall in Hs; apply Hs; now apply nth_error_In in Hk).
  unfold Init_Model.on_layer_connect, sum_gains. rewrite Sum; [|lia|destruct (g_kind l); cbn [own_fan sensible] in *; nia]. cbn [bind]. rewrite Z.add_0_l.
  destruct l as [k gn ws rest e]. cbn [g_kind g_gain g_weights g_rest g_engine] in *. destruct k as [kw kh maps|rw rh|]; cbn [own_fan sensible] in *.
  - assert (Eg : gain (mkG (GConv kw kh maps) gn ws rest e) = Ok (kw * kh * maps)%Z).
    { unfold gain. cbn [g_kind]. unfold to_uint. rewrite (Z.mod_small (kw * kh)) by lia. rewrite Z.mod_small by nia. reflexivity. }
    rewrite Eg. cbn [bind]. unfold to_uint at 1 2. rewrite Z.mod_small by nia. set (r := range _). destruct (draws (neg r) r (length ws) e) as [ws' e'] eqn:Ed. 
    exists (mkG (GConv kw kh maps) gn ws' rest e'). split; [reflexivity|]. split; [reflexivity|]. split; [reflexivity|]. split.
    + exists (kw * kh * maps)%Z. split; [now apply fan_conv|]. exact Eg.
    + cbn [g_kind g_gain g_weights g_engine]. split; [reflexivity|]. exists z. split; [exact Fz|]. cbn zeta. fold r. now rewrite Ed.
  - eexists. split; [reflexivity|]. split; [reflexivity|]. split; [reflexivity|]. split; [|now split].
    exists (z / (rw * rh))%Z. split; [now apply fan_pool|]. unfold gain. cbn [g_kind g_gain]. unfold to_uint. rewrite Z.mod_small by lia.
    replace (rw * rh =? 0)%Z with false by (symmetry; apply Z.eqb_neq; lia). reflexivity.
  - eexists. split; [reflexivity|]. split; [reflexivity|]. split; [reflexivity|]. split; [|now split]. exists z. split; [now apply fan_other|reflexivity].
Qed.

(** ** The network *)
Hypothesis Hcl : closed (heap g) (nodes g).
Hypothesis Hk : consistent g.

Lemma targets n : In n (nodes g) -> exists ts, backprop_targets (heap g) n = Ok ts /\ Permutation ts (consumers g n) /\
  (forall t, In t ts -> In t (nodes g) /\ wants_gradient (heap g) t n).
Proof.
  intros Hn. destruct (Hcl n Hn) as (nd & En & _). unfold backprop_targets, load. rewrite En. cbn [bind]. exists (map b_node (n_backprop nd)).
  assert (P : Permutation (map b_node (n_backprop nd)) (consumers g n)) by (apply Permutation_map, (Hk n nd En)).
  split; [reflexivity|]. split; [exact P|]. intros t Ht. apply (Permutation_in t P) in Ht. unfold consumers in Ht. apply in_map_iff in Ht as (b & <- & Hb).
  apply in_flat_map in Hb as (k & Hkn & Hb). unfold requests in Hb. destruct (nth_error (heap g) k) as [ndk|] eqn:Ek; [|contradiction Hb].
  apply in_map_iff in Hb as (c & <- & Hc). apply filter_In in Hc as [Hc Hb]. cbn [b_node]. split; [exact Hkn|]. apply andb_prop in Hb as [H1 H2].
  exists ndk, c. repeat split; auto. unfold ptr_eqb in H1. destruct (c_node c) as [q|]; [|discriminate H1]. apply Nat.eqb_eq in H1. now subst.
Qed.

Lemma run_order (ls0 : list glayer) : map g_kind ls0 = kinds -> (forall n, In n (nodes g) -> n < length ls0) ->
  forall todo done ls, NoDup (done ++ todo) -> (forall n, In n (done ++ todo) -> In n (nodes g)) ->
    (forall n k, In n todo -> In k (nodes g) -> wants_gradient (heap g) k n -> before k n (done ++ todo)) ->
    length ls = length ls0 ->
    (forall n l, nth_error ls0 n = Some l -> exists l', nth_error ls n = Some l' /\ (In n done -> initialized n l l') /\ (~ In n done -> l' = l)) ->
    exists ls', foldm (connect_node (heap g)) todo ls = Ok ls' /\ length ls' = length ls0 /\
      forall n l, nth_error ls0 n = Some l -> exists l', nth_error ls' n = Some l' /\ (In n (done ++ todo) -> initialized n l l') /\ (~ In n (done ++ todo) -> l' = l).
Proof.
  intros Ek Hlen. induction todo as [|n todo IH]; intros done ls Nd Hin Hb Hl Inv.
  - exists ls. split; [reflexivity|]. split; [exact Hl|]. now rewrite app_nil_r.
  - cbn [foldm]. assert (Hn : In n (nodes g)) by (apply Hin, in_or_app; right; now left).
    assert (Nn : ~ In n done) by (intros H; apply NoDup_remove_2 in Nd; apply Nd, in_or_app; now left).
    destruct (nth_error ls0 n) as [l|] eqn:El; [|exfalso; apply nth_error_None in El; apply Hlen in Hn; lia].
    destruct (Inv n l El) as (l1 & El1 & _ & Same). rewrite (Same Nn) in El1. clear l1 Same.
    destruct (targets n Hn) as (ts & Et & P & Ht).
    assert (Known : exists next, Forall2 (fun t l => nth_error ls t = Some l) ts next /\ Forall2 knows next ts).
    { clear Et P. induction ts as [|t ts IHt]; [exists []; split; constructor|]. destruct IHt as (next & A1 & A2); [intros u Hu; apply Ht; now right|].
      destruct (Ht t (or_introl eq_refl)) as [Htn Hw]. assert (Hd : In t done).
      { destruct (Hb n t (or_introl eq_refl) Htn Hw) as (a & b & c & Eo). clear - Eo Nd.
        assert (E2 : (a ++ t :: b) = done).
        { assert (Eo' : done ++ n :: todo = (a ++ t :: b) ++ n :: c) by (rewrite <- app_assoc; exact Eo). revert Eo' Nd. generalize (a ++ t :: b). clear. intros x. revert done.
          induction x as [|y x IHx]; intros [|z done] Eo Nd; cbn in *; try reflexivity.
          - injection Eo as Ez _. exfalso. inversion Nd as [|? ? K _]. apply K, in_or_app. right. left. now symmetry.
          - injection Eo as Ez Et. exfalso. inversion Nd as [|? ? K _]. apply K. rewrite Et. apply in_or_app. right. now left.
          - injection Eo as Ez Et. inversion Nd as [|? ? _ Nd']. f_equal; [now symmetry|]. now apply (IHx done). }
        rewrite <- E2. apply in_or_app. right. now left. }
      destruct (nth_error ls0 t) as [lt|] eqn:Elt; [|exfalso; apply nth_error_None in Elt; apply Hlen in Htn; lia].
      destruct (Inv t lt Elt) as (lt' & Elt' & I1 & _). destruct (I1 Hd) as (_ & _ & Kn & _). exists (lt' :: next). split; constructor; auto. }
    destruct Known as (next & A1 & A2).
    assert (Ekn : nth_error kinds n = Some (g_kind l)) by (rewrite <- Ek; now apply map_nth_error).
    destruct (connect_ok n l next ts Hn Ekn A2 P) as (l' & Ec & Il).
    assert (Estep : connect_node (heap g) ls n = Ok (upd ls n l')).
    { unfold Init_Model.connect_node. rewrite Et. cbn [bind]. rewrite (load_list ls ts next A1). cbn [bind app]. unfold load. rewrite El1. cbn [bind]. rewrite Ec. reflexivity. }
    rewrite Estep. cbn [bind]. assert (Ea : done ++ n :: todo = (done ++ [n]) ++ todo) by (rewrite <- app_assoc; reflexivity). rewrite Ea in *.
    apply IH; auto.
    + intros m k Hm. apply Hb. now right.
    + now rewrite upd_length.
    + intros m lm Elm. destruct (Nat.eq_dec m n) as [->|Ne].
      * assert (lm = l) as -> by congruence. exists l'. split; [rewrite nth_error_upd_eq; [reflexivity|]; apply nth_error_Some; congruence|]. split; [auto|]. intros K. exfalso. apply K, in_or_app. right. now left.
      * destruct (Inv m lm Elm) as (lm' & E1 & I1 & I2). exists lm'. split; [now rewrite nth_error_upd_neq by auto|]. split.
        -- intros K. apply in_app_or in K as [K|[K|[]]]; [auto|congruence].
        -- intros K. apply I2. intros K'. apply K, in_or_app. now left.
Qed.
End Init.

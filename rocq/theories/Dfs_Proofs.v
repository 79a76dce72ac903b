(** The depth first traversal of [Graph_Model]: it visits exactly what it can reach from
    the given nodes without passing a flagged node, each node once, after its successors. *)
From Coq Require Import Relations.
From Verif Require Import Base BaseFacts Graph_Model Graph_Spec.

Lemma existsb_nat n l : existsb (Nat.eqb n) l = true <-> In n l.
Proof.
  rewrite existsb_exists. split; [intros (x & H & E); apply Nat.eqb_eq in E; now subst|].
  intros H. exists n. split; [exact H|apply Nat.eqb_refl].
Qed.
Lemma existsb_nat_false n l : existsb (Nat.eqb n) l = false <-> ~ In n l.
Proof. rewrite <- existsb_nat. destruct (existsb _ _); split; congruence. Qed.

Section Order.
Variable R : nat -> nat -> Prop.

(** [new] lists nodes in an order that respects [R], given that [v] is done. *)
Fixpoint ordered (v new : list nat) : Prop :=
  match new with
  | [] => True
  | x :: t => ~ In x v /\ (forall q, R x q -> In q v) /\ ordered (x :: v) t
  end.

Lemma ordered_app v a b : ordered v (a ++ b) <-> ordered v a /\ ordered (rev a ++ v) b.
Proof.
  revert v. induction a as [|x a IH]; intros v; cbn [app ordered rev]; [tauto|].
  rewrite IH, <- app_assoc. cbn [app]. tauto.
Qed.

Lemma ordered_nodup v l : ordered v l -> NoDup l /\ forall x, In x l -> ~ In x v.
Proof.
  revert v. induction l as [|x l IH]; intros v; cbn [ordered].
  - intros _. split; [constructor|]. intros x [].
  - intros (H1 & H2 & H3). destruct (IH _ H3) as [N D]. split.
    + constructor; [|exact N]. intros Hx. apply (D x Hx). now left.
    + intros y [<-|Hy]; [exact H1|]. intros Hv. apply (D y Hy). now right.
Qed.

End Order.

Section DfsFacts.
Variables (E : Type) (succ : nat -> res (list nat)) (event : nat -> E).
Variable R : nat -> nat -> Prop.
Variable ns : list nat.
Hypothesis Hsucc : forall n, In n ns -> exists ss, succ n = Ok ss /\ (forall q, In q ss <-> R n q) /\ incl ss ns.
Hypothesis Hacyclic : acyclic R ns.

Notation ordered := (ordered R).
Definition reach (n x : nat) : Prop := clos_refl_trans nat R n x.

(** [x] can be reached from [n] without passing a node of [v]. *)
Definition walk (v : list nat) (n x : nat) : Prop :=
  ~ In n v /\ clos_refl_trans nat (fun a b => R a b /\ ~ In b v) n x.
Lemma walk_reach v n x : walk v n x -> reach n x.
Proof. intros [_ H]. unfold reach. induction H as [a b [H _]|a|a b c _ IH1 _ IH2]; [now apply rt_step|apply rt_refl|eapply rt_trans; eauto]. Qed.
Lemma walk_fewer v w n x : incl v w -> walk w n x -> walk v n x.
Proof.
  intros Hi [N H]. split; [auto|]. clear N. induction H as [a b [H N]|a|a b c _ IH1 _ IH2]; [apply rt_step; auto|apply rt_refl|eapply rt_trans; eauto].
Qed.
Lemma walk_step v n q x : ~ In n v -> R n q -> walk v q x -> walk v n x.
Proof. intros N Hq [Nq H]. split; [exact N|]. eapply rt_trans; [apply rt_step; split; [exact Hq|exact Nq]|exact H]. Qed.

Lemma clos_t_rt' x y z : clos_trans nat R x y -> clos_refl_trans nat R y z -> clos_trans nat R x z.
Proof.
  intros H1 H2. apply clos_rt_rt1n in H2. revert x H1.
  induction H2 as [y|y w z Hyw _ IH]; intros u H1; [exact H1|].
  apply IH. eapply t_trans; [exact H1|now apply t_step].
Qed.

Lemma dfs_spec fuel : forall n anc st,
  In n ns -> NoDup anc -> incl anc ns -> (forall a, In a anc -> clos_trans nat R a n) ->
  length ns < fuel + length anc ->
  exists new, dfs succ event fuel st n = Ok (rev new ++ fst st, snd st ++ map event new) /\
    ordered (fst st) new /\ In n (rev new ++ fst st) /\ (forall x, In x new -> walk (fst st) n x).
Proof.
  induction fuel as [|f IH]; intros n anc [v tr] Hn Nd Inc Anc Len.
  - cbn in Len. pose proof (NoDup_incl_length Nd Inc). lia.
  - cbn [dfs fst snd]. destruct (existsb (Nat.eqb n) v) eqn:Ev.
    + apply existsb_nat in Ev. exists []. cbn. rewrite app_nil_r. split; [reflexivity|]. split; [exact I|]. split; [exact Ev|]. intros ? [].
    + apply existsb_nat_false in Ev. destruct (Hsucc n Hn) as (ss & -> & Hss & Hin). cbn [bind].
      assert (L : forall l st, incl l ss ->
        exists new, foldm (dfs succ event f) l st = Ok (rev new ++ fst st, snd st ++ map event new) /\
          ordered (fst st) new /\ incl l (rev new ++ fst st) /\ (forall x, In x new -> exists q, R n q /\ walk (fst st) q x)).
      { induction l as [|q l IHl]; intros st Hl.
        - exists []. cbn. rewrite app_nil_r. destruct st. split; [reflexivity|]. split; [exact I|].
          split; [intros ? []|]. intros ? [].
        - cbn [foldm]. assert (Hq : In q ss) by (apply Hl; now left).
          assert (Rq : R n q) by now apply Hss.
          destruct (IH q (n :: anc) st) as (new1 & E1 & O1 & I1 & R1).
          + apply Hin, Hq.
          + constructor; [|exact Nd]. intros Hna. apply (Hacyclic n Hn). now apply Anc.
          + intros x [<-|Hx]; auto.
          + intros a [<-|Ha]; [now apply t_step|]. eapply t_trans; [now apply Anc|now apply t_step].
          + cbn [length]. lia.
          + rewrite E1. cbn [bind].
            destruct (IHl (rev new1 ++ fst st, snd st ++ map event new1)) as (new2 & E2 & O2 & I2 & R2);
              [intros x Hx; apply Hl; now right|].
            rewrite E2. cbn [fst snd] in *. exists (new1 ++ new2).
            rewrite rev_app_distr, map_app, !app_assoc. split; [reflexivity|].
            split; [apply ordered_app; auto|]. rewrite <- !app_assoc. split.
            * intros x [<-|Hx]; [|auto]. apply in_or_app; right. apply in_app_or in I1. apply in_or_app. exact I1.
            * intros x Hx. apply in_app_or in Hx as [Hx|Hx]; [exists q; auto|]. destruct (R2 x Hx) as (q' & ? & W). exists q'. split; [auto|].
              eapply walk_fewer; [|exact W]. apply incl_appr, incl_refl. }
      destruct (L ss (v, tr)) as (new & E1 & O1 & I1 & R1); [apply incl_refl|].
      rewrite E1. cbn [bind fst snd] in *. exists (new ++ [n]).
      rewrite rev_app_distr, map_app, !app_assoc. cbn [rev app map]. split; [reflexivity|].
      assert (Hrev : forall q, R n q -> In q (rev new ++ v)) by (intros q Hq; apply I1, Hss, Hq).
      split.
      * apply ordered_app. split; [exact O1|]. cbn [ordered]. split; [|auto].
        intros Hx. apply in_app_or in Hx as [Hx|Hx]; [|auto].
        apply in_rev in Hx. destruct (R1 n Hx) as (q & Rq & Rr).
        apply (Hacyclic n Hn). eapply clos_t_rt'; [apply t_step; exact Rq|]. now apply walk_reach in Rr.
      * split; [now left|]. intros x Hx. apply in_app_or in Hx as [Hx|[<-|[]]]; [|split; [exact Ev|apply rt_refl]].
        destruct (R1 x Hx) as (q & Rq & Rr). eapply walk_step; eauto.
Qed.


(** A whole pass over the nodes [todo]. *)
Lemma pass_spec fuel todo st :
  incl todo ns -> length ns < fuel ->
  exists new, foldm (dfs succ event fuel) todo st = Ok (rev new ++ fst st, snd st ++ map event new) /\
    ordered (fst st) new /\ incl todo (rev new ++ fst st) /\ (forall x, In x new -> exists n, In n todo /\ walk (fst st) n x).
Proof.
  intros Hinc Hf. revert st Hinc. induction todo as [|q l IH]; intros st Hinc.
  - exists []. cbn. rewrite app_nil_r. destruct st. split; [reflexivity|]. split; [exact I|].
    split; [intros ? []|]. intros ? [].
  - cbn [foldm]. destruct (dfs_spec fuel q [] st) as (new1 & E1 & O1 & I1 & R1).
    + apply Hinc. now left.
    + constructor.
    + intros ? [].
    + intros ? [].
    + cbn. lia.
    + rewrite E1. cbn [bind].
      destruct (IH (rev new1 ++ fst st, snd st ++ map event new1)) as (new2 & E2 & O2 & I2 & R2);
        [intros x Hx; apply Hinc; now right|].
      rewrite E2. cbn [fst snd] in *. exists (new1 ++ new2).
      rewrite rev_app_distr, map_app, !app_assoc. split; [reflexivity|].
      split; [apply ordered_app; auto|]. rewrite <- !app_assoc. split.
      * intros x [<-|Hx]; [|auto]. apply in_or_app; right. exact I1.
      * intros x Hx. apply in_app_or in Hx as [Hx|Hx]; [exists q; split; [now left|auto]|].
        destruct (R2 x Hx) as (n & ? & W). exists n. split; [now right|]. eapply walk_fewer; [|exact W]. apply incl_appr, incl_refl.
Qed.

Lemma ordered_before v l x q : ordered v l -> In x l -> R x q -> ~ In q v -> before q x l.
Proof.
  intros O Hx Hr Hq. apply in_split in Hx as (a & b & ->).
  apply ordered_app in O as [_ O]. cbn [ordered] in O. destruct O as (_ & O & _).
  specialize (O q Hr). apply in_app_or in O as [O|O]; [|contradiction].
  apply in_rev in O. apply in_split in O as (a1 & a2 & ->).
  exists a1, a2, b. rewrite <- app_assoc. reflexivity.
Qed.

(** Reachable nodes are visited, unless flagged nodes are on the way. *)
Lemma ordered_reach v l n x :
  ordered v l -> In n (rev l ++ v) -> reach n x -> (forall y, reach n y -> ~ In y v) -> In x l.
Proof.
  intros O Hn Hr. apply clos_rt_rt1n in Hr. revert Hn.
  induction Hr as [n|n q x Hnq Hr IH]; intros Hn Hv.
  - apply in_app_or in Hn as [Hn|Hn]; [now apply in_rev|]. exfalso. apply (Hv n); [apply rt_refl|exact Hn].
  - apply IH.
    + apply in_app_or in Hn as [Hn|Hn]; [|exfalso; apply (Hv n); [apply rt_refl|exact Hn]].
      apply in_rev in Hn. apply in_split in Hn as (a & b & ->).
      apply ordered_app in O as [_ O]. cbn [ordered] in O. destruct O as (_ & O & _).
      specialize (O q Hnq). rewrite rev_app_distr. cbn [rev]. rewrite <- !app_assoc.
      apply in_or_app. right. apply in_or_app. right. exact O.
    + intros y Hy. apply Hv. eapply rt_trans; [apply rt_step; exact Hnq|exact Hy].
Qed.

Lemma ordered_walk v l n x : ordered v l -> In n (rev l ++ v) -> walk v n x -> In x l.
Proof.
  intros O Hn [N Hr]. apply clos_rt_rt1n in Hr. revert Hn N.
  induction Hr as [n|n q x [Hnq Nq] Hr IH]; intros Hn N.
  - apply in_app_or in Hn as [Hn|Hn]; [now apply in_rev|contradiction].
  - apply IH; [|exact Nq]. apply in_app_or in Hn as [Hn|Hn]; [|contradiction].
    apply in_rev in Hn. apply in_split in Hn as (a & b & ->).
    apply ordered_app in O as [_ O]. cbn [ordered] in O. destruct O as (_ & O & _).
    specialize (O q Hnq). rewrite rev_app_distr. cbn [rev]. rewrite <- !app_assoc.
    apply in_or_app. right. apply in_or_app. right. exact O.
Qed.

Lemma reach_closed n x : In n ns -> reach n x -> In x ns.
Proof.
  intros Hn Hr. apply clos_rt_rt1n in Hr. induction Hr as [|n q x Hq _ IH]; [exact Hn|].
  apply IH. destruct (Hsucc n Hn) as (ss & _ & Hss & Hin). apply Hin, Hss, Hq.
Qed.
End DfsFacts.

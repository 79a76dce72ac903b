(** Lemmas for C93. *)
From Verif Require Import Base BaseFacts Heap_Model Heap_Spec Heap_Proofs Heap_Props InputLayer_Model InputLayer_Spec.
Local Open Scope list_scope.

Lemma forall2_left {A B} (P : A -> B -> Prop) l l' : Forall2 P l l' -> forall i a, nth_error l i = Some a -> exists b, nth_error l' i = Some b /\ P a b.
Proof. induction 1 as [|x y l l' H _ IH]; intros [|i] a E; try (cbn in E; congruence); cbn [nth_error] in *; [injection E as <-; eauto|auto]. Qed.
Lemma forall2_right {A B} (P : A -> B -> Prop) l l' : Forall2 P l l' -> forall i b, nth_error l' i = Some b -> exists a, nth_error l i = Some a /\ P a b.
Proof. induction 1 as [|x y l l' H _ IH]; intros [|i] a E; try (cbn in E; congruence); cbn [nth_error] in *; [injection E as <-; eauto|auto]. Qed.
Lemma nth_error_seq_0 n k : n < k -> nth_error (seq 0 k) n = Some n.
Proof. intros H. rewrite (nth_error_nth' _ 0) by now rewrite seq_length. now rewrite seq_nth. Qed.

Section Input.
Variable D : Type.
Variable junk : nat -> D.
Variable page_size datum_size : nat.
Notation state := (Heap_Model.state D).
Notation step := (Heap_Model.step junk page_size datum_size).
Notation run := (Heap_Model.run junk page_size datum_size).
Notation Inv st := (inv D (tensors st) (blocks st) (released st) []).

Lemma history_app (st st1 st2 : state) a b : history step st a st1 -> history step st1 b st2 -> history step st (a ++ b) st2.
Proof. induction 1 as [|st o st1 ops st' Al E H IH]; intros K; [exact K|]. cbn [app]. eapply history_cons; eauto. Qed.
Lemma history_run (st st' : state) ops : history step st ops st' -> run ops st = Ok st'.
Proof. induction 1 as [|st o st1 ops st' Al E H IH]; [reflexivity|]. unfold Heap_Model.run in *. cbn [foldm]. rewrite E. exact IH. Qed.

Definition fresh (h : handle) (a : nat) : handle :=
  mkHandle (h_samples h) (h_width h) (h_height h) (h_maps h) (h_samples h * h_maps h * h_width h * h_height h) (Some a) false false None.
Lemma new_step (st : state) h : 0 < h_samples h * h_maps h * h_width h * h_height h ->
  step st (New (h_samples h) (h_width h) (h_height h) (h_maps h)) = Ok (mkState (tensors st ++ [Some (fresh h (length (blocks st)))])
    (blocks st ++ [mkBlock FromNew true 0 (map junk (seq 0 (h_samples h * h_maps h * h_width h * h_height h)))]) (released st)).
Proof.
  intros H. cbn [Heap_Model.step]. unfold resize. cbn [reshape empty_handle h_ptr bind]. destruct (Nat.eqb_spec (h_samples h * h_maps h * h_width h * h_height h) 0); [lia|]. reflexivity.
Qed.
Lemma news_ok hs : forall st : state, Inv st -> (forall h, In h hs -> 0 < h_samples h * h_maps h * h_width h * h_height h) ->
  exists st', history step st (flat_map combined_ops hs) st' /\ Inv st' /\
    exists ts bs, tensors st' = tensors st ++ ts /\ blocks st' = blocks st ++ bs /\ length ts = 2 * length hs /\
      forall n h, nth_error hs n = Some h -> exists a a', nth_error ts (2 * n) = Some (Some (fresh h a)) /\ nth_error ts (S (2 * n)) = Some (Some (fresh h a')) /\
        length (blocks st) <= a /\ length (blocks st) <= a'.
Proof.
  induction hs as [|h hs IH]; intros st I P; cbn [flat_map].
  - exists st. split; [apply history_nil|]. split; [exact I|]. exists [], []. rewrite !app_nil_r. split; [reflexivity|]. split; [reflexivity|]. split; [reflexivity|]. intros [|n] h E; discriminate.
  - pose proof (P h (or_introl eq_refl)) as Ph.
    set (b := mkBlock FromNew true 0 (map junk (seq 0 (h_samples h * h_maps h * h_width h * h_height h)))).
    set (st1 := mkState (tensors st ++ [Some (fresh h (length (blocks st)))]) (blocks st ++ [b]) (released st)).
    set (st2 := mkState (tensors st1 ++ [Some (fresh h (length (blocks st1)))]) (blocks st1 ++ [b]) (released st1)).
    assert (H2 : history step st (combined_ops h) st2).
    { unfold combined_ops. eapply history_cons; [exact Logic.I|exact (new_step st h Ph)|]. eapply history_cons; [exact Logic.I|exact (new_step st1 h Ph)|]. apply history_nil. }
    pose proof (history_inv D junk page_size datum_size _ _ _ I H2) as I2.
    destruct (IH st2 I2 (fun k Hk => P k (or_intror Hk))) as (st' & H' & I' & ts & bs & T & B & L & N). exists st'. split; [eapply history_app; eauto|]. split; [exact I'|].
    exists ([Some (fresh h (length (blocks st))); Some (fresh h (length (blocks st1)))] ++ ts), ([b; b] ++ bs).
    unfold st2, st1 in T, B. cbn [tensors blocks] in T, B. split; [rewrite T, <- !app_assoc; reflexivity|]. split; [rewrite B, <- !app_assoc; reflexivity|].
    split; [cbn [app length]; rewrite L; lia|]. intros [|n] k E.
    + cbn [nth_error] in E. injection E as <-. exists (length (blocks st)), (length (blocks st1)). split; [reflexivity|]. split; [reflexivity|]. unfold st1. cbn [blocks]. rewrite app_length. lia.
    + cbn [nth_error] in E. destruct (N n k E) as (a & a' & E1 & E2 & La & La'). exists a, a'. replace (2 * S n) with (S (S (2 * n))) by lia. cbn [app nth_error].
      unfold st2, st1 in La, La'. cbn [blocks] in La, La'. rewrite !app_length in La, La'. repeat split; auto; lia.
Qed.

Lemma shadow_step (st : state) i u h t a : Inv st -> is_tensor st i h -> is_tensor st u t -> i <> u -> h_ptr t = Some a ->
  exists st', history step st [Shadow i u] st' /\ Inv st' /\ tensors st' = upd (tensors st) i (Some (borrow empty_handle t)) /\
    (forall a l, contents st a = Some l -> contents st' a = Some l) /\ (forall a, live st a -> h_ptr h <> Some a -> live st' a).
Proof.
  intros I Ti Tu Ne Pt. assert (Al : allowed st (Shadow i u)) by (cbn; split; [exact Ne|]; split; [eauto|]; exists a, t; auto).
  destruct (step_ok D junk page_size datum_size st _ I Al) as (st' & E & I' & F). exists st'. split; [eapply history_cons; [exact Al|exact E|apply history_nil]|]. split; [exact I'|].
  destruct F as (_ & Fl & Fc). split; [|split].
  - cbn [Heap_Model.step] in E. rewrite (find_ok _ _ _ _ Ti) in E. cbn [bind] in E. rewrite (find_ok _ _ _ _ Tu) in E. cbn [bind] in E.
    destruct (delete_spec D page_size datum_size st (tensors st) [] i h I Ti) as (st1 & E2 & T & _). rewrite E2 in E. cbn [bind fst snd] in E. injection E as <-.
    destruct (Nat.eqb_spec i u); [tauto|]. unfold put. cbn [tensors]. now rewrite T.
  - intros c l Hc. exact (Fc c l Hc).
  - intros c Lc Nc. apply Fl; [exact Lc|]. intros (k & Ek & hk & Tk & Pk & _). cbn [target] in Ek. injection Ek as <-. unfold is_tensor in *. congruence.
Qed.
Lemma shadows_ok N l : forall st : state, Inv st -> NoDup (map fst l) -> (forall i u, In (i, u) l -> ~ In u (map fst l)) ->
  (forall i u, In (i, u) l -> exists h a, is_tensor st i h /\ h_ptr h = Some a /\ N <= a) ->
  (forall i u, In (i, u) l -> exists t a, is_tensor st u t /\ h_ptr t = Some a) ->
  exists st', history step st (map (fun '(i, u) => Shadow i u) l) st' /\ Inv st' /\
    (forall j, ~ In j (map fst l) -> nth_error (tensors st') j = nth_error (tensors st) j) /\
    (forall i u t, In (i, u) l -> is_tensor st u t -> is_tensor st' i (borrow empty_handle t)) /\
    (forall a c, contents st a = Some c -> contents st' a = Some c) /\ (forall a, live st a -> a < N -> live st' a).
Proof.
  induction l as [|[i u] l IH]; intros st I Nd Ne Ti Tu; cbn [map].
  - exists st. split; [apply history_nil|]. split; [exact I|]. split; [auto|]. split; [intros ? ? ? []|]. split; auto.
  - cbn [map fst] in Nd. inversion Nd as [|? ? Ni Nd']; subst. destruct (Ti i u (or_introl eq_refl)) as (h & a & Th & Pa & La). destruct (Tu i u (or_introl eq_refl)) as (t & c & Tt & Pc).
    assert (Niu : i <> u) by (intros ->; apply (Ne u u (or_introl eq_refl)); now left).
    destruct (shadow_step st i u h t c I Th Tt Niu Pc) as (st1 & H1 & I1 & E1 & C1 & L1).
    assert (Oth : forall j k, j <> i -> is_tensor st j k -> is_tensor st1 j k).
    { intros j k Hj Hk. unfold is_tensor in *. rewrite E1, nth_error_upd_neq; auto. }
    destruct (IH st1 I1 Nd') as (st' & H' & I' & K & S & C & L).
    + intros i' u' Hin Hu. apply (Ne i' u' (or_intror Hin)). now right.
    + intros i' u' Hin. destruct (Ti i' u' (or_intror Hin)) as (h' & a' & T' & ?). exists h', a'. split; [|assumption]. apply Oth; [|exact T']. intros ->. apply Ni. now apply (in_map fst) in Hin.
    + intros i' u' Hin. destruct (Tu i' u' (or_intror Hin)) as (t' & a' & T' & ?). exists t', a'. split; [|assumption]. apply Oth; [|exact T']. intros ->. apply (Ne i' i (or_intror Hin)). now left.
    + exists st'. split; [exact (history_app _ _ _ _ _ H1 H')|]. split; [exact I'|]. split; [|split; [|split]].
      * intros j Hj. rewrite K by (intros Hin; apply Hj; now right). rewrite E1. apply nth_error_upd_neq. intros ->. apply Hj. now left.
      * intros i' u' t' [E|Hin] T'.
        -- injection E as <- <-. assert (t' = t) by (unfold is_tensor in *; congruence). subst t'. unfold is_tensor. rewrite K by exact Ni. rewrite E1. apply nth_error_upd_eq. apply nth_error_Some. unfold is_tensor in Th. congruence.
        -- apply (S i' u' t' Hin). apply Oth; [|exact T']. intros ->. apply (Ne i' i (or_intror Hin)). now left.
      * intros c' x Hx. auto.
      * intros c' Lc Hc. apply L; [|exact Hc]. apply L1; [exact Lc|]. rewrite Pa. intros E. injection E as ->. lia.
Qed.

Lemma find_all_ok (st : state) us hs : Forall2 (is_tensor st) us hs -> find_all D st us = Ok hs.
Proof. induction 1 as [|u h us hs T _ IH]; [reflexivity|]. cbn [find_all]. rewrite (find_ok _ _ _ _ T). cbn [bind]. now rewrite IH. Qed.

(** The state after the constructor. *)
Lemma connect_ok (st : state) us hs : Inv st -> Forall2 (is_tensor st) us hs -> (forall h, In h hs -> exists a, h_ptr h = Some a) -> same_samples hs = true ->
  exists st' ps ops, connect junk page_size datum_size st us = Ok (st', ps) /\ history step st ops st' /\ Inv st' /\ kept st st' /\
    length ps = length us /\
    (forall n, n < length us -> nth_error ps n = Some (length (tensors st) + 2 * n, S (length (tensors st) + 2 * n))) /\
    forall n u h, nth_error us n = Some u -> nth_error hs n = Some h ->
      is_tensor st' (length (tensors st) + 2 * n) (borrow empty_handle h) /\ own_memory st st' (S (length (tensors st) + 2 * n)) h.
Proof.
  intros I F Me Sa. pose proof (Forall2_length F) as Lh.
  assert (Pos : forall h, In h hs -> h_elements h = h_samples h * h_maps h * h_width h * h_height h /\ 0 < h_elements h).
  { intros h Hin. destruct (Me h Hin) as (a & Pa). apply In_nth_error in Hin as (n & En). destruct (forall2_right _ _ _ F _ _ En) as (u & Eu & Tu).
    pose proof (i_fits _ _ _ _ _ I u h Tu) as Ft. unfold Heap_Proofs.fits in Ft. rewrite Pa in Ft. destruct Ft as (b & _ & _ & ? & ? & _). auto. }
  destruct (news_ok hs st I) as (st1 & H1 & I1 & ts & bs & T1 & B1 & Lt & Nt).
  { intros h Hin. destruct (Pos h Hin) as [E P]. now rewrite <- E. }
  set (k := length (tensors st)) in *. set (l := map (fun '(n, u) => (k + 2 * n, u)) (combine (seq 0 (length us)) us)).
  assert (Lin : forall i u, In (i, u) l -> exists n, i = k + 2 * n /\ n < length us /\ nth_error us n = Some u).
  { intros i u Hin. apply in_map_iff in Hin as ([n u'] & E & Hin). injection E as <- ->. exists n. split; [reflexivity|].
    apply In_nth_error in Hin as (m & Em). assert (Hm : m < length us) by (assert (m < length (combine (seq 0 (length us)) us)) by (apply nth_error_Some; congruence); rewrite combine_length, seq_length in *; lia).
    destruct (nth_error_lt us Hm) as (x & Ex).
    assert (En : nth_error (combine (seq 0 (length us)) us) m = Some (0 + m, x)).
    { clear - Hm Ex. revert m Hm Ex. generalize 0 as z. induction us as [|v us IH]; intros z m Hm Ex; [cbn in Hm; lia|]. destruct m as [|m]; cbn [length seq combine nth_error] in *.
      - injection Ex as ->. now rewrite Nat.add_0_r. - rewrite (IH (S z) m ltac:(lia) Ex). do 2 f_equal. lia. }
    rewrite En in Em. injection Em as <- <-. split; [exact Hm|exact Ex]. }
  assert (Fst : map fst l = map (fun n => k + 2 * n) (seq 0 (length us))).
  { unfold l. rewrite map_map. rewrite <- (map_map (fun x : nat * nat => fst x) (fun n => k + 2 * n) (combine (seq 0 (length us)) us)) at 1 || idtac.
    transitivity (map (fun n => k + 2 * n) (map fst (combine (seq 0 (length us)) us))); [rewrite map_map; apply map_ext; now intros []|]. f_equal.
    clear. generalize 0 as z. induction us as [|v us IH]; intros z; [reflexivity|]. cbn [length seq combine map fst]. now rewrite IH. }
  assert (Lu : forall n u, nth_error us n = Some u -> u < k).
  { intros n u En. destruct (forall2_left _ _ _ F _ _ En) as (h & _ & Th). apply nth_error_Some. unfold is_tensor in Th. congruence. }
  assert (Old : forall j h, is_tensor st j h -> is_tensor st1 j h).
  { intros j h Hj. unfold is_tensor in *. rewrite T1, nth_error_app1; [exact Hj|]. apply nth_error_Some. congruence. }
  destruct (shadows_ok (length (blocks st)) l st1 I1) as (st2 & H2 & I2 & K2 & S2 & C2 & L2).
  - rewrite Fst. apply FinFun.Injective_map_NoDup; [intros a b; lia|apply seq_NoDup].
  - intros i u Hin Hu. destruct (Lin i u Hin) as (n & _ & _ & En). pose proof (Lu n u En). rewrite Fst in Hu. apply in_map_iff in Hu as (m & Em & _). lia.
  - intros i u Hin. destruct (Lin i u Hin) as (n & -> & Hn & _). rewrite Lh in Hn. destruct (nth_error_lt hs Hn) as (h & Eh). destruct (Nt n h Eh) as (a & a' & E1 & _ & La & _).
    exists (fresh h a), a. split; [|split; [reflexivity|exact La]]. unfold is_tensor. rewrite T1, nth_error_app2 by (fold k; lia). fold k. replace (k + 2 * n - k) with (2 * n) by lia. exact E1.
  - intros i u Hin. destruct (Lin i u Hin) as (n & -> & Hn & En). destruct (forall2_left _ _ _ F _ _ En) as (h & Eh & Th). destruct (Me h (nth_error_In _ _ Eh)) as (a & Pa).
    exists h, a. split; [now apply Old|exact Pa].
  - assert (Hist : history step st (flat_map combined_ops hs ++ map (fun '(i, u) => Shadow i u) l) st2) by (eapply history_app; eauto).
    assert (Ops : map (fun '(i, u) => Shadow i u) l = map (fun '(n, u) => Shadow (fst (k + 2 * n, S (k + 2 * n))) u : op D) (combine (seq 0 (length us)) us)).
    { unfold l. rewrite map_map. apply map_ext. now intros []. }
    exists st2, (map (fun n => (k + 2 * n, S (k + 2 * n))) (seq 0 (length us))), (flat_map combined_ops hs ++ map (fun '(i, u) => Shadow i u) l).
    split; [|split; [exact Hist|split; [exact I2|split; [|split; [now rewrite map_length, seq_length|split]]]]].
    + unfold connect. rewrite (find_all_ok _ _ _ F). cbn [bind]. rewrite Sa. cbn [negb]. fold k. rewrite <- Ops, (history_run _ _ _ Hist). reflexivity.
    + split; [|split].
      * intros j h Hj. unfold is_tensor. rewrite K2; [now apply Old|]. rewrite Fst. intros Hin. apply in_map_iff in Hin as (m & Em & _).
        assert (j < k) by (apply nth_error_Some; unfold is_tensor in Hj; congruence). lia.
      * intros a c Hc. apply C2. unfold contents in *. rewrite B1, nth_error_app1; [exact Hc|]. apply nth_error_Some. intros E. rewrite E in Hc. discriminate.
      * intros a (b & Hb & Lb). assert (Ha : a < length (blocks st)) by (apply nth_error_Some; congruence). apply L2; [|exact Ha]. exists b. rewrite B1, nth_error_app1 by exact Ha. auto.
    + intros n Hn. rewrite nth_error_map. rewrite nth_error_seq_0 by exact Hn. reflexivity.
    + intros n u h En Eh. assert (Hn : n < length us) by (apply nth_error_Some; congruence). destruct (forall2_left _ _ _ F _ _ En) as (h' & Eh' & Th). assert (h' = h) by congruence. subst h'. split.
      * apply (S2 _ u); [|now apply Old]. unfold l. apply in_map_iff. exists (n, u). split; [reflexivity|].
        assert (Ec : nth_error (combine (seq 0 (length us)) us) n = Some (0 + n, u)).
        { clear - Hn En. revert n Hn En. generalize 0 as z. induction us as [|v us IH]; intros z m Hm Ex; [cbn in Hm; lia|]. destruct m as [|m]; cbn [length seq combine nth_error] in *.
          - injection Ex as ->. now rewrite Nat.add_0_r. - rewrite (IH (S z) m ltac:(lia) Ex). do 2 f_equal. lia. }
        eapply nth_error_In. exact Ec.
      * destruct (Nt n h Eh) as (a & a' & _ & E2 & _ & La). exists (fresh h a'), a'. split; [|split; [|split; [reflexivity|split; [reflexivity|exact La]]]].
        -- unfold is_tensor. rewrite K2 by (rewrite Fst; intros Hin; apply in_map_iff in Hin as (m & Em & _); lia).
           rewrite T1, nth_error_app2 by (fold k; lia). fold k. replace (S (k + 2 * n) - k) with (S (2 * n)) by lia. exact E2.
        -- unfold same_shape, fresh. cbn. destruct (Pos h (nth_error_In _ _ Eh)) as [-> _]. auto.
Qed.

Lemma history_live (st st' : state) ops i h : Inv st -> history step st ops st' -> is_tensor st i h -> Forall (stays i) ops -> is_tensor st' i h.
Proof.
  intros I H. induction H as [|st o st1 ops st' Al E H IH]; intros T F; [exact T|]. inversion F as [|? ? Fo Fr]; subst.
  destruct (step_ok D junk page_size datum_size st o I Al) as (s & E' & I' & Fm & _). assert (s = st1) by congruence. subst s. apply IH; [exact I'| |exact Fr].
  unfold is_tensor in *. rewrite Fm; [exact T|apply nth_error_Some; congruence|]. destruct o; cbn [target stays] in *; try discriminate; congruence.
Qed.

(** One new combined tensor. *)
Lemma new_pair (st : state) h : Inv st -> 0 < h_elements h -> h_elements h = h_samples h * h_maps h * h_width h * h_height h ->
  exists st', history step st (combined_ops h) st' /\ run (combined_ops h) st = Ok st' /\ Inv st' /\ kept st st' /\ own_memory st st' (length (tensors st)) h /\ own_memory st st' (S (length (tensors st))) h.
Proof.
  intros I P E. destruct (news_ok [h] st I) as (st' & H & I' & ts & bs & T & B & _ & N); [intros k [<-|[]]; lia|]. cbn [flat_map] in H. rewrite app_nil_r in H.
  exists st'. split; [exact H|]. split; [now apply history_run|]. split; [exact I'|]. split; [split; [|split]|].
  - intros j k Hj. unfold is_tensor in *. rewrite T, nth_error_app1; [exact Hj|]. apply nth_error_Some. congruence.
  - intros a c Hc. unfold contents in *. rewrite B, nth_error_app1; [exact Hc|]. apply nth_error_Some. intros X. rewrite X in Hc. discriminate.
  - intros a (b & Hb & Lb). exists b. split; [|exact Lb]. rewrite B, nth_error_app1; [exact Hb|]. apply nth_error_Some. congruence.
  - destruct (N 0 h eq_refl) as (a & a' & E1 & E2 & La & La'). split.
    + exists (fresh h a), a. split; [unfold is_tensor; rewrite T, nth_error_app2, Nat.sub_diag by lia; exact E1|]. split; [unfold same_shape, fresh; cbn; auto|]. auto.
    + exists (fresh h a'), a'. split; [unfold is_tensor; rewrite T, nth_error_app2 by lia; replace (S (length (tensors st)) - length (tensors st)) with 1 by lia; exact E2|]. split; [unfold same_shape, fresh; cbn; auto|]. auto.
Qed.
Lemma kept_refl (st : state) : kept st st. Proof. split; [|split]; auto. Qed.
Lemma kept_trans (a b c : state) : kept a b -> kept b c -> kept a c.
Proof. intros (A1 & A2 & A3) (B1 & B2 & B3). split; [|split]; auto. Qed.
Lemma own_kept (a b c : state) i h : own_memory a b i h -> kept b c -> own_memory a c i h.
Proof. intros (k & x & T & R) (K & _). exists k, x. split; auto. Qed.
Lemma own_before (a b c : state) i h : kept a b -> length (blocks a) <= length (blocks b) -> own_memory b c i h -> own_memory a c i h.
Proof. intros _ L (k & x & T & S & P & Q & R). exists k, x. repeat split; auto; try apply S. lia. Qed.
Lemma kept_blocks (a b : state) : kept a b -> length (blocks a) <= length (blocks b).
Proof.
  intros (_ & K & _). destruct (length (blocks a)) as [|n] eqn:L; [lia|]. destruct (nth_error_lt (blocks a) (a := n)) as (x & Ex); [lia|].
  assert (contents a n = Some (b_data x)) by (unfold contents; now rewrite Ex). apply K in H. unfold contents in H.
  destruct (nth_error (blocks b) n) eqn:E; [|discriminate]. assert (n < length (blocks b)) by (apply nth_error_Some; congruence). lia.
Qed.
End Input.

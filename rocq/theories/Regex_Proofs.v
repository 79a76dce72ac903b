From Coq Require Import Ascii.
From Verif Require Import Base Str_Model Regex_Model.

Lemma nullable_spec r : nullable r = true <-> matches r [].
Proof.
  split.
  - induction r; cbn; intros H; try discriminate; try (now constructor).
    + apply andb_true_iff in H as [H1 H2]. change (@nil ascii) with ((@nil ascii) ++ []). constructor; auto.
    + apply orb_true_iff in H as [H|H]; [now apply m_left; auto|now apply m_right; auto].
  - intros H. remember (@nil ascii) as s eqn:E. induction H; cbn; try discriminate; auto.
    + apply app_eq_nil in E as [-> ->]. now rewrite IHmatches1, IHmatches2.
    + now rewrite IHmatches.
    + rewrite IHmatches by auto. apply orb_true_r.
Qed.
Lemma star_cons a c s : matches (RStar a) (c :: s) -> exists t u, s = t ++ u /\ matches a (c :: t) /\ matches (RStar a) u.
Proof.
  intros H. remember (RStar a) as r eqn:Er. remember (c :: s) as w eqn:Ew. revert a c s Er Ew.
  induction H; intros a' c' s' Er Ew; try discriminate.
  injection Er as ->. destruct s as [|x s0].
  - cbn in Ew. now apply IHmatches2.
  - cbn in Ew. injection Ew as -> <-. exists s0, t. auto.
Qed.
Lemma deriv_spec c r s : matches (deriv c r) s <-> matches r (c :: s).
Proof.
  revert s. induction r; intros w; cbn [deriv].
  - split; intros H; inversion H.
  - split; intros H; inversion H.
  - destruct (p c) eqn:E; split; intros H; inversion H; subst; try constructor; auto. congruence.
  - assert (A : matches (RSeq (deriv c r1) r2) w <-> exists s t, w = s ++ t /\ matches r1 (c :: s) /\ matches r2 t).
    { split.
      - intros H. inversion H; subst. do 2 eexists. split; [reflexivity|]. split; [now apply IHr1|assumption].
      - intros (s & t & -> & H1 & H2). constructor; [now apply IHr1|assumption]. }
    destruct (nullable r1) eqn:En.
    + split; intros H.
      * inversion H; subst.
        -- match goal with H : matches (RSeq _ _) _ |- _ => apply A in H as (s & t & -> & H1 & H2) end. change (c :: s ++ t) with ((c :: s) ++ t). now constructor.
        -- change (c :: w) with ([] ++ c :: w). constructor; [now apply nullable_spec|now apply IHr2].
      * inversion H; subst. destruct s as [|x s0].
        -- cbn in *. subst. apply m_right. now apply IHr2.
        -- match goal with H : _ ++ _ = _ |- _ => injection H as -> <- end. apply m_left. apply A. eauto.
    + split; intros H.
      * apply A in H as (s & t & -> & H1 & H2). change (c :: s ++ t) with ((c :: s) ++ t). now constructor.
      * inversion H; subst. destruct s as [|x s0].
        -- match goal with H : matches r1 [] |- _ => apply nullable_spec in H end. congruence.
        -- match goal with H : _ ++ _ = _ |- _ => injection H as -> <- end. apply A. eauto.
  - split; intros H; inversion H; subst; (apply m_left + apply m_right); (now apply IHr1) || (now apply IHr2).
  - split; intros H.
    + inversion H; subst. change (c :: s ++ t) with ((c :: s) ++ t). constructor; [now apply IHr|assumption].
    + apply star_cons in H as (t & u & -> & H1 & H2). constructor; [now apply IHr|assumption].
Qed.
Lemma rmatch_spec r s : rmatch r s = true <-> matches r s.
Proof.
  revert r. induction s as [|c s IH]; intros r; cbn [rmatch]; [apply nullable_spec|]. now rewrite IH, deriv_spec.
Qed.

(** Inversions. *)
Lemma matches_seq a b s : matches (RSeq a b) s <-> exists t u, s = t ++ u /\ matches a t /\ matches b u.
Proof.
  split.
  - intros H. inversion H; subst. eauto.
  - intros (t & u & -> & H1 & H2). now constructor.
Qed.
Lemma matches_alt a b s : matches (RAlt a b) s <-> matches a s \/ matches b s.
Proof.
  split.
  - intros H. inversion H; subst; auto.
  - intros [H|H]; [now apply m_left|now apply m_right].
Qed.
Lemma matches_eps s : matches REps s <-> s = [].
Proof. split; [intros H; now inversion H|intros ->; constructor]. Qed.
Lemma matches_char p s : matches (RChar p) s <-> exists c, s = [c] /\ p c = true.
Proof. split; [intros H; inversion H; subst; eauto|intros (c & -> & H); now constructor]. Qed.
Lemma matches_opt a s : matches (ROpt a) s <-> s = [] \/ matches a s.
Proof. unfold ROpt. rewrite matches_alt, matches_eps. tauto. Qed.
Lemma matches_lit l s : matches (RLit l) s <-> s = l.
Proof.
  revert s. induction l as [|c l IH]; intros s; cbn [RLit fold_right]; [apply matches_eps|].
  change (fold_right (fun c r => RSeq (RChar (Ascii.eqb c)) r) REps l) with (RLit l). rewrite matches_seq. split.
  - intros (t & u & -> & H1 & H2). apply matches_char in H1 as (d & -> & E). apply Ascii.eqb_eq in E as ->. apply IH in H2 as ->. reflexivity.
  - intros ->. exists [c], l. split; [reflexivity|]. split; [apply matches_char; exists c; split; [reflexivity|apply Ascii.eqb_refl]|now apply IH].
Qed.
Lemma matches_star a s : matches (RStar a) s <-> exists l, s = concat l /\ Forall (matches a) l.
Proof.
  split.
  - intros H. remember (RStar a) as r eqn:E. induction H; try discriminate.
    + exists []. auto.
    + injection E as ->. destruct (IHmatches2 eq_refl) as (l & -> & Hl). exists (s :: l). auto.
  - intros (l & -> & H). induction H as [|x l Hx Hl IH]; cbn; [constructor|now constructor].
Qed.
Lemma matches_star_char p s : matches (RStar (RChar p)) s <-> Forall (fun c => p c = true) s.
Proof.
  rewrite matches_star. split.
  - intros (l & -> & H). induction H as [|x l Hx Hl IH]; cbn; [constructor|]. apply matches_char in Hx as (c & -> & Hc). now constructor.
  - intros H. exists (map (fun c => [c]) s). split.
    + clear H. induction s as [|c s IH]; cbn; [reflexivity|]. now f_equal.
    + rewrite Forall_map. eapply Forall_impl; [|exact H]. intros c Hc. apply matches_char. eauto.
Qed.
Lemma matches_plus_char p s : matches (RPlus (RChar p)) s <-> s <> [] /\ Forall (fun c => p c = true) s.
Proof.
  unfold RPlus. rewrite matches_seq. split.
  - intros (t & u & -> & H1 & H2). apply matches_char in H1 as (c & -> & Hc). apply matches_star_char in H2. split; [discriminate|now constructor].
  - intros [Hn H]. destruct s as [|c s]; [congruence|]. inversion H; subst. exists [c], s. split; [reflexivity|].
    split; [apply matches_char; eauto|now apply matches_star_char].
Qed.

(** Groups. *)
Lemma in_splits s p : In p (splits s) <-> s = fst p ++ snd p.
Proof.
  destruct p as [a b]. cbn [fst snd]. revert a b. induction s as [|c s IH]; intros a b; cbn [splits].
  - split.
    + intros [E|[]]. injection E as <- <-. reflexivity.
    + intros E. symmetry in E. apply app_eq_nil in E as [-> ->]. now left.
  - split.
    + intros [E|H].
      * injection E as <- <-. reflexivity.
      * apply in_map_iff in H as ([a' b'] & E & H). cbn in E. injection E as <- <-. apply IH in H as ->. reflexivity.
    + destruct a as [|x a]; cbn; intros E; [left; now subst|]. injection E as -> ->. right. apply in_map_iff. exists (a, b). split; [reflexivity|]. now apply IH.
Qed.
Lemma match_group_some a b c s g : match_group a b c s = Some g -> exists x y, s = x ++ g ++ y /\ matches a x /\ matches b g /\ matches c y.
Proof.
  unfold match_group. destruct (flat_map _ (splits s)) as [|g' l] eqn:E; [discriminate|]. intros [= <-].
  assert (H : In g' (g' :: l)) by now left. rewrite <- E in H. apply in_flat_map in H as ([x r] & Hp & H). apply in_splits in Hp. cbn in *.
  destruct (rmatch a x) eqn:Ea; [|contradiction]. apply in_flat_map in H as ([g y] & Hq & H). apply in_splits in Hq. cbn in *.
  destruct (rmatch b g && rmatch c y) eqn:Eb; [|contradiction]. destruct H as [->|[]]. apply andb_true_iff in Eb as [Eb Ec].
  apply rmatch_spec in Ea, Eb, Ec. subst. eauto 8.
Qed.
Lemma match_group_none a b c s : match_group a b c s = None -> forall x g y, s = x ++ g ++ y -> matches a x -> matches b g -> matches c y -> False.
Proof.
  unfold match_group. destruct (flat_map _ (splits s)) as [|g' l] eqn:E; [|discriminate]. intros _ x g y Hs Ha Hb Hc.
  apply rmatch_spec in Ha, Hb, Hc.
  match type of E with ?l = _ => assert (H : In g l); [|now rewrite E in H] end. apply in_flat_map. exists (x, g ++ y). split; [now apply in_splits|]. cbn [fst snd]. rewrite Ha.
  apply in_flat_map. exists (g, y). split; [now apply in_splits|]. cbn [fst snd]. rewrite Hb, Hc. now left.
Qed.

(** The longest match. *)
Lemma longest_spec r s : match longest r s with
  | Some n => n <= length s /\ matches r (firstn n s) /\ forall m, n < m -> m <= length s -> ~ matches r (firstn m s)
  | None => forall m, m <= length s -> ~ matches r (firstn m s)
  end.
Proof.
  revert r. induction s as [|c s IH]; intros r; cbn [longest].
  - destruct (nullable r) eqn:E.
    + split; [auto|]. split; [now apply nullable_spec|intros m H1 H2; cbn in H2; lia].
    + intros m Hm H. cbn in Hm. replace m with 0 in H by lia. apply nullable_spec in H. congruence.
  - specialize (IH (deriv c r)). destruct (longest (deriv c r) s) as [n|].
    + destruct IH as (Hn & Hm & Hl). split; [cbn; lia|]. split; [cbn [firstn]; now apply deriv_spec|].
      intros [|m] H1 H2 H; [lia|]. cbn [firstn] in H. apply deriv_spec in H. apply (Hl m); auto; cbn in H2; lia.
    + destruct (nullable r) eqn:E.
      * split; [cbn; lia|]. split; [now apply nullable_spec|]. intros [|m] H1 H2 H; [lia|]. cbn [firstn] in H. apply deriv_spec in H. apply (IH m); auto. cbn in H2. lia.
      * intros [|m] Hm H; [apply nullable_spec in H; congruence|]. cbn [firstn] in H. apply deriv_spec in H. apply (IH m); auto. cbn in Hm. lia.
Qed.

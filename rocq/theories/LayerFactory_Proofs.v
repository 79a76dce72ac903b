From Coq Require Import Ascii String List.
From Verif Require Import Base Str_Model Str_Proofs Regex_Model Regex_Proofs LayerFactory_Model LayerFactory_Spec.
Local Open Scope string_scope.
Local Open Scope list_scope.
Local Open Scope nat_scope.

Lemma is_range lo hi c : ascii_in lo hi c = true -> nat_of_ascii lo <= nat_of_ascii c <= nat_of_ascii hi.
Proof. unfold ascii_in. rewrite andb_true_iff, !Nat.leb_le. tauto. Qed.
Ltac char_ne := let H := fresh in let E := fresh in intros H E; subst;
  repeat (rewrite orb_true_iff in H); cbn in H; intuition discriminate.
Lemma lower_ne_eq c : is_lower c = true -> c <> "="%char. Proof. intros H ->. discriminate. Qed.
Lemma lower_ne_par c : is_lower c = true -> c <> "("%char. Proof. intros H ->. discriminate. Qed.
Lemma value_ne_eq c : value_char c = true -> c <> "="%char. Proof. intros H ->. discriminate. Qed.
Lemma value_ne_space c : value_char c = true -> c <> " "%char. Proof. intros H ->. discriminate. Qed.
Lemma value_ne_close c : value_char c = true -> c <> ")"%char. Proof. intros H ->. discriminate. Qed.
Lemma value_ne_nul c : value_char c = true -> any_char c = true.
Proof. intros H. unfold any_char. apply negb_true_iff, Ascii.eqb_neq. intros ->. discriminate. Qed.
Lemma lower_value c : is_lower c = true -> value_char c = true.
Proof. intros H. unfold value_char. now rewrite H. Qed.
Lemma digit_value_char c : is_digit c = true -> value_char c = true.
Proof. intros H. unfold value_char. rewrite H, !orb_true_r. reflexivity. Qed.

(** A separator is found again. *)
Lemma split_unique (c : ascii) a a' b b' : Forall (fun x => x <> c) a -> Forall (fun x => x <> c) a' -> a ++ c :: b = a' ++ c :: b' -> a = a' /\ b = b'.
Proof.
  intros Ha. revert a'. induction Ha as [|x a Hx Ha IH]; intros a' Ha' E; destruct Ha' as [|y a' Hy Ha']; cbn in E.
  - injection E as ->. auto.
  - injection E as E _. congruence.
  - injection E as E _. congruence.
  - injection E as -> E. destruct (IH a' Ha' E) as [-> ->]. auto.
Qed.
Lemma split_absent (c : ascii) a b s : Forall (fun x => x <> c) s -> s = a ++ c :: b -> False.
Proof. intros H ->. apply Forall_app in H as [_ H]. inversion H; congruence. Qed.

(** ** Validity *)
Lemma pair_spec s : matches pair_re s <-> exists p, wf_param p /\ s = render_param p.
Proof.
  unfold pair_re. rewrite matches_seq. split.
  - intros (n & u & -> & Hn & Hu). apply matches_plus_char in Hn. apply matches_seq in Hu as (e & v & -> & He & Hv).
    apply matches_lit in He as ->. apply matches_plus_char in Hv. exists (n, v). split; [split; auto|reflexivity].
  - intros ([n v] & [Hn Hv] & ->). exists n, (s_ "=" ++ v). split; [reflexivity|]. split; [now apply matches_plus_char|].
    apply matches_seq. exists (s_ "="), v. split; [reflexivity|]. split; [now apply matches_lit|now apply matches_plus_char].
Qed.
Lemma join_cons x l : join (x :: l) = x ++ List.concat (map (fun y => s_ " " ++ y) l).
Proof.
  revert x. induction l as [|y l IH]; intros x; [cbn; now rewrite app_nil_r|].
  change (join (x :: y :: l)) with (x ++ s_ " " ++ join (y :: l)). rewrite IH. cbn [map List.concat]. now rewrite <- !app_assoc.
Qed.
Lemma tail_spec s : matches (RStar (RSeq (RLit (s_ " ")) pair_re)) s <-> exists ps, Forall wf_param ps /\ s = List.concat (map (fun p => s_ " " ++ render_param p) ps).
Proof.
  rewrite matches_star. split.
  - intros (l & -> & H). induction H as [|x l Hx Hl IH]; [exists []; auto|]. destruct IH as (ps & Hps & IH).
    apply matches_seq in Hx as (t & u & -> & Ht & Hu). apply matches_lit in Ht as ->. apply pair_spec in Hu as (p & Hp & ->).
    exists (p :: ps). split; [now constructor|]. cbn [map List.concat]. now rewrite IH.
  - intros (ps & H & ->). exists (map (fun p => s_ " " ++ render_param p) ps). split; [reflexivity|]. rewrite Forall_map. eapply Forall_impl; [|exact H].
    intros p Hp. apply matches_seq. exists (s_ " "), (render_param p). split; [reflexivity|]. split; [now apply matches_lit|]. apply pair_spec. eauto.
Qed.
Lemma args_spec s : matches (ROpt (RSeq pair_re (RStar (RSeq (RLit (s_ " ")) pair_re)))) s <-> exists ps, Forall wf_param ps /\ s = render_params ps.
Proof.
  rewrite matches_opt, matches_seq. split.
  - intros [->|(t & u & -> & Ht & Hu)]; [exists []; auto|]. apply pair_spec in Ht as (p & Hp & ->). apply tail_spec in Hu as (ps & Hps & ->).
    exists (p :: ps). split; [now constructor|]. unfold render_params. cbn [map]. rewrite join_cons, map_map. reflexivity.
  - intros (ps & H & ->). destruct ps as [|p ps]; [now left|]. inversion H; subst. right. exists (render_param p), (List.concat (map (fun p => s_ " " ++ render_param p) ps)).
    split; [unfold render_params; cbn [map]; rewrite join_cons, map_map; reflexivity|]. split; [apply pair_spec; eauto|apply tail_spec; eauto].
Qed.
Lemma valid_spec d : is_valid_descriptor d = true <-> exists ty args, descriptor d ty args.
Proof.
  unfold is_valid_descriptor. rewrite rmatch_spec. unfold valid_descriptor_re. rewrite matches_seq. split.
  - intros (ty & u & -> & Hty & Hu). apply matches_plus_char in Hty. apply matches_opt in Hu as [->|Hu].
    + exists ty, None. split; [split; [exact Hty|constructor]|reflexivity].
    + apply matches_seq in Hu as (o & r & -> & Ho & Hr). apply matches_lit in Ho as ->. apply matches_seq in Hr as (a & c & -> & Ha & Hc).
      apply matches_lit in Hc as ->. apply args_spec in Ha as (ps & Hps & ->). exists ty, (Some ps). split; [split; [exact Hty|exact Hps]|reflexivity].
  - intros (ty & args & [Hty Hps] & ->). exists ty. eexists. split; [reflexivity|]. split; [now apply matches_plus_char|]. apply matches_opt.
    destruct args as [ps|]; [right|now left]. apply matches_seq. eexists _, _. split; [reflexivity|]. split; [now apply matches_lit|].
    apply matches_seq. eexists _, _. split; [reflexivity|]. split; [apply args_spec; eauto|now apply matches_lit].
Qed.

(** ** Taking descriptors apart *)
Lemma word_ne_par s : word is_lower s -> Forall (fun x => x <> "("%char) s.
Proof. intros [_ H]. eapply Forall_impl; [|exact H]. apply lower_ne_par. Qed.
Lemma params_any ps : Forall wf_param ps -> Forall (fun c => any_char c = true) (render_params ps).
Proof.
  intros H. unfold render_params. destruct ps as [|p ps]; [constructor|]. cbn [map]. rewrite join_cons.
  assert (P : forall p, wf_param p -> Forall (fun c => any_char c = true) (render_param p)).
  { intros [n v] [[_ Hn] [_ Hv]]. unfold render_param. cbn [fst snd]. apply Forall_app. split; [|apply Forall_app; split].
    - eapply Forall_impl; [|exact Hn]. intros c Hc. now apply value_ne_nul, lower_value.
    - repeat constructor.
    - eapply Forall_impl; [|exact Hv]. intros c Hc. now apply value_ne_nul. }
  inversion H as [|? ? Hp Hps]; subst. apply Forall_app. split; [auto|]. clear -Hps P. induction Hps as [|q ps Hq Hps IH]; [constructor|].
  cbn [map List.concat]. apply Forall_app. split; [|exact IH]. apply Forall_app. split; [repeat constructor|auto].
Qed.
Lemma app_close (a b : str) : a ++ s_ ")" = b ++ s_ ")" -> a = b.
Proof. intros H. now apply app_inj_tail in H. Qed.

Lemma extract_configuration_spec d ty args : descriptor d ty args -> extract_configuration d = render_params (params_of args).
Proof.
  intros [[Hty Hps] ->]. unfold extract_configuration. destruct (match_group _ _ _ (render ty args)) as [g|] eqn:E.
  - apply match_group_some in E as (x & y & E & Hx & Hg & Hy). apply matches_seq in Hx as (t & o & -> & Ht & Ho). apply matches_lit in Ho as ->. apply matches_lit in Hy as ->.
    apply matches_plus_char in Ht. unfold render in E. destruct args as [ps|]; cbn [params_of] in *.
    + rewrite <- app_assoc in E. cbn [s_ list_ascii_of_string app] in E. apply split_unique in E as [_ E]; [|now apply word_ne_par..]. symmetry. now apply app_close.
    + exfalso. rewrite app_nil_r, <- app_assoc in E. cbn [s_ list_ascii_of_string app] in E. eapply split_absent; [|exact E]. now apply word_ne_par.
  - destruct args as [ps|]; [|reflexivity]. cbn [params_of] in *. destruct (render_params ps) as [|c g] eqn:Eg; [reflexivity|exfalso].
    eapply (match_group_none _ _ _ _ E (ty ++ s_ "(") (c :: g) (s_ ")")).
    + unfold render. rewrite Eg. rewrite <- !app_assoc. reflexivity.
    + apply matches_seq. eexists _, _. split; [reflexivity|]. split; [now apply matches_plus_char|now apply matches_lit].
    + apply matches_plus_char. split; [discriminate|]. rewrite <- Eg. now apply params_any.
    + now apply matches_lit.
Qed.
Lemma extract_layer_type_spec d ty args : descriptor d ty args -> extract_layer_type d = ty.
Proof.
  intros [[Hty Hps] ->]. unfold extract_layer_type. destruct (match_group _ _ _ (render ty args)) as [g|] eqn:E.
  - apply match_group_some in E as (x & y & E & Hx & Hg & Hy). apply matches_eps in Hx as ->. cbn [app] in E.
    apply matches_plus_char in Hg. apply matches_opt in Hy. unfold render in E. destruct args as [ps|].
    + destruct Hy as [->|Hy].
      * exfalso. rewrite app_nil_r in E. symmetry in E. cbn [s_ list_ascii_of_string app] in E. eapply split_absent; [|exact E]. now apply word_ne_par.
      * apply matches_seq in Hy as (o & r & -> & Ho & _). apply matches_lit in Ho as ->. cbn [s_ list_ascii_of_string app] in E.
        apply split_unique in E as [E _]; [congruence|now apply word_ne_par..].
    + destruct Hy as [->|Hy]; [now rewrite !app_nil_r in E|].
      exfalso. apply matches_seq in Hy as (o & r & -> & Ho & _). apply matches_lit in Ho as ->. rewrite app_nil_r in E. cbn [s_ list_ascii_of_string app] in E.
      eapply split_absent; [|exact E]. now apply word_ne_par.
  - exfalso. eapply (match_group_none _ _ _ _ E [] ty); [reflexivity|constructor|now apply matches_plus_char|].
    apply matches_opt. destruct args as [ps|]; [right|now left]. apply matches_seq. eexists _, _. split; [reflexivity|]. split; [now apply matches_lit|].
    apply matches_seq. eexists _, _. split; [reflexivity|]. split; [|now apply matches_lit]. now apply matches_star_char, params_any.
Qed.

(** The descriptor determines its parts. *)
Lemma render_param_inj p q r r' : wf_param p -> wf_param q -> (r = [] \/ exists s, r = " "%char :: s) -> (r' = [] \/ exists s, r' = " "%char :: s) ->
  render_param p ++ r = render_param q ++ r' -> p = q /\ r = r'.
Proof.
  intros [[_ Hn] [_ Hv]] [[_ Hn'] [_ Hv']] Hr Hr' E. destruct p as [n v], q as [n' v']. cbn [fst snd] in *. unfold render_param in E. cbn [fst snd] in E.
  rewrite <- !app_assoc in E. cbn [s_ list_ascii_of_string app] in E. apply split_unique in E as [-> E].
  2,3: eapply Forall_impl; [|eassumption]; apply lower_ne_eq.
  assert (Sv : Forall (fun x => x <> " "%char) v) by (eapply Forall_impl; [|exact Hv]; apply value_ne_space).
  assert (Sv' : Forall (fun x => x <> " "%char) v') by (eapply Forall_impl; [|exact Hv']; apply value_ne_space).
  destruct Hr as [->|[s ->]], Hr' as [->|[s' ->]].
  - rewrite !app_nil_r in E. now subst.
  - exfalso. rewrite app_nil_r in E. eapply split_absent; [exact Sv|exact E].
  - exfalso. rewrite app_nil_r in E. symmetry in E. eapply split_absent; [exact Sv'|exact E].
  - apply split_unique in E as [-> ->]; auto.
Qed.
Lemma tail_starts ps : List.concat (map (fun p => s_ " " ++ render_param p) ps) = [] \/ exists s, List.concat (map (fun p => s_ " " ++ render_param p) ps) = " "%char :: s.
Proof. destruct ps; cbn; eauto. Qed.
Lemma render_params_inj ps qs : Forall wf_param ps -> Forall wf_param qs -> render_params ps = render_params qs -> ps = qs.
Proof.
  assert (T : forall ps qs, Forall wf_param ps -> Forall wf_param qs ->
    List.concat (map (fun p => s_ " " ++ render_param p) ps) = List.concat (map (fun p => s_ " " ++ render_param p) qs) -> ps = qs).
  { clear. induction ps as [|p ps IH]; intros [|q qs] Hp Hq E; auto; try discriminate. inversion Hp; inversion Hq; subst.
    cbn [map List.concat] in E. rewrite <- !app_assoc in E. cbn [s_ list_ascii_of_string app] in E. injection E as E.
    apply render_param_inj in E as [-> E]; auto using tail_starts. f_equal. now apply IH. }
  intros Hp Hq E. unfold render_params in E. destruct ps as [|p ps], qs as [|q qs]; auto.
  - exfalso. cbn [map] in E. rewrite join_cons in E. inversion Hq as [|? ? [[Hn _] _] _]; subst. destruct q as [[|c n] v]; cbn in *; congruence.
  - exfalso. cbn [map] in E. rewrite join_cons in E. inversion Hp as [|? ? [[Hn _] _] _]; subst. destruct p as [[|c n] v]; cbn in *; congruence.
  - cbn [map] in E. rewrite !join_cons, !map_map in E. inversion Hp; inversion Hq; subst.
    apply render_param_inj in E as [-> E]; auto using tail_starts. f_equal. now apply T.
Qed.
Lemma descriptor_unique d ty args ty' args' : descriptor d ty args -> descriptor d ty' args' -> ty = ty' /\ args = args'.
Proof.
  intros H H'. pose proof (extract_layer_type_spec _ _ _ H) as E1. pose proof (extract_layer_type_spec _ _ _ H') as E2.
  rewrite E1 in E2. split; [exact E2|].
  pose proof (extract_configuration_spec _ _ _ H) as E3. pose proof (extract_configuration_spec _ _ _ H') as E4.
  destruct H as [[_ Hp] E], H' as [[_ Hp'] E']. rewrite E' in E. rewrite <- E2 in E. unfold render in E. apply app_inv_head in E.
  rewrite E3 in E4. apply render_params_inj in E4; auto. destruct args, args'; cbn in *; try discriminate; congruence.
Qed.

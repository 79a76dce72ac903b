(** InjectSeed in terms of the parameters, and reading parameters of a descriptor. *)
From Coq Require Import Ascii String List.
From Verif Require Import Base Str_Model Str_Proofs Regex_Model Regex_Proofs LayerFactory_Model LayerFactory_Spec LayerFactory_Proofs
  Config_Model Config_Spec Config_Proofs.
Local Open Scope string_scope.
Local Open Scope list_scope.
Local Open Scope nat_scope.

Definition str_dec : forall a b : str, {a = b} + {a <> b} := list_eq_dec ascii_dec.

(** ** Where [key=] occurs in a list of parameters *)
Lemma starts_key key n tail : Forall (fun c => c <> "="%char) key -> Forall (fun c => c <> "="%char) n ->
  starts (key ++ s_ "=") (n ++ s_ "=" ++ tail) = if str_dec n key then true else false.
Proof.
  intros Hk Hn. destruct (str_dec n key) as [->|Hne].
  - rewrite app_assoc. apply starts_self.
  - destruct (starts _ _) eqn:E; [|reflexivity]. exfalso. apply starts_app in E as [r E]. rewrite <- app_assoc in E. cbn [s_ list_ascii_of_string app] in E.
    apply split_unique in E as [E _]; auto.
Qed.
(** Text without [=] up to a separator. *)
Definition separated (key rest : str) : Prop := rest = [] \/ exists c r, rest = c :: r /\ c <> "="%char /\ ~ In c key.
Lemma starts_no key w rest : Forall (fun c => c <> "="%char) w -> separated key rest -> starts (key ++ s_ "=") (w ++ rest) = false.
Proof.
  intros Hw. revert key. induction Hw as [|x w Hx Hw IH]; intros key Hs.
  - cbn [app]. destruct Hs as [->|(c & r & -> & H1 & H2)]; [now destruct key|]. destruct key as [|k key]; cbn [app s_ list_ascii_of_string starts].
    + destruct (Ascii.eqb_spec "="%char c) as [Hc|Hc]; [symmetry in Hc; contradiction|reflexivity].
    + destruct (Ascii.eqb_spec k c) as [->|]; [|reflexivity]. exfalso. apply H2. now left.
  - destruct key as [|k key]; cbn [app s_ list_ascii_of_string starts].
    + destruct (Ascii.eqb_spec "="%char x) as [Hc|Hc]; [symmetry in Hc; contradiction|reflexivity].
    + destruct (Ascii.eqb k x); [|reflexivity]. cbn [andb]. apply (IH key). destruct Hs as [->|(c & r & -> & H1 & H2)]; [now left|right]. exists c, r. repeat split; auto. intros H. apply H2. now right.
Qed.

(** [n] ends in [key]. *)
Fixpoint ends_b (key n : str) : bool :=
  if str_dec n key then true else match n with [] => false | _ :: n' => ends_b key n' end.
Lemma ends_b_spec key n : ends_b key n = true <-> ends_in key n.
Proof.
  split.
  - induction n as [|c n IH]; cbn [ends_b]; destruct (str_dec _ key) as [<-|Hne].
    + exists []. reflexivity.
    + discriminate.
    + exists []. reflexivity.
    + intros H. destruct (IH H) as [m ->]. exists (c :: m). reflexivity.
  - intros [m ->]. induction m as [|c m IH]; cbn [app].
    + destruct key; cbn [ends_b]; destruct (str_dec _ _); congruence.
    + cbn [ends_b]. destruct (str_dec _ key); auto.
Qed.

(** Names and separators. *)
Lemma name_ne_eq n : word is_lower n -> Forall (fun c => c <> "="%char) n.
Proof. intros [_ H]. eapply Forall_impl; [|exact H]. apply lower_ne_eq. Qed.
Lemma value_no_eq v : word value_char v -> Forall (fun c => c <> "="%char) v.
Proof. intros [_ H]. eapply Forall_impl; [|exact H]. apply value_ne_eq. Qed.
Lemma not_in_lower c key : is_lower c = false -> Forall (fun x => is_lower x = true) key -> ~ In c key.
Proof. intros H Hk Hin. rewrite Forall_forall in Hk. specialize (Hk c Hin). congruence. Qed.
Lemma sep_space key r : Forall (fun x => is_lower x = true) key -> separated key (" "%char :: r).
Proof. intros H. right. exists " "%char, r. split; [reflexivity|]. split; [discriminate|]. now apply not_in_lower. Qed.
Lemma sep_close key r : Forall (fun x => is_lower x = true) key -> separated key (")"%char :: r).
Proof. intros H. right. exists ")"%char, r. split; [reflexivity|]. split; [discriminate|]. now apply not_in_lower. Qed.
Lemma sep_open key r : Forall (fun x => is_lower x = true) key -> separated key ("("%char :: r).
Proof. intros H. right. exists "("%char, r. split; [reflexivity|]. split; [discriminate|]. now apply not_in_lower. Qed.

(** ** The seed expression *)
Fixpoint drop_digits (s : str) : str := match s with c :: s' => if is_digit c then drop_digits s' else s | [] => [] end.
Fixpoint take_digits (s : str) : str := match s with c :: s' => if is_digit c then c :: take_digits s' else [] | [] => [] end.
Lemma take_drop s : take_digits s ++ drop_digits s = s.
Proof. induction s as [|c s IH]; cbn; [reflexivity|]. destruct (is_digit c); cbn; now rewrite ?IH. Qed.
Lemma take_all s : Forall (fun c => is_digit c = true) (take_digits s).
Proof. induction s as [|c s IH]; cbn; [constructor|]. destruct (is_digit c) eqn:E; [now constructor|constructor]. Qed.
Lemma take_app a b : Forall (fun c => is_digit c = true) a -> take_digits (a ++ b) = a ++ take_digits b.
Proof. intros H. induction H as [|c a Hc Ha IH]; cbn; [reflexivity|]. now rewrite Hc, IH. Qed.
Lemma drop_app a b : Forall (fun c => is_digit c = true) a -> drop_digits (a ++ b) = drop_digits b.
Proof. intros H. induction H as [|c a Hc Ha IH]; cbn; [reflexivity|]. now rewrite Hc. Qed.
Lemma drop_stop a b : (b = [] \/ exists c r, b = c :: r /\ is_digit c = false) -> drop_digits (a ++ b) = drop_digits a ++ b.
Proof.
  intros H. induction a as [|c a IH]; cbn.
  - destruct H as [->|(c & r & -> & E)]; cbn; [reflexivity|]. now rewrite E.
  - destruct (is_digit c); auto.
Qed.
Lemma take_stop a b : (b = [] \/ exists c r, b = c :: r /\ is_digit c = false) -> take_digits (a ++ b) = take_digits a.
Proof.
  intros H. induction a as [|c a IH]; cbn.
  - destruct H as [->|(c & r & -> & E)]; cbn; [reflexivity|]. now rewrite E.
  - destruct (is_digit c); [now rewrite IH|reflexivity].
Qed.

Definition key : str := s_ "seed".
Lemma key_lower : Forall (fun x => is_lower x = true) key. Proof. repeat constructor. Qed.
Lemma key_ne_eq : Forall (fun c => c <> "="%char) key. Proof. repeat constructor; discriminate. Qed.

Definition starts_digit (s : str) : bool := match s with c :: _ => is_digit c | [] => false end.
Lemma starts_digit_take s : starts_digit s = negb (length (take_digits s) =? 0).
Proof. destruct s as [|c s]; cbn; [reflexivity|]. now destruct (is_digit c). Qed.
(** A match at the start of [s]. *)
Definition hit (s : str) : bool := starts (key ++ s_ "=") s && starts_digit (skipn 5 s).

Lemma new_seed_spec s : matches new_seed_re s <-> exists ds, s = s_ "seed=" ++ ds /\ word is_digit ds.
Proof.
  unfold new_seed_re. rewrite matches_seq. split.
  - intros (t & u & -> & Ht & Hu). apply matches_lit in Ht as ->. apply matches_plus_char in Hu. exists u. auto.
  - intros (ds & -> & H). exists (s_ "seed="), ds. split; [reflexivity|]. split; [now apply matches_lit|now apply matches_plus_char].
Qed.
Lemma longest_seed s : longest new_seed_re s = if hit s then Some (5 + length (take_digits (skipn 5 s))) else None.
Proof.
  pose proof (longest_spec new_seed_re s) as L. destruct (hit s) eqn:Eh.
  - unfold hit in Eh. apply andb_true_iff in Eh as [E1 E2]. apply starts_app in E1 as [r ->].
    change (key ++ s_ "=") with (s_ "seed=") in *. change (skipn 5 (s_ "seed=" ++ r)) with r in *.
    assert (M : forall m, m <= length r -> firstn (5 + m) (s_ "seed=" ++ r) = s_ "seed=" ++ firstn m r) by reflexivity.
    assert (Tn : take_digits r <> []) by (rewrite starts_digit_take in E2; destruct (take_digits r); [discriminate|discriminate]).
    assert (Lt : length (take_digits r) <= length r) by (rewrite <- (take_drop r) at 2; rewrite app_length; lia).
    assert (Best : matches new_seed_re (firstn (5 + length (take_digits r)) (s_ "seed=" ++ r))).
    { rewrite M by assumption. apply new_seed_spec. eexists. split; [reflexivity|]. rewrite <- (take_drop r) at 2.
      rewrite firstn_app, firstn_all, Nat.sub_diag. cbn [firstn]. rewrite app_nil_r. split; [assumption|apply take_all]. }
    destruct (longest new_seed_re (s_ "seed=" ++ r)) as [n|].
    + destruct L as (Hn & Hm & Hl). f_equal. assert (Hlen : length (s_ "seed=" ++ r) = 5 + length r) by reflexivity.
      destruct (Nat.lt_trichotomy n (5 + length (take_digits r))) as [H|[H|H]]; [|exact H|].
      * exfalso. apply (Hl _ H); [lia|exact Best].
      * exfalso. replace n with (5 + (n - 5)) in Hm by lia. rewrite M in Hm by lia. apply new_seed_spec in Hm as (ds & E & [_ Hd]).
        apply app_inv_head in E. assert (Hlong : length ds = n - 5) by (rewrite <- E, firstn_length; lia).
        assert (Et : take_digits r = ds ++ take_digits (skipn (n - 5) r)).
        { rewrite <- (firstn_skipn (n - 5) r) at 1. rewrite E. now apply take_app. }
        rewrite Et, app_length in H. lia.
    + exfalso. apply (L (5 + length (take_digits r))); [change (length (s_ "seed=" ++ r)) with (5 + length r); lia|exact Best].
  - destruct (longest new_seed_re s) as [n|]; [|reflexivity]. exfalso. destruct L as (Hn & Hm & _). apply new_seed_spec in Hm as (ds & E & [Hne Hd]).
    assert (s = s_ "seed=" ++ ds ++ skipn n s) by (rewrite <- (firstn_skipn n s) at 1; rewrite E; now rewrite <- app_assoc).
    rewrite H in Eh. unfold hit in Eh. change (key ++ s_ "=") with (s_ "seed=") in Eh. rewrite starts_self in Eh.
    change (skipn 5 (s_ "seed=" ++ ds ++ skipn n s)) with (ds ++ skipn n s) in Eh. destruct Hd as [|d ds Hd _]; [congruence|]. cbn in Eh. congruence.
Qed.

(** ** Replacing *)
Section Replace.
Variable by_ : str.
Notation rep := (replace_from new_seed_re by_).
Lemma rep_skip k a b : length a = k -> rep k (a ++ b) = rep 0 b.
Proof.
  revert a. induction k as [|k IH]; intros [|x a] H; try discriminate; [reflexivity|]. cbn [app replace_from]. apply IH. now injection H.
Qed.
Lemma rep_cons c s : hit (c :: s) = false -> rep 0 (c :: s) = c :: rep 0 s.
Proof. intros H. cbn [replace_from]. rewrite longest_seed, H. reflexivity. Qed.
Lemma rep_copy w rest : Forall (fun c => c <> "="%char) w -> separated key rest -> rep 0 (w ++ rest) = w ++ rep 0 rest.
Proof.
  intros Hw Hs. induction Hw as [|x w Hx Hw IH]; [reflexivity|]. cbn [app]. rewrite rep_cons; [now rewrite IH|].
  unfold hit. pose proof (starts_no key (x :: w) rest (Forall_cons x Hx Hw) Hs) as S0. cbn [app] in S0. now rewrite S0.
Qed.
Lemma rep_sep rest : (forall c r, rest = c :: r -> hit rest = false -> rep 0 rest = c :: rep 0 r).
Proof. intros c r -> H. now apply rep_cons. Qed.

(** What happens to one parameter. *)
Definition affected (p : param) : bool := ends_b key (fst p) && starts_digit (snd p).
Definition set_seed (number : str) (p : param) : param := if affected p then (fst p, number ++ drop_digits (snd p)) else p.

Lemma rep_param number n v rest : by_ = s_ "seed=" ++ number -> word is_lower n -> word value_char v ->
  (rest = [] \/ exists c r, rest = c :: r /\ c <> "="%char /\ ~ In c key /\ is_digit c = false) ->
  rep 0 (n ++ s_ "=" ++ v ++ rest) = render_param (set_seed number (n, v)) ++ rep 0 rest.
Proof.
  intros Hby [Hn0 Hn] Hv Hr. assert (Hsep : separated key rest) by (destruct Hr as [->|(c & r & -> & A & B & _)]; [now left|right; eauto]).
  assert (Hdig : rest = [] \/ exists c r, rest = c :: r /\ is_digit c = false) by (destruct Hr as [->|(c & r & -> & A & B & C)]; eauto).
  clear Hn0. pose proof (value_no_eq v Hv) as Hve.
  assert (Hne : Forall (fun c => c <> "="%char) n) by (eapply Forall_impl; [|exact Hn]; apply lower_ne_eq).
  clear Hn. induction Hne as [|x n Hx Hn IH].
  - cbn [app]. change (s_ "=" ++ v ++ rest) with ("="%char :: v ++ rest). rewrite rep_cons.
    2:{ unfold hit. change ("="%char :: v ++ rest) with ([] ++ s_ "=" ++ v ++ rest). rewrite starts_key; auto using key_ne_eq. }
    rewrite rep_copy by assumption. unfold set_seed, affected, render_param. cbn [fst snd ends_b]. destruct (str_dec [] key); [discriminate|]. reflexivity.
  - assert (Hxn : Forall (fun c => c <> "="%char) (x :: n)) by now constructor.
    destruct (hit ((x :: n) ++ s_ "=" ++ v ++ rest)) eqn:Eh.
    + unfold hit in Eh. apply andb_true_iff in Eh as [E1 E2]. rewrite starts_key in E1 by auto using key_ne_eq.
      destruct (str_dec (x :: n) key) as [Ek|]; [|discriminate]. rewrite Ek in *. clear IH.
      change (skipn 5 (key ++ s_ "=" ++ v ++ rest)) with (v ++ rest) in E2.
      assert (E2v : starts_digit v = true).
      { destruct v as [|d v]; [|exact E2]. destruct Hv as [Hv _]. congruence. }
      change (key ++ s_ "=" ++ v ++ rest) with ("s"%char :: s_ "eed=" ++ v ++ rest). cbn [replace_from]. rewrite longest_seed.
      unfold hit. change ("s"%char :: s_ "eed=" ++ v ++ rest) with (key ++ s_ "=" ++ v ++ rest). rewrite starts_key by auto using key_ne_eq.
      destruct (str_dec key key); [|congruence]. change (skipn 5 (key ++ s_ "=" ++ v ++ rest)) with (v ++ rest). rewrite E2. cbn [andb plus].
      rewrite take_stop by assumption.
      replace (s_ "eed=" ++ v ++ rest) with ((s_ "eed=" ++ take_digits v) ++ drop_digits v ++ rest).
      2:{ rewrite <- (take_drop v) at 3. now rewrite <- !app_assoc. }
      rewrite rep_skip by (rewrite app_length; reflexivity). rewrite rep_copy; [|  |assumption].
      2:{ rewrite <- (take_drop v) in Hve. now apply Forall_app in Hve. }
      unfold set_seed, affected. cbn [fst snd]. replace (ends_b key key) with true by reflexivity. rewrite E2v. cbn [andb].
      unfold render_param. cbn [fst snd]. rewrite Hby, <- !app_assoc. reflexivity.
    + change ((x :: n) ++ s_ "=" ++ v ++ rest) with (x :: n ++ s_ "=" ++ v ++ rest) in *. rewrite rep_cons by exact Eh. rewrite IH.
      assert (Ea : set_seed number (x :: n, v) = (x :: fst (set_seed number (n, v)), snd (set_seed number (n, v)))).
      { unfold hit in Eh. change (x :: n ++ s_ "=" ++ v ++ rest) with ((x :: n) ++ s_ "=" ++ v ++ rest) in Eh. rewrite starts_key in Eh by auto using key_ne_eq.
        unfold set_seed, affected. cbn [fst snd ends_b]. destruct (str_dec (x :: n) key) as [Ek|].
        - rewrite Ek in Eh. change (skipn 5 (key ++ s_ "=" ++ v ++ rest)) with (v ++ rest) in Eh. cbn [andb] in Eh.
          assert (Ed : starts_digit v = false) by (destruct v as [|d v]; [reflexivity|exact Eh]). rewrite Ed, !andb_false_r. reflexivity.
        - destruct (ends_b key n && starts_digit v); reflexivity. }
      symmetry. exact (f_equal (fun q => render_param q ++ rep 0 rest) Ea).
Qed.

Definition closed_by (rest : str) : Prop := rest = [] \/ exists c r, rest = c :: r /\ (c = " "%char \/ c = ")"%char).
Lemma closed_tail ps : closed_by (List.concat (map (fun p => s_ " " ++ render_param p) ps) ++ s_ ")").
Proof. right. destruct ps; cbn [map List.concat app]; [exists ")"%char, []|eexists " "%char, _]; split; auto; reflexivity. Qed.
Lemma rep_one number p rest : by_ = s_ "seed=" ++ number -> wf_param p -> closed_by rest ->
  rep 0 (render_param p ++ rest) = render_param (set_seed number p) ++ rep 0 rest.
Proof.
  intros Hby [Hn Hv] Hr. destruct p as [n v]. cbn [fst snd] in *. unfold render_param at 1. cbn [fst snd]. rewrite <- !app_assoc. apply rep_param; auto.
  destruct Hr as [->|(c & r & -> & [->| ->])]; [now left|right; eexists _, _; split; [reflexivity|]..]; repeat split; try discriminate;
    apply not_in_lower; try reflexivity; apply key_lower.
Qed.
Lemma rep_tail number ps : by_ = s_ "seed=" ++ number -> Forall wf_param ps ->
  rep 0 (List.concat (map (fun p => s_ " " ++ render_param p) ps) ++ s_ ")") = List.concat (map (fun p => s_ " " ++ render_param (set_seed number p)) ps) ++ s_ ")".
Proof.
  intros Hby H. induction H as [|p ps Hp Hps IH].
  - cbn [map List.concat app]. change (s_ ")") with [")"%char]. rewrite rep_cons by reflexivity. reflexivity.
  - cbn [map List.concat]. rewrite <- !app_assoc. change (s_ " " ++ ?t) with (" "%char :: t).
    match goal with |- replace_from _ _ 0 (" "%char :: ?t) = _ => rewrite (rep_cons " "%char t) by reflexivity end.
    rewrite (rep_one number) by auto using closed_tail. f_equal. f_equal. exact IH.
Qed.
Lemma rep_descriptor number ty ps : by_ = s_ "seed=" ++ number -> wf_parts ty (Some ps) ->
  rep 0 (render ty (Some ps)) = render ty (Some (map (set_seed number) ps)).
Proof.
  intros Hby [Hty Hps]. unfold render. cbn [params_of] in Hps. rewrite rep_copy; [|now apply name_ne_eq|apply sep_open, key_lower]. f_equal.
  change (s_ "(" ++ ?t) with ("("%char :: t).
  match goal with |- replace_from _ _ 0 (_ :: ?t) = _ => rewrite (rep_cons "("%char t) by reflexivity end. f_equal. unfold render_params.
  destruct Hps as [|p ps Hp Hps]; [cbn [map join app]; change (s_ ")") with [")"%char]; now rewrite rep_cons by reflexivity|].
  cbn [map]. rewrite !join_cons, !map_map, <- !app_assoc. rewrite (rep_one number) by auto using closed_tail. f_equal. now apply rep_tail.
Qed.
End Replace.

(** ** Is there a seed? *)
Fixpoint has_hit (s : str) : bool := match s with [] => false | c :: s' => hit s || has_hit s' end.
Lemma has_hit_iff s : has_hit s = true <-> exists a b, s = a ++ b /\ hit b = true.
Proof.
  split.
  - induction s as [|c s IH]; cbn [has_hit]; [discriminate|]. intros H. apply orb_true_iff in H as [H|H].
    + exists [], (c :: s). auto.
    + destruct (IH H) as (a & b & -> & Hb). exists (c :: a), b. auto.
  - intros (a & b & -> & Hb). induction a as [|c a IH]; cbn [app has_hit].
    + destruct b as [|c b]; [discriminate|]. cbn [has_hit]. now rewrite Hb.
    + rewrite IH. apply orb_true_r.
Qed.
Lemma has_seed_spec s : Forall (fun c => any_char c = true) s -> rmatch has_seed_re s = has_hit s.
Proof.
  intros Hs. apply eq_true_iff_eq. rewrite rmatch_spec, has_hit_iff. unfold has_seed_re. rewrite matches_seq. split.
  - intros (a & u & -> & _ & Hu). apply matches_seq in Hu as (m & z & -> & Hm & _). apply new_seed_spec in Hm as (ds & -> & [Hne Hd]).
    exists a. eexists. split; [reflexivity|]. unfold hit. rewrite <- app_assoc. change (key ++ s_ "=") with (s_ "seed="). rewrite starts_self.
    change (skipn 5 (s_ "seed=" ++ ds ++ z)) with (ds ++ z). destruct Hd; [congruence|assumption].
  - intros (a & b & -> & Hb). exists a, b. split; [reflexivity|]. apply Forall_app in Hs as [Ha Hbb]. split; [now apply matches_star_char|].
    unfold hit in Hb. apply andb_true_iff in Hb as [H1 H2]. apply starts_app in H1 as [r ->]. change (skipn 5 ((key ++ s_ "=") ++ r)) with r in H2.
    apply matches_seq. exists (s_ "seed=" ++ take_digits r), (drop_digits r). split; [rewrite <- (take_drop r) at 1; now rewrite <- !app_assoc|]. split.
    + apply new_seed_spec. eexists. split; [reflexivity|]. split; [|apply take_all]. rewrite starts_digit_take in H2. destruct (take_digits r); discriminate.
    + apply Forall_app in Hbb as [_ Hr]. rewrite <- (take_drop r) in Hr. apply Forall_app in Hr as [_ Hr]. now apply matches_star_char.
Qed.
Lemma has_hit_copy w rest : Forall (fun c => c <> "="%char) w -> separated key rest -> has_hit (w ++ rest) = has_hit rest.
Proof.
  intros Hw Hs. induction Hw as [|x w Hx Hw IH]; [reflexivity|]. cbn [app has_hit]. rewrite IH.
  replace (hit (x :: w ++ rest)) with false; [reflexivity|]. symmetry. unfold hit.
  pose proof (starts_no key (x :: w) rest (Forall_cons x Hx Hw) Hs) as S0. cbn [app] in S0. now rewrite S0.
Qed.
Lemma has_hit_param n v rest : Forall (fun c => c <> "="%char) n -> word value_char v -> separated key rest ->
  has_hit (n ++ s_ "=" ++ v ++ rest) = affected (n, v) || has_hit rest.
Proof.
  intros Hn Hv Hs. pose proof (value_no_eq v Hv) as Hve. unfold affected. cbn [fst snd]. induction Hn as [|x n Hx Hn IH].
  - cbn [app]. change (s_ "=" ++ v ++ rest) with ("="%char :: v ++ rest). cbn [has_hit ends_b]. rewrite has_hit_copy by assumption.
    destruct (str_dec [] key); [discriminate|]. reflexivity.
  - change ((x :: n) ++ s_ "=" ++ v ++ rest) with (x :: n ++ s_ "=" ++ v ++ rest). cbn [has_hit ends_b]. rewrite IH.
    unfold hit. change (x :: n ++ s_ "=" ++ v ++ rest) with ((x :: n) ++ s_ "=" ++ v ++ rest).
    rewrite starts_key by (auto using key_ne_eq). destruct (str_dec (x :: n) key) as [Ek|]; [|reflexivity].
    rewrite Ek. change (skipn 5 (key ++ s_ "=" ++ v ++ rest)) with (v ++ rest).
    assert (Ed : starts_digit (v ++ rest) = starts_digit v) by (destruct v; [destruct Hv; congruence|reflexivity]). rewrite Ed. injection Ek as -> ->.
    destruct (starts_digit v); [reflexivity|]. cbn [ends_b]. now rewrite !andb_false_r.
Qed.
Lemma has_hit_one p rest : wf_param p -> separated key rest -> has_hit (render_param p ++ rest) = affected p || has_hit rest.
Proof.
  intros [Hn Hv] Hs. destruct p as [n v]. cbn [fst snd] in *. unfold render_param. cbn [fst snd]. rewrite <- !app_assoc. apply has_hit_param; auto. now apply name_ne_eq.
Qed.
Lemma sep_tail k (ps : list param) : Forall (fun x => is_lower x = true) k -> separated k (List.concat (map (fun p => s_ " " ++ render_param p) ps)).
Proof. intros H. destruct ps; [now left|]. cbn [map List.concat app]. now apply sep_space. Qed.
Lemma has_hit_tail ps : Forall wf_param ps -> has_hit (List.concat (map (fun p => s_ " " ++ render_param p) ps)) = existsb affected ps.
Proof.
  intros H. induction H as [|p ps Hp Hps IH]; [reflexivity|]. cbn [map List.concat existsb].
  rewrite <- !app_assoc. change (s_ " " ++ ?t) with (" "%char :: t). cbn [has_hit].
  etransitivity; [apply (has_hit_one p _ Hp (sep_tail key ps key_lower))|]. now rewrite IH.
Qed.
Lemma has_hit_params ps : Forall wf_param ps -> has_hit (render_params ps) = existsb affected ps.
Proof.
  intros H. unfold render_params. destruct H as [|p ps Hp Hps]; [reflexivity|].
  cbn [map existsb]. rewrite join_cons, map_map. rewrite has_hit_one; [now rewrite has_hit_tail|assumption|apply sep_tail, key_lower].
Qed.

(** ** InjectSeed *)
Definition injected (seed : Z) (ps : list param) : list param :=
  if existsb affected ps then map (set_seed (decimal seed)) ps else ps ++ [(key, decimal seed)].
Lemma join_snoc l x : join (l ++ [x]) = (if 0 <? length l then join l ++ s_ " " else []) ++ x.
Proof.
  destruct l as [|y l]; [reflexivity|]. cbn [app length]. rewrite !join_cons, map_app, concat_app. cbn [map List.concat].
  change (0 <? S (length l)) with true. cbv iota. now rewrite app_nil_r, <- !app_assoc.
Qed.
Lemma inject_spec d ty args seed : descriptor d ty args -> inject_seed d seed = render ty (Some (injected seed (params_of args))).
Proof.
  intros H. assert (Hval : is_valid_descriptor d = true) by (apply valid_spec; eauto). unfold inject_seed. rewrite Hval. cbv zeta.
  rewrite (extract_configuration_spec _ _ _ H), (extract_layer_type_spec _ _ _ H). destruct H as [[Hty Hps] ->].
  rewrite has_seed_spec by now apply params_any. rewrite has_hit_params by assumption. unfold injected. destruct (existsb affected (params_of args)) eqn:E.
  - destruct args as [ps|]; [|discriminate]. cbn [params_of] in *. unfold regex_replace. apply rep_descriptor; [reflexivity|split; assumption].
  - unfold render. f_equal. f_equal. unfold render_params. rewrite map_app. cbn [map]. rewrite join_snoc, map_length.
    assert (El : (0 <? length (join (map render_param (params_of args)))) = (0 <? length (params_of args))).
    { destruct (params_of args) as [|[n v] ps] eqn:Ep; [reflexivity|]. cbn [map]. rewrite join_cons. inversion Hps as [|? ? [[Hn _] _] _]; subst. destruct n; [cbn in Hn; congruence|]. reflexivity. }
    rewrite El. rewrite <- !app_assoc. reflexivity.
Qed.

Lemma decimal_word z : (0 <= z)%Z -> word is_digit (decimal z).
Proof. intros H. split; [apply decimal_nonempty|now apply decimal_digits]. Qed.
Lemma word_value s : word is_digit s -> word value_char s.
Proof. intros [H1 H2]. split; [exact H1|]. eapply Forall_impl; [|exact H2]. apply digit_value_char. Qed.
Lemma drop_value s : Forall (fun c => value_char c = true) s -> Forall (fun c => value_char c = true) (drop_digits s).
Proof. intros H. rewrite <- (take_drop s) in H. now apply Forall_app in H. Qed.
Lemma set_seed_wf z p : (0 <= z)%Z -> wf_param p -> wf_param (set_seed (decimal z) p).
Proof.
  intros Hz [Hn [Hv1 Hv2]]. unfold set_seed. destruct (affected p); [|split; [|split]; auto]. split; cbn [fst snd]; [exact Hn|].
  destruct (word_value _ (decimal_word z Hz)) as [D1 D2]. split.
  - destruct (decimal z); [congruence|discriminate].
  - apply Forall_app. split; [exact D2|now apply drop_value].
Qed.
Lemma injected_wf z ps : (0 <= z)%Z -> Forall wf_param ps -> Forall wf_param (injected z ps).
Proof.
  intros Hz H. unfold injected. destruct (existsb affected ps).
  - rewrite Forall_map. eapply Forall_impl; [|exact H]. intros p. now apply set_seed_wf.
  - apply Forall_app. split; [exact H|]. constructor; [|constructor]. split; [split; [discriminate|apply key_lower]|now apply word_value, decimal_word].
Qed.
Lemma set_seed_affected z p : (0 <= z)%Z -> affected (set_seed (decimal z) p) = affected p.
Proof.
  intros Hz. unfold set_seed. destruct (affected p) eqn:E; [|exact E]. unfold affected in *. cbn [fst snd]. apply andb_true_iff in E as [-> _].
  destruct (decimal_word z Hz) as [D1 D2]. destruct D2; [congruence|]. cbn. assumption.
Qed.
Lemma set_seed_twice z z' p : (0 <= z)%Z -> set_seed (decimal z') (set_seed (decimal z) p) = set_seed (decimal z') p.
Proof.
  intros Hz. unfold set_seed at 1. rewrite set_seed_affected by assumption. unfold set_seed. destruct (affected p) eqn:E; [|reflexivity].
  cbn [fst snd]. f_equal. f_equal. rewrite drop_app by now apply decimal_digits. clear E. destruct p as [n v]. cbn [snd]. induction v as [|c v IH]; [reflexivity|].
  cbn [drop_digits]. destruct (is_digit c) eqn:Ec; [exact IH|]. cbn [drop_digits]. now rewrite Ec.
Qed.
Lemma injected_twice z z' ps : (0 <= z)%Z -> injected z' (injected z ps) = injected z' ps.
Proof.
  intros Hz. unfold injected at 2 3. destruct (existsb affected ps) eqn:E.
  - unfold injected. assert (E' : existsb affected (map (set_seed (decimal z)) ps) = true).
    { rewrite existsb_exists in *. destruct E as (p & Hp & Ha). exists (set_seed (decimal z) p). split; [now apply in_map|]. now rewrite set_seed_affected. }
    rewrite E'. rewrite map_map. apply map_ext. intros p. now apply set_seed_twice.
  - unfold injected. rewrite existsb_app, E. cbn [existsb orb]. assert (A : affected (key, decimal z) = true).
    { unfold affected. cbn [fst snd]. destruct (decimal_word z Hz) as [D1 D2]. destruct D2 as [|d ds Hd _]; [congruence|]. cbn [starts_digit]. now rewrite Hd. }
    rewrite A. cbn [orb]. rewrite map_app. cbn [map]. f_equal.
    + rewrite <- (map_id ps) at 2. apply map_ext_in. intros p Hp. unfold set_seed. destruct (affected p) eqn:Ep; [|reflexivity].
      exfalso. assert (existsb affected ps = true) by (apply existsb_exists; eauto). congruence.
    + unfold set_seed. rewrite A. cbn [fst snd]. rewrite <- (app_nil_r (decimal z)), drop_app by now apply decimal_digits. cbn. now rewrite app_nil_r.
Qed.

(** ** Reading the parameters of a descriptor *)
Lemma ends_key k n : ends_b k n = true -> exists m, n = m ++ k.
Proof. intros H. now apply ends_b_spec. Qed.
Section Lookup.
Variable k : str.
Hypothesis Hk : word is_lower k.
Let Hke : Forall (fun c => c <> "="%char) k := name_ne_eq k Hk.
Let Hkl : Forall (fun c => is_lower c = true) k := proj2 Hk.
Notation K := (k ++ s_ "=").

Lemma find_copy i w rest : Forall (fun c => c <> "="%char) w -> separated k rest -> find_from i K (w ++ rest) = find_from (i + length w) K rest.
Proof.
  intros Hw Hs. revert i. induction Hw as [|x w Hx Hw IH]; intros i; [cbn; now rewrite Nat.add_0_r|].
  cbn [app find_from]. pose proof (starts_no k (x :: w) rest (Forall_cons x Hx Hw) Hs) as S0. cbn [app] in S0. rewrite S0.
  rewrite IH. f_equal. cbn [length]. lia.
Qed.
Lemma find_param i n v rest : Forall (fun c => c <> "="%char) n -> word value_char v -> separated k rest ->
  find_from i K (n ++ s_ "=" ++ v ++ rest) =
  if ends_b k n then Some (i + (length n - length k)) else find_from (i + length (n ++ s_ "=" ++ v)) K rest.
Proof.
  intros Hn Hv Hs. pose proof (value_no_eq v Hv) as Hve. revert i. induction Hn as [|x n Hx Hn IH]; intros i.
  - assert (S0 : starts K ([] ++ s_ "=" ++ v ++ rest) = false).
    { rewrite starts_key by auto. destruct (str_dec [] k) as [E|]; [|reflexivity]. pose proof (proj1 Hk). congruence. }
    cbn [ends_b]. destruct (str_dec [] k) as [E|]; [pose proof (proj1 Hk); congruence|].
    cbn [app] in *. change (s_ "=" ++ v ++ rest) with ("="%char :: v ++ rest) in *. cbn [find_from]. rewrite S0, find_copy by assumption. f_equal. cbn [length]. rewrite app_length. cbn [s_ list_ascii_of_string length]. lia.
  - assert (Hxn : Forall (fun c => c <> "="%char) (x :: n)) by now constructor.
    pose proof (starts_key k (x :: n) (v ++ rest) Hke Hxn) as S0. cbn [ends_b]. cbn [app] in *. cbn [find_from]. rewrite S0. destruct (str_dec (x :: n) k) as [<-|].
    + f_equal. lia.
    + rewrite IH. destruct (ends_b k n) eqn:E.
      * f_equal. apply ends_key in E as [m ->]. cbn [length]. rewrite app_length. lia.
      * f_equal. cbn [length]. lia.
Qed.
Lemma find_one i p rest : wf_param p -> separated k rest ->
  find_from i K (render_param p ++ rest) =
  if ends_b k (fst p) then Some (i + (length (fst p) - length k)) else find_from (i + length (render_param p)) K rest.
Proof.
  intros [Hn Hv] Hs. destruct p as [n v]. cbn [fst snd] in *. unfold render_param. cbn [fst snd]. rewrite <- !app_assoc. apply find_param; auto. now apply name_ne_eq.
Qed.
(** The first parameter whose name ends in the key. *)
Definition lookup (ps : list param) : option str := match List.find (fun p => ends_b k (fst p)) ps with Some p => Some (snd p) | None => None end.
Definition found_at (i : nat) (text : str) (o : option str) : Prop :=
  match o with
  | None => find_from i K text = None
  | Some v => exists before after, text = before ++ k ++ s_ "=" ++ v ++ after /\
      find_from i K text = Some (i + length before) /\ (after = [] \/ exists r, after = " "%char :: r) /\ word value_char v
  end.
Lemma found_cons p ps rest i : wf_param p -> separated k rest -> (rest = [] \/ exists r, rest = " "%char :: r) ->
  found_at (i + length (render_param p)) rest (lookup ps) -> found_at i (render_param p ++ rest) (lookup (p :: ps)).
Proof.
  intros Hp Hs Hr IH. pose proof (find_one i p rest Hp Hs) as F. unfold lookup. cbn [List.find]. destruct (ends_b k (fst p)) eqn:E.
  - apply ends_key in E as [m E]. cbn [found_at]. exists m, rest. destruct Hp as [Hn Hv]. unfold render_param at 1. rewrite E. split; [now rewrite <- !app_assoc|].
    split; [|auto]. rewrite F, E. f_equal. rewrite app_length. lia.
  - change (found_at i (render_param p ++ rest) (lookup ps)). unfold found_at in *. rewrite F. destruct (lookup ps) as [v|]; [|exact IH].
    destruct IH as (before & after & E1 & E2 & E3 & E4). exists (render_param p ++ before), after. split; [rewrite E1; now rewrite <- !app_assoc|].
    split; [|auto]. rewrite E2. f_equal. rewrite app_length. lia.
Qed.
Lemma found_nil i : found_at i [] (lookup []).
Proof. unfold lookup, found_at. cbn [List.find find_from]. pose proof (starts_no k [] [] (Forall_nil _) (or_introl eq_refl)) as S0. cbn [app] in S0. now rewrite S0. Qed.
Lemma find_tail ps i : Forall wf_param ps -> found_at i (List.concat (map (fun p => s_ " " ++ render_param p) ps)) (lookup ps).
Proof.
  intros H. revert i. induction H as [|p ps Hp Hps IH]; intros i; [apply found_nil|].
  cbn [map List.concat]. rewrite <- app_assoc. change (s_ " " ++ ?t) with (" "%char :: t).
  pose proof (found_cons p ps (List.concat (map (fun p => s_ " " ++ render_param p) ps)) (S i) Hp (sep_tail k ps Hkl) (tail_starts ps) (IH _)) as F.
  set (T := render_param p ++ List.concat (map (fun p => s_ " " ++ render_param p) ps)) in *.
  assert (S0 : starts K (" "%char :: T) = false) by (apply (starts_no k [] (" "%char :: T)); [constructor|now apply sep_space]).
  change (found_at i (" "%char :: T) (lookup (p :: ps))). unfold found_at in *. cbn [find_from]. rewrite S0. destruct (lookup (p :: ps)) as [v|]; [|exact F].
  destruct F as (before & after & E1 & E2 & E3 & E4). exists (" "%char :: before), after. split; [now rewrite E1|]. split; [|auto]. rewrite E2. f_equal. cbn [length]. lia.
Qed.
Lemma find_params ps i : Forall wf_param ps -> found_at i (render_params ps) (lookup ps).
Proof.
  intros H. destruct H as [|p ps Hp Hps]; [apply found_nil|]. unfold render_params. cbn [map]. rewrite join_cons, map_map.
  apply found_cons; auto using sep_tail, tail_starts, find_tail.
Qed.

Lemma param_text_params ps : Forall wf_param ps -> param_text (render_params ps) k = Ok (lookup ps).
Proof.
  intros H. pose proof (find_params ps 0 H) as F. unfold found_at in F. destruct (lookup ps) as [v|].
  - destruct F as (before & after & E1 & E2 & E3 & [_ E4]). apply param_text_value. exists before, after. split; [exact E1|].
    split; [eapply Forall_impl; [|exact Hkl]; intros c Hc ->; discriminate|]. split; [eapply Forall_impl; [|exact E4]; apply value_ne_space|]. split; [exact E3|].
    intros j Hj. pose proof (find_from_spec 0 K (render_params ps)) as S. rewrite E2 in S. destruct S as (q & Eq & _ & _ & Hq). cbn in Eq. subst q.
    destruct (Nat.le_gt_cases (length before) j); [assumption|]. apply occurs_starts in Hj. rewrite Hq in Hj by assumption. discriminate.
  - unfold param_text. unfold find. cbn [Nat.leb skipn]. now rewrite F.
Qed.
End Lookup.

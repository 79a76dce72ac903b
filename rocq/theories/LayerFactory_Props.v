(** C45 and C46: layer descriptors and seed injection. *)
From Coq Require Import Ascii String List.
From Verif Require Import Base Str_Model Str_Proofs Regex_Model Regex_Proofs LayerFactory_Model LayerFactory_Spec LayerFactory_Proofs
  Config_Model Config_Spec Config_Proofs Seed_Proofs.
Local Open Scope string_scope.
Local Open Scope list_scope.
Local Open Scope nat_scope.

(** ** C45 *)

(** The classes of characters. *)
Theorem C45_characters : forall c,
  (is_lower c = true <-> In c (s_ "abcdefghijklmnopqrstuvwxyz")) /\
  (is_upper c = true <-> In c (s_ "ABCDEFGHIJKLMNOPQRSTUVWXYZ")) /\
  (is_digit c = true <-> In c (s_ "0123456789")).
Proof.
  assert (H : forall c, (is_lower c = existsb (Ascii.eqb c) (s_ "abcdefghijklmnopqrstuvwxyz")) /\
    (is_upper c = existsb (Ascii.eqb c) (s_ "ABCDEFGHIJKLMNOPQRSTUVWXYZ")) /\ (is_digit c = existsb (Ascii.eqb c) (s_ "0123456789"))).
  { intros [[] [] [] [] [] [] [] []]; repeat split; reflexivity. }
  intros c. destruct (H c) as (-> & -> & ->). split; [|split];
    (rewrite existsb_exists; split; [intros (x & Hx & E); apply Ascii.eqb_eq in E as <-; exact Hx|intros Hx; exists c; split; [exact Hx|apply Ascii.eqb_refl]]).
Qed.
Print Assumptions C45_characters.

(** A descriptor is accepted exactly if it is a type with an optional list of parameters. *)
Theorem C45_valid : forall d, is_valid_descriptor d = true <-> exists ty args, descriptor d ty args.
Proof. exact valid_spec. Qed.
Print Assumptions C45_valid.

(** There is only one way to read a descriptor. *)
Theorem C45_parse_unique : forall d ty args ty' args', descriptor d ty args -> descriptor d ty' args' -> ty = ty' /\ args = args'.
Proof. exact descriptor_unique. Qed.
Print Assumptions C45_parse_unique.

(** The parts extracted are the type and the text of the parameters. *)
Theorem C45_extract : forall d ty args, descriptor d ty args ->
  extract_layer_type d = ty /\ extract_configuration d = render_params (params_of args).
Proof. intros d ty args H. split; [eapply extract_layer_type_spec|eapply extract_configuration_spec]; exact H. Qed.
Print Assumptions C45_extract.

(** Put together they are the descriptor, up to the optional parentheses around an empty list. *)
Theorem C45_reassemble : forall d, is_valid_descriptor d = true ->
  d = extract_layer_type d ++ s_ "(" ++ extract_configuration d ++ s_ ")" \/ (d = extract_layer_type d /\ extract_configuration d = []).
Proof.
  intros d H. apply valid_spec in H as (ty & args & H). rewrite (extract_configuration_spec _ _ _ H), (extract_layer_type_spec _ _ _ H).
  destruct H as [_ ->]. destruct args as [ps|]; [left; reflexivity|right]. split; [unfold render; apply app_nil_r|reflexivity].
Qed.
Print Assumptions C45_reassemble.

(** The regular expressions leave no choice: every way to match them on a valid descriptor captures the same text. *)
Theorem C45_group_unique : forall d, is_valid_descriptor d = true ->
  (forall x g y, d = x ++ g ++ y -> matches (RSeq (RPlus (RChar is_lower)) (RLit (s_ "("))) x -> matches (RPlus RAny) g -> matches (RLit (s_ ")")) y ->
     g = extract_configuration d) /\
  (forall g y, d = g ++ y -> matches (RPlus (RChar is_lower)) g -> matches (ROpt (RSeq (RLit (s_ "(")) (RSeq (RStar RAny) (RLit (s_ ")"))))) y ->
     g = extract_layer_type d).
Proof.
  intros d H. apply valid_spec in H as (ty & args & H). rewrite (extract_configuration_spec _ _ _ H), (extract_layer_type_spec _ _ _ H).
  destruct H as [[Hty Hps] ->]. split.
  - intros x g y E Hx Hg Hy. apply matches_seq in Hx as (t & o & -> & Ht & Ho). apply matches_lit in Ho as ->. apply matches_lit in Hy as ->.
    apply matches_plus_char in Ht. rewrite <- !app_assoc in E. change (s_ "(" ++ ?r) with ("("%char :: r) in E. unfold render in E. destruct args as [ps|].
    + change (s_ "(" ++ ?r) with ("("%char :: r) in E. apply split_unique in E as [_ E]; auto using word_ne_par. now apply app_close in E.
    + rewrite app_nil_r in E. exfalso. eapply split_absent; [|exact E]. now apply word_ne_par.
  - intros g y E Hg Hy. apply matches_plus_char in Hg. apply matches_opt in Hy as [->|Hy].
    + rewrite app_nil_r in E. unfold render in E. destruct args as [ps|]; [|now rewrite app_nil_r in E]. exfalso.
      change (s_ "(" ++ ?r) with ("("%char :: r) in E. symmetry in E. eapply split_absent; [|exact E]. now apply word_ne_par.
    + apply matches_seq in Hy as (o & u & -> & Ho & _). apply matches_lit in Ho as ->. change (s_ "(" ++ ?r) with ("("%char :: r) in E. unfold render in E. destruct args as [ps|].
      * change (s_ "(" ++ ?r) with ("("%char :: r) in E. apply split_unique in E as [E _]; auto using word_ne_par.
      * rewrite app_nil_r in E. exfalso. eapply split_absent; [|exact E]. now apply word_ne_par.
Qed.
Print Assumptions C45_group_unique.

(** The layers the factory knows. *)
Definition known_layers : list (string * layer_class) :=
  [ ("convolution", ConvolutionC); ("maxpooling", MaxPoolingC); ("amaxpooling", AdvancedMaxPoolingC); ("tanh", TanhC); ("sigm", SigmoidC);
    ("relu", ReLUC); ("gradientaccumulation", GradientAccumulationC); ("resize", ResizeC); ("hmax", HMaxC) ].
Lemma str_eqb_spec a b : str_eqb a b = true <-> a = b.
Proof.
  unfold str_eqb. rewrite andb_true_iff, starts_app, Nat.eqb_eq. split.
  - intros [[r ->] H]. rewrite app_length in H. destruct r; [now rewrite app_nil_r|cbn in H; lia].
  - intros ->. split; [exists []; now rewrite app_nil_r|reflexivity].
Qed.
Lemma table_known : layer_table = map (fun e => (s_ (fst e), snd e)) known_layers. Proof. reflexivity. Qed.
Lemma known_unique n c c' : In (n, c) layer_table -> In (n, c') layer_table -> c = c'.
Proof.
  assert (H : forallb (fun e => forallb (fun e' => negb (str_eqb (fst e) (fst e')) || match snd e, snd e' with
    | ConvolutionC, ConvolutionC | MaxPoolingC, MaxPoolingC | AdvancedMaxPoolingC, AdvancedMaxPoolingC | TanhC, TanhC | SigmoidC, SigmoidC
    | ReLUC, ReLUC | GradientAccumulationC, GradientAccumulationC | ResizeC, ResizeC | HMaxC, HMaxC => true | _, _ => false end) layer_table) layer_table = true) by (vm_compute; reflexivity).
  intros H1 H2. rewrite forallb_forall in H. specialize (H _ H1). rewrite forallb_forall in H. specialize (H _ H2). cbn [fst snd] in H.
  replace (str_eqb n n) with true in H by (symmetry; now apply str_eqb_spec). cbn [negb orb] in H. destruct c, c'; congruence.
Qed.
(** A layer is constructed exactly for valid descriptors with a known type; its constructor gets the parameters. *)
Theorem C45_construct : forall d c cfg,
  construct_layer d = Some (c, cfg) <-> exists name args, descriptor d (s_ name) args /\ In (name, c) known_layers /\ cfg = render_params (params_of args).
Proof.
  intros d c cfg. unfold construct_layer. split.
  - destruct (is_valid_descriptor d) eqn:V; [|discriminate]. apply valid_spec in V as (ty & args & H). cbv zeta.
    rewrite (extract_configuration_spec _ _ _ H), (extract_layer_type_spec _ _ _ H).
    destruct (List.find _ layer_table) as [e|] eqn:F; [|discriminate]. intros [= <- <-]. apply find_some in F as [F1 F2]. apply str_eqb_spec in F2. subst ty.
    rewrite table_known in F1. apply in_map_iff in F1 as ([n c] & <- & Hin). exists n, args. cbn [fst snd]. auto.
  - intros (n & args & H & Hin & ->). assert (V : is_valid_descriptor d = true) by (apply valid_spec; eauto). rewrite V. cbv zeta.
    rewrite (extract_configuration_spec _ _ _ H), (extract_layer_type_spec _ _ _ H).
    assert (Hin' : In (s_ n, c) layer_table) by (rewrite table_known; apply in_map_iff; exists (n, c); auto).
    destruct (List.find _ layer_table) as [[n' c']|] eqn:F.
    + apply find_some in F as [F1 F2]. cbn [fst] in F2. apply str_eqb_spec in F2. subst n'. cbn [snd]. now rewrite (known_unique _ _ _ F1 Hin').
    + exfalso. pose proof (List.find_none _ _ F _ Hin') as X. cbn [fst] in X. assert (str_eqb (s_ n) (s_ n) = true) by now apply str_eqb_spec. congruence.
Qed.
Print Assumptions C45_construct.

Example C45_witness :
  descriptor (s_ "convolution(kernels=12 size=5x5 llr=0.5)") (s_ "convolution") (Some [(s_ "kernels", s_ "12"); (s_ "size", s_ "5x5"); (s_ "llr", s_ "0.5")]) /\
  construct_layer (s_ "convolution(kernels=12 size=5x5 llr=0.5)") = Some (ConvolutionC, s_ "kernels=12 size=5x5 llr=0.5") /\
  is_valid_descriptor (s_ "tanh()") = true /\ is_valid_descriptor (s_ "tanh") = true /\ is_valid_descriptor (s_ "tanh( )") = false /\
  is_valid_descriptor (s_ "conv(a=1  b=2)") = false /\ is_valid_descriptor (s_ "conv(a=-1)") = false /\ is_valid_descriptor (s_ "Conv") = false.
Proof.
  split; [|vm_compute; repeat split].
  split; [|reflexivity]. split; [split; [discriminate|repeat constructor]|].
  repeat (constructor; [split; (split; [discriminate|repeat constructor])|]). constructor.
Qed.

(** ** C46 *)
Lemma inject_invalid d seed : is_valid_descriptor d = false -> inject_seed d seed = d.
Proof. intros H. unfold inject_seed. now rewrite H. Qed.
Theorem C46_invalid_unchanged : forall d seed, (forall ty args, ~ descriptor d ty args) -> inject_seed d seed = d.
Proof.
  intros d seed H. apply inject_invalid. destruct (is_valid_descriptor d) eqn:E; [|reflexivity]. apply valid_spec in E as (ty & args & E). now apply H in E.
Qed.
Print Assumptions C46_invalid_unchanged.

(** The result is a valid descriptor of the same type. *)
Theorem C46_valid : forall d ty args seed, (0 <= seed)%Z -> descriptor d ty args -> exists ps', descriptor (inject_seed d seed) ty (Some ps').
Proof.
  intros d ty args seed Hs H. exists (injected seed (params_of args)). split; [|now apply inject_spec]. destruct H as [[Hty Hps] _]. split; [exact Hty|]. now apply injected_wf.
Qed.
Print Assumptions C46_valid.

(** In the usual case the seed is set, and everything else is unchanged and in order. *)
Definition is_seed (p : param) : bool := if list_eq_dec ascii_dec (fst p) (s_ "seed") then true else false.
Lemma tidy_affected ps p : tidy ps -> Forall wf_param ps -> In p ps -> affected p = is_seed p.
Proof.
  intros Ht Hw Hin. destruct p as [n v]. unfold affected, is_seed. cbn [fst snd]. destruct (list_eq_dec ascii_dec n (s_ "seed")) as [->|Hne].
  - rewrite Forall_forall in Hw. destruct (Hw _ Hin) as [_ [Hv0 _]]. cbn [snd] in Hv0. destruct (Ht _ _ Hin) as [_ Hd]; [exists []; reflexivity|].
    destruct Hd as [|c v Hc _]; [congruence|]. cbn [starts_digit]. now rewrite Hc.
  - destruct (ends_b key n) eqn:E; [|reflexivity]. apply ends_b_spec in E. destruct (Ht _ _ Hin E) as [-> _]. congruence.
Qed.
Lemma tidy_set ps p z : tidy ps -> Forall wf_param ps -> In p ps -> set_seed (decimal z) p = if is_seed p then (s_ "seed", decimal z) else p.
Proof.
  intros Ht Hw Hin. pose proof (tidy_affected ps p Ht Hw Hin) as A. unfold set_seed. rewrite A. destruct (is_seed p) eqn:E; [|reflexivity].
  destruct p as [n v]. unfold is_seed in E. cbn [fst snd] in *. destruct (list_eq_dec ascii_dec n (s_ "seed")) as [->|]; [|discriminate].
  destruct (Ht _ _ Hin) as [_ Hd]; [exists []; reflexivity|]. rewrite <- (app_nil_r v), drop_app by exact Hd. cbn [drop_digits]. now rewrite app_nil_r.
Qed.
Theorem C46_inject : forall d ty args seed, (0 <= seed)%Z -> descriptor d ty args -> tidy (params_of args) ->
  exists ps', descriptor (inject_seed d seed) ty (Some ps') /\
    In (s_ "seed", decimal seed) ps' /\
    (forall v, In (s_ "seed", v) ps' -> v = decimal seed) /\
    filter (fun p => negb (is_seed p)) ps' = filter (fun p => negb (is_seed p)) (params_of args) /\
    tidy ps'.
Proof.
  intros d ty args seed Hs H Ht. exists (injected seed (params_of args)). destruct (C46_valid _ _ _ seed Hs H) as [q Hq].
  pose proof (inject_spec _ _ _ seed H) as E. destruct H as [[Hty Hps] ->]. split.
  { split; [split; [exact Hty|now apply injected_wf]|exact E]. }
  set (ps := params_of args) in *. unfold injected. destruct (existsb affected ps) eqn:Ex.
  - assert (Em : map (set_seed (decimal seed)) ps = map (fun p => if is_seed p then (s_ "seed", decimal seed) else p) ps).
    { apply map_ext_in. intros p Hp. now apply (tidy_set ps). }
    rewrite Em. split; [|split; [|split]].
    + apply existsb_exists in Ex as (p & Hp & Ha). rewrite (tidy_affected ps p Ht Hps Hp) in Ha. apply in_map_iff. exists p. now rewrite Ha.
    + intros v Hv. apply in_map_iff in Hv as (p & Ep & Hp). destruct (is_seed p) eqn:Es; [congruence|]. subst p. discriminate.
    + clear. induction ps as [|p ps IH]; [reflexivity|]. cbn [map filter]. destruct (is_seed p) eqn:E; cbn [negb].
      * change (is_seed (s_ "seed", decimal seed)) with true. exact IH.
      * rewrite E. cbn [negb]. now rewrite IH.
    + intros n v Hin He. apply in_map_iff in Hin as (p & Ep & Hp). destruct (is_seed p); [injection Ep as <- <-; split; [reflexivity|now apply decimal_digits]|]. subst p. now apply Ht.
  - assert (Hno : forall p, In p ps -> is_seed p = false).
    { intros p Hp. rewrite <- (tidy_affected ps p Ht Hps Hp). destruct (affected p) eqn:Ea; [|reflexivity]. rewrite <- Ex. symmetry. apply existsb_exists. eauto. }
    split; [|split; [|split]].
    + apply in_or_app. right. now left.
    + intros v Hv. apply in_app_or in Hv as [Hv|[Hv|[]]]; [|congruence]. specialize (Hno _ Hv). discriminate.
    + rewrite filter_app. cbn [filter]. change (is_seed (key, decimal seed)) with true. cbn [negb]. apply app_nil_r.
    + intros n v Hin He. apply in_app_or in Hin as [Hin|[Hin|[]]]; [now apply Ht|]. injection Hin as <- <-. split; [reflexivity|now apply decimal_digits].
Qed.
Print Assumptions C46_inject.

(** A later injection overrides an earlier one, for every descriptor; so injecting twice is injecting once. *)
Theorem C46_override : forall d s1 s2, (0 <= s1)%Z -> inject_seed (inject_seed d s1) s2 = inject_seed d s2.
Proof.
  intros d s1 s2 H1. destruct (is_valid_descriptor d) eqn:E.
  - apply valid_spec in E as (ty & args & H). rewrite (inject_spec _ _ _ s2 H).
    assert (H' : descriptor (inject_seed d s1) ty (Some (injected s1 (params_of args)))).
    { split; [|now apply inject_spec]. destruct H as [[Hty Hps] _]. split; [exact Hty|now apply injected_wf]. }
    rewrite (inject_spec _ _ _ s2 H'). cbn [params_of]. now rewrite injected_twice.
  - now rewrite (inject_invalid d s1 E).
Qed.
Print Assumptions C46_override.

(** A layer constructed from the new descriptor reads the injected seed, if it fits into an int. *)
Theorem C46_read_back : forall d ty args seed old, (0 <= seed <= 2147483647)%Z -> descriptor d ty args -> tidy (params_of args) ->
  parse_count (extract_configuration (inject_seed d seed)) (s_ "seed") old = Ok seed.
Proof.
  intros d ty args seed old Hs H Ht. destruct (C46_inject d ty args seed) as (ps' & Hd & Hin & Hall & _ & Ht'); auto; [lia|].
  rewrite (extract_configuration_spec _ _ _ Hd). cbn [params_of]. unfold parse_count.
  assert (Hk : word is_lower (s_ "seed")) by (split; [discriminate|repeat constructor]).
  destruct Hd as [[_ Hps] _]. cbn [params_of] in Hps. rewrite param_text_params by assumption. cbn [bind]. unfold lookup.
  match goal with |- context [List.find ?f ?l] => destruct (List.find f l) as [[n v]|] eqn:F end.
  - apply find_some in F as [F1 F2]. cbn [fst snd] in *. apply ends_b_spec in F2. destruct (Ht' _ _ F1 F2) as [-> _]. rewrite (Hall _ F1).
    rewrite <- (app_nil_r (decimal seed)), atoi_decimal by (lia || now left). cbn [bind]. unfold to_uint. f_equal. apply Z.mod_small. lia.
  - exfalso. pose proof (List.find_none _ _ F _ Hin) as X. cbn in X. discriminate.
Qed.
Print Assumptions C46_read_back.

Example C46_witness :
  inject_seed (s_ "convolution(kernels=3 seed=42 size=5x5)") 7 = s_ "convolution(kernels=3 seed=7 size=5x5)" /\
  inject_seed (s_ "convolution(kernels=3)") 2015 = s_ "convolution(kernels=3 seed=2015)" /\
  inject_seed (s_ "convolution") 1 = s_ "convolution(seed=1)" /\ inject_seed (s_ "convolution()") 1 = s_ "convolution(seed=1)" /\
  tidy [(s_ "kernels", s_ "3"); (s_ "seed", s_ "42"); (s_ "size", s_ "5x5")].
Proof.
  repeat split; try reflexivity; cbn [In] in H; destruct H as [[= <- <-]|[[= <- <-]|[[= <- <-]|[]]]]; try reflexivity; try (repeat constructor);
    exfalso; apply ends_b_spec in H0; discriminate.
Qed.

(** Without the restriction the claim fails: another parameter's value is overwritten ... *)
Theorem C46_inject_refuted : exists d seed, is_valid_descriptor d = true /\ d = s_ "a(xseed=5)" /\ inject_seed d seed = s_ "a(xseed=7)".
Proof. exists (s_ "a(xseed=5)"), 7%Z. repeat split. Qed.
(** ... a seed that is not a number stays in front of the new one, and a layer reads that one ... *)
Theorem C46_text_seed_refuted : exists d seed, is_valid_descriptor d = true /\ inject_seed d seed = s_ "a(seed=x seed=7)" /\
  parse_count (extract_configuration (inject_seed d seed)) (s_ "seed") 1 = Ok 0%Z.
Proof. exists (s_ "a(seed=x)"), 7%Z. repeat split. Qed.
(** ... and a seed that does not fit into an int cannot be read back. *)
Theorem C46_large_seed_refuted : exists d seed, is_valid_descriptor d = true /\ (0 <= seed < 2 ^ 32)%Z /\
  parse_count (extract_configuration (inject_seed d seed)) (s_ "seed") 1 = UB.
Proof. exists (s_ "a"), 4294967295%Z. repeat split; lia. Qed.
Print Assumptions C46_large_seed_refuted.

From Coq Require Import Ascii String List.
From Verif Require Import Base Math_Spec Str_Model Str_Proofs Config_Model Config_Spec Config_Proofs Receptive_Model Receptive_Spec.
Local Open Scope string_scope.
Local Open Scope list_scope.
Local Open Scope nat_scope.



Lemma wf_stride l : wf_slayer l -> 0 < stride l.
Proof. destruct l; cbn [wf_slayer stride]; lia. Qed.
Lemma product_pos ls : Forall wf_slayer ls -> (1 <= product ls)%Z.
Proof. intros H. induction H as [|l ls Hl H IH]; cbn [product fold_right]; [lia|]. apply wf_stride in Hl. fold (product ls). nia. Qed.
Lemma ext_nonneg l : wf_slayer l -> modest l -> (0 <= ext l)%Z.
Proof. destruct l; cbn [wf_slayer modest ext]; lia. Qed.
Lemma border_nonneg ls : Forall wf_slayer ls -> Forall modest ls -> (0 <= border ls)%Z.
Proof.
  intros H. induction H as [|l ls Hl H IH]; intros M; cbn [border fold_right]; [lia|]. inversion M; subst. fold (border ls). specialize (IH H3). pose proof (ext_nonneg l Hl H2). nia.
Qed.

(** ** Sizes *)
Lemma positions_exact n k s q : 0 < s -> 0 < q -> n + 1 = k + s * q -> positions n k s = q.
Proof.
  intros Hs Hq H. unfold positions. destruct (Nat.ltb_spec n k); [nia|].
  replace (n - k) with (s - 1 + (q - 1) * s) by (destruct q; [lia|]; nia). rewrite Nat.div_add, Nat.div_small by lia. lia.
Qed.
Lemma yields_exact l n q : wf_slayer l -> 0 < q -> Z.of_nat n = (ext l + Z.of_nat (stride l) * Z.of_nat q)%Z -> yields l n q.
Proof.
  destruct l as [k s p|k|k s]; cbn [wf_slayer ext stride yields]; intros Hw Hq H.
  - assert (E : n + 2 * p + 1 = k + s * q) by lia. split; [nia|]. symmetry. apply positions_exact; lia.
  - lia.
  - assert (E : n + 1 = k + s * q) by lia. split; [nia|]. symmetry. apply positions_exact; lia.
Qed.
(** All intermediate images have at least one pixel. *)
Fixpoint roomy (ls : list slayer) (m : nat) : Prop :=
  match ls with [] => True | _ :: ls' => (1 <= border ls' + product ls' * Z.of_nat m)%Z /\ roomy ls' m end.
Lemma modest_roomy ls m : Forall wf_slayer ls -> Forall modest ls -> 0 < m -> roomy ls m.
Proof.
  intros H M Hm. induction H as [|l ls Hl H IH]; cbn; [exact I|]. inversion M; subst. split; [|auto]. pose proof (border_nonneg ls H H3). pose proof (product_pos ls H). nia.
Qed.
Lemma network_exact ls n m : Forall wf_slayer ls -> roomy ls m -> Z.of_nat n = (border ls + product ls * Z.of_nat m)%Z -> network_yields ls n m.
Proof.
  intros H. revert n. induction H as [|l ls Hl H IH]; intros n R E; cbn [network_yields border product fold_right] in *; [lia|]. fold (border ls) in E. fold (product ls) in E.
  destruct R as [R1 R2]. exists (Z.to_nat (border ls + product ls * Z.of_nat m)). split.
  - apply yields_exact; [exact Hl|lia|]. rewrite Z2Nat.id by lia. lia.
  - apply IH; [exact R2|]. rewrite Z2Nat.id; lia.
Qed.

(** ** Dependency *)
Definition low (l : slayer) : Z := match l with SConv _ _ p => (- Z.of_nat p)%Z | _ => 0%Z end.
Definition ksize (l : slayer) : Z := match l with SConv k _ _ => Z.of_nat k | SPool k => Z.of_nat k | SAPool k _ => Z.of_nat k end.
Lemma uses_spec l j i : uses l j i <-> (j * Z.of_nat (stride l) + low l <= i < j * Z.of_nat (stride l) + low l + ksize l)%Z.
Proof. destruct l; cbn [uses stride low ksize]; lia. Qed.
Fixpoint first_dep (ls : list slayer) : Z := match ls with [] => 0%Z | l :: ls' => (first_dep ls' * Z.of_nat (stride l) + low l)%Z end.
Fixpoint extent (ls : list slayer) : Z := match ls with [] => 1%Z | l :: ls' => ((extent ls' - 1) * Z.of_nat (stride l) + ksize l)%Z end.
Lemma ksize_pos l : wf_slayer l -> (1 <= ksize l)%Z.
Proof. destruct l; cbn [wf_slayer stride ksize]; lia. Qed.
Lemma extent_pos ls : Forall wf_slayer ls -> (1 <= extent ls)%Z.
Proof. intros H. induction H as [|l ls Hl H IH]; cbn [extent]; [lia|]. pose proof (ksize_pos l Hl). nia. Qed.
Lemma depends_hull ls j : Forall wf_slayer ls ->
  let lo := (j * product ls + first_dep ls)%Z in
  depends ls j lo /\ depends ls j (lo + extent ls - 1)%Z /\ forall i, depends ls j i -> (lo <= i <= lo + extent ls - 1)%Z.
Proof.
  intros H. induction H as [|l ls Hl H IH]; cbn [depends product fold_right first_dep extent].
  - cbv zeta. repeat split; lia.
  - cbv zeta in *. fold (product ls). destruct IH as (A & B & C). pose proof (wf_stride l Hl) as Hs. pose proof (ksize_pos l Hl) as Hk. pose proof (extent_pos ls H) as He.
    split; [|split].
    + exists (j * product ls + first_dep ls)%Z. split; [|exact A]. apply uses_spec. nia.
    + eexists. split; [|exact B]. apply uses_spec. nia.
    + intros i (q & U & Dq). apply C in Dq. apply uses_spec in U. set (s := Z.of_nat (stride l)) in *. set (q0 := (j * product ls + first_dep ls)%Z) in *.
      assert (M1 : (q0 * s <= q * s)%Z) by (apply Z.mul_le_mono_nonneg_r; lia).
      assert (M2 : (q * s <= (q0 + extent ls - 1) * s)%Z) by (apply Z.mul_le_mono_nonneg_r; lia). subst q0. nia.
Qed.
(** If no stride is larger than its kernel, there are no gaps. *)
Definition overlapping (l : slayer) : Prop := (Z.of_nat (stride l) <= ksize l)%Z.
Lemma depends_interval ls j i : Forall wf_slayer ls -> Forall overlapping ls ->
  let lo := (j * product ls + first_dep ls)%Z in (lo <= i <= lo + extent ls - 1)%Z -> depends ls j i.
Proof.
  intros H. revert i. induction H as [|l ls Hl H IH]; intros i O; cbn [depends product fold_right first_dep extent]; cbv zeta in *.
  - lia.
  - inversion O as [|? ? Hov O']; subst. fold (product ls). intros Hi. specialize (IH) as IH'. pose proof (wf_stride l Hl) as Hs. pose proof (ksize_pos l Hl) as Hk.
    unfold overlapping in Hov. set (s := Z.of_nat (stride l)) in *. set (q0 := (j * product ls + first_dep ls)%Z) in *.
    pose proof (extent_pos ls H) as He. set (e := extent ls) in *.
    assert (Hi' : (q0 * s + low l <= i <= q0 * s + low l + (e - 1) * s + ksize l - 1)%Z) by (subst q0; nia). clear Hi.
    set (d := (i - low l - q0 * s)%Z). assert (Hd : (0 <= d <= (e - 1) * s + ksize l - 1)%Z) by (unfold d; lia).
    pose proof (Z.div_mod d s) as DM. pose proof (Z.mod_pos_bound d s) as MB. assert (Hs' : (0 < s)%Z) by (subst s; lia). specialize (DM ltac:(lia)). specialize (MB Hs').
    exists (q0 + Z.min (d / s) (e - 1))%Z. split.
    + apply uses_spec. fold s. destruct (Z.min_spec (d / s) (e - 1)) as [[M1 M2]|[M1 M2]]; rewrite M2; unfold d in *; nia.
    + apply IH; [exact O'|]. fold e q0. pose proof (Z.div_pos d s). lia.
Qed.

(** How the reported size and the window differ. *)
Definition tight (l : slayer) : Prop := match l with SConv _ s p => s = 1 /\ p = 0 | SPool _ => True | SAPool _ s => s = 1 end.
Lemma border_extent ls : Forall tight ls -> (border ls + product ls = extent ls)%Z /\ first_dep ls = 0%Z.
Proof.
  intros H. induction H as [|l ls Hl H [IH1 IH2]]; cbn [border product fold_right extent first_dep]; [lia|]. fold (border ls). fold (product ls). rewrite IH2, <- IH1.
  destruct l as [k s p|k|k s]; cbn [tight stride ext ksize low] in *; split; try lia.
Qed.
Fixpoint slack (ls : list slayer) : Z :=
  match ls with
  | [] => 0%Z
  | l :: ls' => ((match l with SConv _ s p => Z.of_nat s - 1 - 2 * Z.of_nat p | SPool _ => 0 | SAPool _ s => Z.of_nat s - 1 end) + Z.of_nat (stride l) * slack ls')%Z
  end.
Lemma border_slack ls : (border ls + product ls = extent ls + slack ls)%Z.
Proof.
  induction ls as [|l ls IH]; cbn [border product fold_right extent slack]; [lia|]. fold (border ls). fold (product ls).
  destruct l as [k s p|k|k s]; cbn [stride ext ksize] in *; nia.
Qed.

(** ** Reading the lines *)
Lemma pair_value line name a b : Forall (fun c => c <> "x"%char) name -> small a -> small b -> has_value line name (pair_text a b) ->
  kernel_size line name = Ok (Some (Z.of_nat a, Z.of_nat b)).
Proof.
  unfold small, pair_text. intros Hn Ha Hb H.
  assert (Hx : Forall (fun c => c <> "x"%char) (decimal (Z.of_nat a))).
  { eapply Forall_impl; [|apply decimal_digits; lia]. intros c Hc ->. discriminate. }
  rewrite (kernel_size_text line name (decimal (Z.of_nat a)) (decimal (Z.of_nat b)) H Hn Hx).
  rewrite <- (app_nil_r (decimal (Z.of_nat a))), <- (app_nil_r (decimal (Z.of_nat b))), !atoi_decimal by (auto; lia || now left). cbn [bind]. unfold to_uint. now rewrite !Z.mod_small by lia.
Qed.
Lemma pair_setting_value line name d v : Forall (fun c => c <> "x"%char) name -> small (fst v) -> small (snd v) -> pair_setting line name d v ->
  parse_kernel_size line name (Z.of_nat (fst d)) (Z.of_nat (snd d)) = Ok (Z.of_nat (fst v), Z.of_nat (snd v)).
Proof.
  intros Hn Ha Hb [H|[H ->]]; unfold parse_kernel_size.
  - now rewrite (pair_value line name (fst v) (snd v)).
  - now rewrite kernel_size_none.
Qed.
Lemma to_int_small n : small n -> to_int (Z.of_nat n) = Z.of_nat n.
Proof. unfold small, to_int. intros H. destruct (Z.ltb_spec (Z.of_nat n) (2 ^ 31)); [reflexivity|]. change (2 ^ 31)%Z with 2147483648%Z in *. lia. Qed.
Lemma int_ok z : (-2147483648 <= z <= 2147483647)%Z -> int_ z = Ok z.
Proof. intros H. unfold int_, int_range. destruct (Z.leb_spec (-2147483648) z); [|lia]. destruct (Z.leb_spec z 2147483647); [reflexivity|lia]. Qed.
Lemma mul_uint_ok f s : (0 <= f * s <= 2147483647)%Z -> mul_uint f s = (f * s)%Z.
Proof. intros H. unfold mul_uint, to_uint, to_int. rewrite Z.mod_small by lia. change (2 ^ 31)%Z with 2147483648%Z. destruct (Z.ltb_spec (f * s) 2147483648); lia. Qed.

(** What a layer does to one axis. *)
Definition step (l : slayer) (a : axis) : axis := mkAxis (a_rf a + a_factor a * ext l) (a_factor a * Z.of_nat (stride l)).
Definition room (l : slayer) (a : axis) : Prop :=
  (0 <= a_rf a /\ 0 <= a_factor a /\ a_rf a + a_factor a * ext l <= 2147483647 /\ a_factor a * Z.of_nat (stride l) <= 2147483647)%Z.

Definition read_axis (l : slayer) (a : axis) : res axis :=
  match l with
  | SConv k s p => conv_axis (Z.of_nat k) (Z.of_nat s) (Z.of_nat p) a
  | SPool k => Ok (pool_axis (Z.of_nat k) a)
  | SAPool k s => apool_axis (Z.of_nat k) (Z.of_nat s) a
  end.
Lemma read_axis_ok l a : wf_slayer l -> modest l -> numbers l -> room l a -> read_axis l a = Ok (step l a).
Proof.
  intros Hw Hm Hn (R1 & R2 & R3 & R4). unfold step. destruct l as [k s p|k|k s]; cbn [read_axis wf_slayer modest numbers ext stride] in *.
  - destruct Hn as (N1 & N2 & N3). unfold conv_axis. rewrite !to_int_small by assumption. unfold small in *.
    rewrite int_ok by lia. cbn [bind]. rewrite int_ok by lia. cbn [bind]. rewrite int_ok by lia. cbn [bind].
    replace (Z.of_nat k - 1 - Z.of_nat p - Z.of_nat p)%Z with (Z.of_nat k - 1 - 2 * Z.of_nat p)%Z by lia.
    set (e := (Z.of_nat k - 1 - 2 * Z.of_nat p)%Z) in *. assert (0 <= e)%Z by (subst e; lia). assert (0 <= a_factor a * e)%Z by nia.
    rewrite int_ok by lia. cbn [bind]. rewrite int_ok by lia. cbn [bind]. rewrite mul_uint_ok by nia. reflexivity.
  - unfold pool_axis. rewrite mul_uint_ok by nia. now rewrite Z.mul_0_r, Z.add_0_r.
  - destruct Hn as (N1 & N2). unfold apool_axis. rewrite !to_int_small by assumption. unfold small in *. rewrite int_ok by lia. cbn [bind].
    assert (0 <= a_factor a * (Z.of_nat k - 1))%Z by nia. rewrite int_ok by lia. cbn [bind]. rewrite int_ok by lia. cbn [bind]. rewrite mul_uint_ok by nia. reflexivity.
Qed.

Definition step_both (o : option (slayer * slayer)) (g : geo) : geo :=
  match o with None => g | Some l => mkGeo (step (fst l) (g_x g)) (step (snd l) (g_y g)) (g_ignore g) (g_patch g) end.
Definition room_both (o : option (slayer * slayer)) (g : geo) : Prop := match o with None => True | Some l => room (fst l) (g_x g) /\ room (snd l) (g_y g) end.

Definition not_x (s : str) : Prop := Forall (fun c => c <> "x"%char) s.
Lemma nx_size : not_x (s_ "size"). Proof. repeat constructor; discriminate. Qed.
Lemma nx_stride : not_x (s_ "stride"). Proof. repeat constructor; discriminate. Qed.
Lemma nx_pad : not_x (s_ "pad"). Proof. repeat constructor; discriminate. Qed.

Lemma starts_false p s : (forall tail, s <> p ++ tail) -> starts p s = false.
Proof. intros H. destruct (starts p s) eqn:E; [|reflexivity]. apply starts_app in E as [r ->]. exfalso. now apply (H r). Qed.

Lemma ok_inj {A} (a b : A) : Ok a = Ok b -> a = b. Proof. now intros [= ->]. Qed.
Lemma read_layer_ok line o g : describes line o -> g_ignore g = false -> both wf_slayer o -> both modest o -> both numbers o -> room_both o g ->
  read_layer line g = Ok (step_both o g).
Proof.
  intros H Hi Hw Hm Hn Hr. unfold read_layer. rewrite Hi. cbn [negb]. rewrite andb_true_r.
  assert (Q : forall w tail, compare0 (s_ (String "?" w) ++ tail) (s_ "?") = true) by reflexivity.
  assert (T : forall w tail, substr (s_ (String "?" w) ++ tail) 1 = Ok (s_ w ++ tail)) by reflexivity.
  destruct H as [tail k s p H1 H2 H3|tail k H1|tail k H1|tail k s H1 H2|tail|line Hno]; cbn [both room_both step_both fst snd] in *.
  - rewrite Q, T. cbn [bind]. destruct Hn as ((N1 & N2 & N3) & (N4 & N5 & N6)).
    pose proof (pair_setting_value _ _ (1, 1) s nx_stride N2 N5 H2) as E2. change (Z.of_nat (fst (1, 1))) with 1%Z in E2. change (Z.of_nat (snd (1, 1))) with 1%Z in E2.
    pose proof (pair_setting_value _ _ (0, 0) p nx_pad N3 N6 H3) as E3. change (Z.of_nat (fst (0, 0))) with 0%Z in E3. change (Z.of_nat (snd (0, 0))) with 0%Z in E3.
    unfold read_conv, starts_with_identifier, compare0. rewrite starts_self, E2. cbn [bind]. rewrite E3. cbn [bind].
    rewrite (pair_value _ _ _ _ nx_size N1 N4 H1). cbn [bind initialized fst snd].
    pose proof (read_axis_ok (SConv (fst k) (fst s) (fst p)) (g_x g)) as X. pose proof (read_axis_ok (SConv (snd k) (snd s) (snd p)) (g_y g)) as Y. cbn [read_axis numbers] in X, Y.
    rewrite X by tauto. cbn [bind]. rewrite Y by tauto. reflexivity.
  - rewrite Q, T. cbn [bind]. unfold read_conv, read_pool, read_apool, starts_with_identifier, compare0.
    change (starts (s_ "convolutional") (s_ "maxpooling" ++ tail)) with false. cbv iota. cbn [bind]. rewrite starts_self. destruct Hn as [N1 N2].
    rewrite (pair_value _ _ _ _ nx_size N1 N2 H1). cbn [bind initialized fst snd].
    pose proof (read_axis_ok (SPool (fst k)) (g_x g)) as X. pose proof (read_axis_ok (SPool (snd k)) (g_y g)) as Y. cbn [read_axis numbers] in X, Y.
    specialize (X (proj1 Hw) (proj1 Hm) N1 (proj1 Hr)). specialize (Y (proj2 Hw) (proj2 Hm) N2 (proj2 Hr)). apply ok_inj in X, Y.
    rewrite X, Y. reflexivity.
  - rewrite Q, T. cbn [bind]. unfold read_conv, read_pool, read_apool, starts_with_identifier, compare0.
    change (starts (s_ "convolutional") (s_ "downsampling" ++ tail)) with false. change (starts (s_ "maxpooling") (s_ "downsampling" ++ tail)) with false. cbv iota. cbn [bind]. rewrite starts_self. destruct Hn as [N1 N2].
    rewrite (pair_value _ _ _ _ nx_size N1 N2 H1). cbn [bind initialized fst snd].
    pose proof (read_axis_ok (SPool (fst k)) (g_x g)) as X. pose proof (read_axis_ok (SPool (snd k)) (g_y g)) as Y. cbn [read_axis numbers] in X, Y.
    specialize (X (proj1 Hw) (proj1 Hm) N1 (proj1 Hr)). specialize (Y (proj2 Hw) (proj2 Hm) N2 (proj2 Hr)). apply ok_inj in X, Y.
    rewrite X, Y. reflexivity.
  - rewrite Q, T. cbn [bind]. destruct Hn as ((N1 & N2) & (N4 & N5)). unfold read_conv, read_pool, starts_with_identifier, compare0.
    change (starts (s_ "convolutional") (s_ "amaxpooling" ++ tail)) with false. change (starts (s_ "maxpooling") (s_ "amaxpooling" ++ tail)) with false.
    change (starts (s_ "downsampling") (s_ "amaxpooling" ++ tail)) with false. cbv iota. cbn [bind].
    unfold read_apool, starts_with_identifier, compare0. rewrite starts_self, (pair_value _ _ _ _ nx_size N1 N4 H1). cbn [bind initialized].
    pose proof (pair_setting_value _ _ k s nx_stride N2 N5 H2) as E2. cbn [fst snd] in E2 |- *. rewrite E2. cbn [bind fst snd].
    pose proof (read_axis_ok (SAPool (fst k) (fst s)) (g_x g)) as X. pose proof (read_axis_ok (SAPool (snd k) (snd s)) (g_y g)) as Y. cbn [read_axis numbers] in X, Y.
    rewrite X by tauto. cbn [bind]. rewrite Y by tauto. reflexivity.
  - reflexivity.
  - destruct (compare0 line (s_ "?")) eqn:E; [|reflexivity]. unfold compare0 in E. apply starts_app in E as [l ->].
    change (substr (s_ "?" ++ l) 1) with (Ok l). cbn [bind].
    assert (F : forall w, In (String "?" w) ["manual"; "?convolutional"; "?maxpooling"; "?downsampling"; "?amaxpooling"] -> starts (s_ w) l = false).
    { intros w Hin. rewrite Forall_forall in Hno. specialize (Hno _ Hin). apply starts_false. intros t ->. now apply (Hno t). }
    unfold read_conv, read_pool, read_apool, starts_with_identifier, compare0. rewrite (F "convolutional") by (cbn; tauto). cbn [bind].
    rewrite (F "maxpooling") by (cbn; tauto). cbn [bind]. rewrite (F "downsampling") by (cbn; tauto). cbn [bind]. now rewrite (F "amaxpooling") by (cbn; tauto).
Qed.

Lemma describes_manual line o g : describes line o -> (forall tail, line <> s_ "#" ++ tail) -> read_manual line g = Ok g.
Proof.
  intros H Hc. unfold read_manual, compare0. replace (starts (s_ "manual") line) with false; [reflexivity|]. symmetry. apply starts_false. intros t E. destruct H; try discriminate.
  rewrite Forall_forall in H. eapply (H "manual"); [now left|exact E].
Qed.

(** The method: PATCH if a line says so. *)
Definition has_patch (line : str) : Prop := (forall tail, line <> s_ "#" ++ tail) /\ exists v, has_value line (s_ "method") (s_ "patch" ++ v).
Definition line_patch (line : str) : bool :=
  negb (compare0 line (s_ "#")) && match parse_string_param line (s_ "method") [] with Ok m => compare0 m (s_ "patch") | _ => false end.
Definition set_patch (b : bool) (g : geo) : geo := mkGeo (g_x g) (g_y g) (g_ignore g) (b || g_patch g).
Lemma method_no_space : Forall (fun c => c <> " "%char) (s_ "method"). Proof. repeat constructor; discriminate. Qed.
Lemma span_space (s : str) : exists v r, s = v ++ r /\ Forall (fun c => c <> " "%char) v /\ (r = [] \/ exists r', r = " "%char :: r').
Proof.
  induction s as [|c s (v & r & -> & Hv & Hr)]; [exists [], []; auto|]. destruct (ascii_dec c " ") as [->|Hc].
  - exists [], (" "%char :: v ++ r). repeat split; [constructor|right; eauto].
  - exists (c :: v), r. auto.
Qed.
Lemma value_cases line name : Forall (fun c => c <> " "%char) name -> absent name line \/ exists value, has_value line name value.
Proof.
  intros Hn. pose proof (find_from_spec 0 (name ++ s_ "=") line) as F. destruct (find_from 0 (name ++ s_ "=") line) as [n|].
  - right. destruct F as (k & -> & Hk & Hs & Hf). cbn [plus] in *. apply starts_occurs in Hs as (b & a & E & Hl); [|exact Hk].
    destruct (span_space a) as (v & r & -> & Hv & Hr). exists v, b, r. repeat split; auto. intros j Hj.
    destruct (Nat.le_gt_cases (length b) j); [assumption|]. apply occurs_starts in Hj. rewrite Hf in Hj by lia. discriminate.
  - left. intros j Hj. pose proof Hj as (b & a & E & Hl). apply occurs_starts in Hj. rewrite F in Hj; [discriminate|]. subst. rewrite !app_length. lia.
Qed.
Lemma method_value line : exists m, parse_string_param line (s_ "method") [] = Ok m /\ (compare0 m (s_ "patch") = true <-> exists v, has_value line (s_ "method") (s_ "patch" ++ v)).
Proof.
  unfold parse_string_param. destruct (value_cases line (s_ "method") method_no_space) as [H|[v H]].
  - rewrite param_text_absent by exact H. exists []. split; [reflexivity|]. split; [discriminate|]. intros (v & b & r & E & _). exfalso. apply (H (length b)). exists b. eexists. split; [exact E|reflexivity].
  - rewrite (param_text_value _ _ _ H). exists v. split; [reflexivity|]. unfold compare0. rewrite starts_app. split.
    + intros [r ->]. eauto.
    + intros [w Hw]. pose proof (param_text_value _ _ _ H) as E1. rewrite (param_text_value _ _ _ Hw) in E1. injection E1 as E1. exists w. symmetry. exact E1.
Qed.
Lemma line_patch_spec line : line_patch line = true <-> has_patch line.
Proof.
  unfold line_patch, has_patch. destruct (method_value line) as (m & -> & Hm). rewrite andb_true_iff, negb_true_iff, Hm. split; intros [A B]; (split; [|exact B]).
  - intros t ->. unfold compare0 in A. now rewrite starts_self in A.
  - now apply starts_false.
Qed.

Lemma read_line_ok training line o g : describes line o -> g_ignore g = false -> both wf_slayer o -> both modest o -> both numbers o -> room_both o g ->
  read_line training g line = Ok (step_both o (set_patch (training && line_patch line) g)).
Proof.
  intros H Hi Hw Hm Hn Hr. unfold read_line, line_patch. destruct (compare0 line (s_ "#")) eqn:E.
  - cbn [negb andb]. rewrite andb_false_r. replace o with (@None (slayer * slayer)); [cbn; now destruct g|]. unfold compare0 in E. destruct H; try discriminate; reflexivity.
  - assert (Hc : forall tail, line <> s_ "#" ++ tail) by (intros t ->; unfold compare0 in E; now rewrite starts_self in E).
    unfold read_method. destruct (method_value line) as (m & -> & _). cbn [bind negb andb].
    assert (Eg : (if compare0 m (s_ "patch") then if training then mkGeo (g_x g) (g_y g) (g_ignore g) true else g else g) = set_patch (training && compare0 m (s_ "patch")) g).
    { unfold set_patch. destruct (compare0 m (s_ "patch")), training, g; reflexivity. }
    rewrite Eg, (describes_manual line o) by assumption. cbn [bind]. apply read_layer_ok; auto.
Qed.

Definition advance (ls : list slayer) (a : axis) : axis := mkAxis (a_rf a + a_factor a * border ls) (a_factor a * product ls).
Lemma advance_step l ls a : advance ls (step l a) = advance (l :: ls) a.
Proof. unfold advance, step. cbn [a_rf a_factor border product fold_right]. fold (border ls). fold (product ls). f_equal; lia. Qed.
Definition good (a : axis) : Prop := (0 <= a_rf a /\ 1 <= a_factor a)%Z.
Definition fits (a : axis) : Prop := (a_rf a <= 2147483647 /\ a_factor a <= 2147483647)%Z.
Lemma room_of l ls a : wf_slayer l -> modest l -> Forall wf_slayer ls -> Forall modest ls -> good a -> fits (advance (l :: ls) a) -> room l a /\ good (step l a).
Proof.
  intros Hl Hm Hls Hms [G1 G2] [F1 F2]. unfold advance in *. cbn [a_rf a_factor border product fold_right] in *. fold (border ls) in F1. fold (product ls) in F2.
  pose proof (border_nonneg ls Hls Hms). pose proof (product_pos ls Hls). pose proof (ext_nonneg l Hl Hm). pose proof (wf_stride l Hl).
  set (s := Z.of_nat (stride l)) in *. assert (1 <= s)%Z by (subst s; lia). set (f := a_factor a) in *.
  assert (0 <= f * ext l)%Z by nia. assert (0 <= f * (s * border ls))%Z by (apply Z.mul_nonneg_nonneg; nia). assert (1 <= f * s)%Z by nia.
  assert (f * s * 1 <= f * s * product ls)%Z by (apply Z.mul_le_mono_nonneg_l; lia).
  unfold room, good, step. cbn [a_rf a_factor]. fold s f. repeat split; lia.
Qed.

Lemma read_lines_ok training lines os g : Forall2 describes lines os -> g_ignore g = false ->
  Forall (both wf_slayer) os -> Forall (both modest) os -> Forall (both numbers) os ->
  good (g_x g) -> good (g_y g) -> fits (advance (map fst (somes os)) (g_x g)) -> fits (advance (map snd (somes os)) (g_y g)) ->
  foldm (read_line training) lines g =
  Ok (mkGeo (advance (map fst (somes os)) (g_x g)) (advance (map snd (somes os)) (g_y g)) false (training && existsb line_patch lines || g_patch g)).
Proof.
  intros H. revert g. induction H as [|line o lines os Hd H IH]; intros g Hi Hw Hm Hn Gx Gy Fx Fy.
  - cbn. rewrite andb_false_r. cbn. destruct g as [[x1 x2] [y1 y2] i p]. cbn in *. subst i. unfold advance. cbn. f_equal. f_equal; f_equal; lia.
  - inversion Hw as [|? ? Hw1 Hw2]; subst. inversion Hm as [|? ? Hm1 Hm2]; subst. inversion Hn as [|? ? Hn1 Hn2]; subst.
    assert (HH : forall f, Forall (both f) os -> Forall f (map fst (somes os)) /\ Forall f (map snd (somes os))).
    { intros f Hf. clear - Hf. induction Hf as [|[[a b]|] os Ho Hf [IH1 IH2]]; cbn; auto. destruct Ho. cbn in *. auto. }
    destruct (HH _ Hw2) as [W1 W2]. destruct (HH _ Hm2) as [M1 M2].
    cbn [foldm]. destruct o as [[lx ly]|]; cbn [somes flat_map app map fst snd] in *; fold (somes os) in *; fold (somes os) in *.
    + cbn [both fst snd] in *. change (flat_map (fun o => match o with Some l => [l] | None => [] end) os) with (somes os) in *.
      destruct (room_of lx (map fst (somes os)) (g_x g)) as [R1 G1]; try tauto. destruct (room_of ly (map snd (somes os)) (g_y g)) as [R2 G2]; try tauto.
      rewrite (read_line_ok training line (Some (lx, ly)) g) by (cbn; auto). cbn [bind]. rewrite IH; cbn [step_both set_patch g_x g_y g_ignore g_patch fst snd]; auto;
        rewrite ?advance_step; auto. f_equal. f_equal. cbn [existsb]. destruct training, (line_patch line), (existsb line_patch lines), (g_patch g); reflexivity.
    + rewrite (read_line_ok training line None g) by (cbn; auto). cbn [bind]. rewrite IH; cbn [step_both set_patch g_x g_y g_ignore g_patch fst snd]; auto.
      f_equal. f_equal. cbn [existsb]. destruct training, (line_patch line), (existsb line_patch lines), (g_patch g); reflexivity.
Qed.

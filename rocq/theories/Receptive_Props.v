(** C48: receptive field and scale factor. *)
From Coq Require Import Ascii String List.
From Verif Require Import Base BaseFacts Math_Spec Math_Model ConvLayer_Model Conv_Proofs Conv_Props Pool_Model Pool_Spec Pool_Proofs Pool_Props
  Str_Model Str_Proofs Config_Model Config_Spec Config_Proofs Receptive_Model Receptive_Spec Receptive_Proofs.
Local Open Scope string_scope.
Local Open Scope list_scope.
Local Open Scope nat_scope.

(** The size relation is the one of the layers. *)
Theorem C48_layers :
  (forall kw kh sw sh pw ph maps group w h m ow oh, 0 < sw -> 0 < sh -> 0 < group ->
     (Z.of_nat kw < 2 ^ 32)%Z -> (Z.of_nat kh < 2 ^ 32)%Z -> (Z.of_nat sw < 2 ^ 32)%Z -> (Z.of_nat sh < 2 ^ 32)%Z ->
     (Z.of_nat (w + 2 * pw) < 2 ^ 64)%Z -> (Z.of_nat (h + 2 * ph) < 2 ^ 64)%Z -> m mod group = 0 ->
     conv_insert (mkConv kw kh maps sw sh pw ph group) w h m = Ok (Some (Z.of_nat ow, Z.of_nat oh)) <->
     yields (SConv kw sw pw) w ow /\ yields (SConv kh sh ph) h oh) /\
  (forall rw rh w h ow oh, 0 < rw -> 0 < rh -> pool_create rw rh w h = Ok (Some (ow, oh)) <-> yields (SPool rw) w ow /\ yields (SPool rh) h oh) /\
  (forall rw rh sw sh w h ow oh, 0 < sw -> 0 < sh -> yields (SAPool rw sw) w ow -> yields (SAPool rh sh) h oh ->
     apool_create rw rh sw sh w h = Ok (Z.of_nat ow, Z.of_nat oh)).
Proof.
  split; [|split].
  - intros kw kh sw sh pw ph maps group w h m ow oh H1 H2 H3 H4 H5 H6 H7 H8 H9 H10. rewrite (C44_accepts (mkConv kw kh maps sw sh pw ph group)) by assumption.
    cbn [cv_kw cv_kh cv_sw cv_sh cv_pw cv_ph cv_group yields]. split.
    + intros (A & B & _ & E). injection E as E1 E2. apply Nat2Z.inj in E1, E2. auto.
    + intros [[A ->] [B ->]]. auto.
  - intros rw rh w h ow oh H1 H2. rewrite C39_accepts by assumption. reflexivity.
  - intros rw rh sw sh w h ow oh H1 H2 [A ->] [B ->]. now apply C40_create.
Qed.
Print Assumptions C48_layers.

(** An input of [border + product * m] pixels gives exactly [m] output pixels: every layer accepts its input. *)
Theorem C48_exact : forall ls n m, Forall wf_slayer ls -> Forall modest ls -> 0 < m -> Z.of_nat n = (border ls + product ls * Z.of_nat m)%Z -> network_yields ls n m.
Proof. intros ls n m Hw Hm H0 E. apply network_exact; auto. now apply modest_roomy. Qed.
Print Assumptions C48_exact.

(** What the factory reports for a configuration. *)
Definition overflow_free (ls : list slayer) : Prop := (border ls + 2 * product ls <= 2147483647)%Z.
Theorem C48_reported : forall training text os,
  Forall2 describes (lines_of text) os -> Forall (both wf_slayer) os -> Forall (both modest) os -> Forall (both numbers) os ->
  let lx := map fst (somes os) in let ly := map snd (somes os) in
  overflow_free lx -> overflow_free ly ->
  (training = true /\ patch_method (lines_of text) ->
     factory training text = Ok (mkGeo (mkAxis (border lx + product lx) (product lx)) (mkAxis (border ly + product ly) (product ly)) false true)) /\
  (~ (training = true /\ patch_method (lines_of text)) ->
     factory training text = Ok (mkGeo (mkAxis (border lx) (product lx)) (mkAxis (border ly) (product ly)) false false)).
Proof.
  intros training text os Hd Hw Hm Hn lx ly Fx Fy. unfold overflow_free in *.
  assert (HH : forall f, Forall (both f) os -> Forall f lx /\ Forall f ly).
  { intros f Hf. unfold lx, ly. clear - Hf. induction Hf as [|[[a b]|] os Ho Hf [IH1 IH2]]; cbn; auto. destruct Ho. cbn in *. auto. }
  destruct (HH _ Hw) as [Wx Wy]. destruct (HH _ Hm) as [Mx My].
  pose proof (product_pos lx Wx). pose proof (product_pos ly Wy). pose proof (border_nonneg lx Wx Mx). pose proof (border_nonneg ly Wy My).
  assert (P : existsb line_patch (lines_of text) = true <-> patch_method (lines_of text)).
  { rewrite existsb_exists. unfold patch_method. split.
    - intros (l & Hl & Hp). apply line_patch_spec in Hp as [A [v B]]. eauto.
    - intros (l & v & Hl & A & B). exists l. split; [exact Hl|]. apply line_patch_spec. split; eauto. }
  pose proof (read_lines_ok training (lines_of text) os geo0 Hd eq_refl Hw Hm Hn) as R. cbn [geo0 g_x g_y g_ignore g_patch] in R. fold lx ly in R.
  unfold advance in R. cbn [a_rf a_factor] in R. rewrite !Z.mul_1_l, !Z.add_0_l in R. unfold good, fits in R. cbn [a_rf a_factor] in R. specialize (R ltac:(lia) ltac:(lia) ltac:(lia) ltac:(lia)).
  unfold factory. fold geo0 in R. rewrite orb_false_r in R. split.
  - intros [-> Hp]. apply P in Hp. rewrite R, Hp. cbn [andb bind g_patch g_x g_y]. unfold add_factor. cbn [a_rf a_factor].
    rewrite int_ok by lia. cbn [bind]. rewrite int_ok by lia. cbn [bind g_x g_y a_rf a_factor]. rewrite int_ok by lia. cbn [bind]. rewrite int_ok by lia. reflexivity.
  - intros Hno. assert (E : training && existsb line_patch (lines_of text) = false).
    { destruct training; [|reflexivity]. cbn [andb]. destruct (existsb line_patch (lines_of text)) eqn:E; [|reflexivity]. exfalso. apply Hno. split; [reflexivity|now apply P]. }
    rewrite R, E. cbn [bind g_patch g_x g_y]. unfold add_factor. cbn [a_rf a_factor]. rewrite int_ok by lia. cbn [bind]. rewrite int_ok by lia. reflexivity.
Qed.
Print Assumptions C48_reported.

Lemma ok_inj' {A} (a b : A) : Ok a = Ok b -> a = b. Proof. now intros [= ->]. Qed.
Lemma both_forall os f : Forall (both f) os -> Forall f (map fst (somes os)) /\ Forall f (map snd (somes os)).
Proof. intros Hf. induction Hf as [|[[a b]|] os Ho Hf [IH1 IH2]]; cbn; auto. destruct Ho. cbn in *. auto. Qed.

(** Training on patches: a patch of the reported size gives exactly one output pixel. *)
Theorem C48_patch : forall text os g,
  Forall2 describes (lines_of text) os -> Forall (both wf_slayer) os -> Forall (both modest) os -> Forall (both numbers) os ->
  overflow_free (map fst (somes os)) -> overflow_free (map snd (somes os)) -> patch_method (lines_of text) -> factory true text = Ok g ->
  network_yields (map fst (somes os)) (Z.to_nat (a_rf (g_x g))) 1 /\ network_yields (map snd (somes os)) (Z.to_nat (a_rf (g_y g))) 1 /\
  a_factor (g_x g) = product (map fst (somes os)) /\ a_factor (g_y g) = product (map snd (somes os)).
Proof.
  intros text os g Hd Hw Hm Hn Fx Fy Hp E. destruct (C48_reported true text os Hd Hw Hm Hn Fx Fy) as [R _]. rewrite (R (conj eq_refl Hp)) in E. apply ok_inj' in E. subst g.
  cbn [g_x g_y a_rf a_factor]. destruct (both_forall _ _ Hw) as [Wx Wy]. destruct (both_forall _ _ Hm) as [Mx My].
  pose proof (product_pos _ Wx). pose proof (product_pos _ Wy). pose proof (border_nonneg _ Wx Mx). pose proof (border_nonneg _ Wy My).
  repeat split; auto; (apply C48_exact; auto; rewrite Z2Nat.id; lia).
Qed.
Print Assumptions C48_patch.

(** Otherwise: an image that is enlarged by the reported border gives one output pixel for each block of
    [factor] pixels, so that the output enlarged by the factor has the size of the image. *)
Theorem C48_fcn : forall training text os g,
  Forall2 describes (lines_of text) os -> Forall (both wf_slayer) os -> Forall (both modest) os -> Forall (both numbers) os ->
  overflow_free (map fst (somes os)) -> overflow_free (map snd (somes os)) -> ~ (training = true /\ patch_method (lines_of text)) -> factory training text = Ok g ->
  (forall w m, 0 < m -> Z.of_nat w = (a_factor (g_x g) * Z.of_nat m)%Z -> network_yields (map fst (somes os)) (w + Z.to_nat (a_rf (g_x g))) m) /\
  (forall h m, 0 < m -> Z.of_nat h = (a_factor (g_y g) * Z.of_nat m)%Z -> network_yields (map snd (somes os)) (h + Z.to_nat (a_rf (g_y g))) m) /\
  a_factor (g_x g) = product (map fst (somes os)) /\ a_factor (g_y g) = product (map snd (somes os)).
Proof.
  intros training text os g Hd Hw Hm Hn Fx Fy Hp E. destruct (C48_reported training text os Hd Hw Hm Hn Fx Fy) as [_ R]. rewrite (R Hp) in E. apply ok_inj' in E. subst g.
  cbn [g_x g_y a_rf a_factor]. destruct (both_forall _ _ Hw) as [Wx Wy]. destruct (both_forall _ _ Hm) as [Mx My].
  pose proof (border_nonneg _ Wx Mx). pose proof (border_nonneg _ Wy My).
  repeat split; auto; intros w m Hpos Ew; (apply C48_exact; auto; rewrite Nat2Z.inj_add, Z2Nat.id; lia).
Qed.
Print Assumptions C48_fcn.

(** A line that sets the sizes manually overrides all layers before and after it. *)
Lemma count_value line name z old : (0 <= z <= 2147483647)%Z -> has_value line name (decimal z) -> parse_count line name old = Ok z.
Proof.
  intros Hz H. unfold parse_count. rewrite (param_text_value _ _ _ H). cbn [bind]. rewrite <- (app_nil_r (decimal z)), atoi_decimal by (auto; now left).
  cbn [bind]. unfold to_uint. f_equal. apply Z.mod_small. lia.
Qed.
Lemma to_int_id z : (0 <= z <= 2147483647)%Z -> to_int z = z.
Proof. intros H. unfold to_int. change (2 ^ 31)%Z with 2147483648%Z. destruct (Z.ltb_spec z 2147483648); lia. Qed.
Lemma ignored_lines training rest x y p : Forall (fun l => forall t, l <> s_ "manual" ++ t) rest ->
  exists p', foldm (read_line training) rest (mkGeo x y true p) = Ok (mkGeo x y true p').
Proof.
  intros H. revert p. induction H as [|l rest Hl H IH]; intros p; [exists p; reflexivity|]. cbn [foldm]. unfold read_line at 1.
  destruct (compare0 l (s_ "#")); [apply IH|]. unfold read_method. destruct (method_value l) as (m & -> & _). cbn [bind].
  assert (E : exists q, (if compare0 m (s_ "patch") then if training then mkGeo x y true true else mkGeo x y true p else mkGeo x y true p) = mkGeo x y true q).
  { destruct (compare0 m (s_ "patch")), training; eauto. }
  cbn [g_x g_y g_ignore] in *. destruct E as [q ->]. unfold read_manual, compare0. rewrite (starts_false (s_ "manual") l Hl). cbn [bind].
  unfold read_layer. cbn [g_ignore negb]. rewrite andb_false_r. cbn [bind]. apply IH.
Qed.
Theorem C48_manual : forall training before tail rest rfx rfy fx fy g,
  let line := s_ "manual" ++ tail in
  (0 < rfx <= 2147483647)%Z -> (0 < rfy <= 2147483647)%Z -> (0 <= fx <= 2147483647)%Z -> (0 <= fy <= 2147483647)%Z ->
  has_value line (s_ "rfx") (decimal rfx) -> has_value line (s_ "rfy") (decimal rfy) ->
  has_value line (s_ "factorx") (decimal fx) -> has_value line (s_ "factory") (decimal fy) ->
  Forall (fun l => forall t, l <> s_ "manual" ++ t) rest ->
  foldm (read_line training) before geo0 = Ok g ->
  exists patch, foldm (read_line training) (before ++ line :: rest) geo0 = Ok (mkGeo (mkAxis rfx fx) (mkAxis rfy fy) true patch).
Proof.
  intros training before tail rest rfx rfy fx fy g line H1 H2 H3 H4 V1 V2 V3 V4 Hr Hb.
  rewrite foldm_app, Hb. cbn [bind foldm]. unfold read_line at 1.
  change (compare0 line (s_ "#")) with false. cbv iota. unfold read_method. destruct (method_value line) as (m & -> & _). cbn [bind].
  set (g1 := if compare0 m (s_ "patch") then if training then mkGeo (g_x g) (g_y g) (g_ignore g) true else g else g). unfold read_manual.
  change (compare0 line (s_ "manual")) with true. cbv iota.
  rewrite (count_value line _ rfx), (count_value line _ rfy), (count_value line _ fx), (count_value line _ fy) by (auto; lia). cbn [bind].
  destruct (Z.ltb_spec 0 rfx); [|lia]. destruct (Z.ltb_spec 0 rfy); [|lia]. cbn [andb bind]. rewrite !to_int_id by lia.
  change (read_layer line (mkGeo (mkAxis rfx fx) (mkAxis rfy fy) true (g_patch g1))) with (Ok (mkGeo (mkAxis rfx fx) (mkAxis rfy fy) true (g_patch g1))). cbn [bind].
  now apply ignored_lines.
Qed.
Print Assumptions C48_manual.
Example C48_manual_witness : factory false (s_ "?convolutional size=7x5" ++ "010"%char :: s_ "manual rfx=40 rfy=30 factorx=4 factory=2" ++ "010"%char :: s_ "?maxpooling size=2x2") =
  Ok (mkGeo (mkAxis 40 4) (mkAxis 30 2) true false).
Proof. vm_compute. reflexivity. Qed.


(** A manual line that lacks one of the sizes, or says 0 for it, sets nothing (apart from the method it may name). *)
Definition count_setting (line name : str) (v : Z) : Prop := has_value line name (decimal v) \/ absent name line /\ v = 0%Z.
Lemma count_setting_value line name v : (0 <= v <= 2147483647)%Z -> count_setting line name v -> parse_count line name 0 = Ok v.
Proof. intros Hv [H|[H ->]]; [now apply count_value|]. unfold parse_count. now rewrite (param_text_absent _ _ H). Qed.
Theorem C48_manual_ignored : forall training tail rfx rfy fx fy g,
  let line := s_ "manual" ++ tail in
  (0 <= rfx <= 2147483647)%Z -> (0 <= rfy <= 2147483647)%Z -> (0 <= fx <= 2147483647)%Z -> (0 <= fy <= 2147483647)%Z ->
  count_setting line (s_ "rfx") rfx -> count_setting line (s_ "rfy") rfy -> count_setting line (s_ "factorx") fx -> count_setting line (s_ "factory") fy ->
  (rfx = 0 \/ rfy = 0)%Z ->
  exists patch, read_line training g line = Ok (mkGeo (g_x g) (g_y g) (g_ignore g) patch) /\
    (patch = g_patch g \/ training = true /\ patch = true /\ patch_method [line]).
Proof.
  intros training tail rfx rfy fx fy g line H1 H2 H3 H4 V1 V2 V3 V4 Z0. unfold read_line.
  change (compare0 line (s_ "#")) with false. cbv iota. unfold read_method. destruct (method_value line) as (m & -> & Hm). cbn [bind].
  set (g1 := if compare0 m (s_ "patch") then if training then mkGeo (g_x g) (g_y g) (g_ignore g) true else g else g). unfold read_manual.
  change (compare0 line (s_ "manual")) with true. cbv iota.
  rewrite (count_setting_value line _ rfx), (count_setting_value line _ rfy), (count_setting_value line _ fx), (count_setting_value line _ fy) by auto. cbn [bind].
  replace ((0 <? rfx) && (0 <? rfy))%Z with false by (destruct Z0 as [-> | ->]; [reflexivity|now rewrite andb_false_r]).
  change (read_layer line g1) with (Ok g1). exists (g_patch g1). unfold g1. destruct (compare0 m (s_ "patch")) eqn:Em; [|destruct g; auto].
  destruct training; [|destruct g; auto]. split; [reflexivity|]. right. split; [reflexivity|]. split; [reflexivity|].
  clear Em. destruct (proj1 Hm eq_refl) as (v & Ev). exists line, v. split; [now left|]. split; [discriminate|exact Ev].
Qed.
Print Assumptions C48_manual_ignored.
Example C48_manual_ignored_witness : factory false (s_ "?convolutional size=7x5" ++ "010"%char :: s_ "manual rfx=40 factorx=4") = Ok (mkGeo (mkAxis 6 1) (mkAxis 4 1) false false).
Proof. vm_compute. reflexivity. Qed.

(** Whatever is reported fits into an int: sizes that overflow are undefined behaviour. *)
Definition in_int (z : Z) : Prop := (-2147483648 <= z <= 2147483647)%Z.
Definition axis_in_int (a : axis) : Prop := in_int (a_rf a) /\ in_int (a_factor a).
Lemma int_in z v : int_ z = Ok v -> in_int v.
Proof. unfold int_, int_range, in_int. destruct (Z.leb_spec (-2147483648) z), (Z.leb_spec z 2147483647); cbn [andb]; intros E; inversion E; subst; lia. Qed.
Lemma to_int_in u : (0 <= u < 2 ^ 32)%Z -> in_int (to_int u).
Proof. unfold to_int, in_int. change (2 ^ 31)%Z with 2147483648%Z. change (2 ^ 32)%Z with 4294967296%Z. destruct (Z.ltb_spec u 2147483648); lia. Qed.
Lemma mul_uint_in f s : in_int (mul_uint f s).
Proof. apply to_int_in. unfold to_uint. apply Z.mod_pos_bound. reflexivity. Qed.
Lemma conv_axis_in k s p a b : conv_axis k s p a = Ok b -> axis_in_int b.
Proof.
  unfold conv_axis. destruct (int_ (to_int k - 1)); try discriminate. cbn [bind]. destruct (int_ (_ - _)); try discriminate. cbn [bind]. destruct (int_ (_ - _)); try discriminate. cbn [bind].
  destruct (int_ (_ * _)); try discriminate. cbn [bind]. destruct (int_ (_ + _)) eqn:E; try discriminate. cbn [bind]. intros H. injection H as <-. split; [now apply int_in in E|apply mul_uint_in].
Qed.
Lemma apool_axis_in k s a b : apool_axis k s a = Ok b -> axis_in_int b.
Proof.
  unfold apool_axis. destruct (int_ (to_int k - 1)); try discriminate. cbn [bind].
  destruct (int_ (_ * _)); try discriminate. cbn [bind]. destruct (int_ (_ + _)) eqn:E; try discriminate. cbn [bind]. intros H. injection H as <-. split; [now apply int_in in E|apply mul_uint_in].
Qed.
Definition geo_in_int (g : geo) : Prop := axis_in_int (g_x g) /\ axis_in_int (g_y g).
Ltac step_bind H := match type of H with bind ?x _ = Ok _ => let v := fresh "v" in let E := fresh "E" in destruct x as [v| |] eqn:E; cbn [bind] in H; [|discriminate H|discriminate H] end.
Lemma parse_count_in line name v : parse_count line name 0 = Ok v -> (0 <= v < 2 ^ 32)%Z.
Proof.
  unfold parse_count. intros H. step_bind H. destruct v0; [|injection H as <-; lia]. step_bind H. injection H as <-. unfold to_uint. apply Z.mod_pos_bound. reflexivity.
Qed.
Lemma read_line_in training g line g' : geo_in_int g -> read_line training g line = Ok g' -> geo_in_int g'.
Proof.
  intros G H. unfold read_line in H. destruct (compare0 line (s_ "#")); [injection H as <-; exact G|]. step_bind H. step_bind H.
  assert (G1 : geo_in_int v). { unfold read_method in E. step_bind E. apply ok_inj' in E. subst v. match goal with |- geo_in_int (if ?b then _ else _) => destruct b end; [|exact G]. now destruct training. }
  assert (G2 : geo_in_int v0).
  { unfold read_manual in E0. destruct (compare0 line (s_ "manual")); [|injection E0 as <-; exact G1]. do 4 step_bind E0. injection E0 as <-.
    destruct (_ && _); [|exact G1]. split; split; cbn; apply to_int_in; eapply parse_count_in; eauto. }
  unfold read_layer in H. destruct (_ && _); [|injection H as <-; exact G2]. do 4 step_bind H.
  assert (G3 : geo_in_int v2).
  { unfold read_conv in E2. destruct (starts_with_identifier _ _); [|injection E2 as <-; exact G2]. do 6 step_bind E2. injection E2 as <-. split; cbn; eapply conv_axis_in; eauto. }
  assert (P : forall id a b, geo_in_int a -> read_pool id v1 a = Ok b -> geo_in_int b).
  { intros id a b [[A1 A2] [A3 A4]] Hp. unfold read_pool in Hp. destruct (starts_with_identifier _ _); [|injection Hp as <-; split; split; assumption]. do 2 step_bind Hp. injection Hp as <-.
    split; split; cbn; auto; apply mul_uint_in. }
  apply P in E3; auto. apply P in E4; auto.
  unfold read_apool in H. destruct (starts_with_identifier _ _); [|injection H as <-; exact E4]. do 5 step_bind H. injection H as <-. split; cbn; eapply apool_axis_in; eauto.
Qed.
Theorem C48_range : forall training text g, factory training text = Ok g ->
  in_int (a_rf (g_x g)) /\ in_int (a_factor (g_x g)) /\ in_int (a_rf (g_y g)) /\ in_int (a_factor (g_y g)).
Proof.
  intros training text g H. unfold factory in H. step_bind H. step_bind H.
  assert (F : forall l a b, geo_in_int a -> foldm (read_line training) l a = Ok b -> geo_in_int b).
  { induction l as [|x l IH]; cbn [foldm]; intros a b Ha Hb; [injection Hb as <-; exact Ha|]. step_bind Hb. eapply IH; [|exact Hb]. eapply read_line_in; eauto. }
  apply F in E; [|repeat split; unfold in_int; cbn; lia].
  assert (AF : forall a b, axis_in_int a -> add_factor a = Ok b -> axis_in_int b).
  { intros a b [_ A2] Hb. unfold add_factor in Hb. step_bind Hb. injection Hb as <-. split; cbn; [eapply int_in; eauto|exact A2]. }
  assert (G : geo_in_int v0). { destruct E as [X Y]. destruct (g_patch v); [|injection E0 as <-; split; assumption]. do 2 step_bind E0. injection E0 as <-. split; cbn; (eapply AF; [|eassumption]; assumption). }
  do 2 step_bind H. injection H as <-. destruct G as [[? ?] [? ?]]. auto.
Qed.
Print Assumptions C48_range.
(** Finding: the border of a network may be too large for an int, and a factor may wrap around to 0. *)
Theorem C48_overflow_refuted : factory false (s_ "?maxpooling size=65536x1" ++ "010"%char :: s_ "?convolutional size=65537x1") = UB /\
  factory false (s_ "?maxpooling size=65536x1" ++ "010"%char :: s_ "?maxpooling size=65536x1") = Ok (mkGeo (mkAxis 0 0) (mkAxis 0 1) false false).
Proof. split; vm_compute; reflexivity. Qed.
Print Assumptions C48_overflow_refuted.

(** The patch is the window that the output pixel depends on if there is no padding and only pooling
    with separate regions has strides: output pixel [j] depends on exactly the pixels
    [j * factor, ..., j * factor + patch - 1]. *)
Lemma tight_overlapping l : wf_slayer l -> tight l -> overlapping l.
Proof. destruct l as [k s p|k|k s]; unfold overlapping; cbn [wf_slayer tight stride ksize]; lia. Qed.
Theorem C48_window : forall ls j i, Forall wf_slayer ls -> Forall tight ls ->
  depends ls j i <-> (j * product ls <= i < j * product ls + (border ls + product ls))%Z.
Proof.
  intros ls j i Hw Ht. destruct (border_extent ls Ht) as [E1 E2]. rewrite E1. destruct (depends_hull ls j Hw) as (_ & _ & H). rewrite E2, Z.add_0_r in H. split.
  - intros Hd. apply H in Hd. lia.
  - intros Hi. apply depends_interval; auto; [|rewrite E2; lia]. clear - Hw Ht. induction Hw; inversion Ht; subst; constructor; auto using tight_overlapping.
Qed.
Print Assumptions C48_window.

(** In general the window's first and last pixels are [extent] apart, and the reported size differs from it by the
    strides and paddings. *)
Theorem C48_window_general : forall ls j, Forall wf_slayer ls ->
  exists lo, depends ls j lo /\ depends ls j (lo + (border ls + product ls - slack ls) - 1)%Z /\
    forall i, depends ls j i -> (lo <= i < lo + (border ls + product ls - slack ls))%Z.
Proof.
  intros ls j Hw. destruct (depends_hull ls j Hw) as (A & B & C). exists (j * product ls + first_dep ls)%Z. pose proof (border_slack ls) as E.
  replace (border ls + product ls - slack ls)%Z with (extent ls) by lia. split; [exact A|]. split; [exact B|]. intros i Hi. apply C in Hi. lia.
Qed.
Print Assumptions C48_window_general.

(** A decision procedure for [has_value] on literals. *)
Lemma has_value_dec line name value before rest : line = before ++ name ++ s_ "=" ++ value ++ rest ->
  forallb (fun c => negb (Ascii.eqb c " ")) name = true -> forallb (fun c => negb (Ascii.eqb c " ")) value = true ->
  (match rest with [] => true | c :: _ => Ascii.eqb c " " end) = true ->
  forallb (fun j => negb (starts (name ++ s_ "=") (skipn j line))) (seq 0 (length before)) = true -> has_value line name value.
Proof.
  intros E Hn Hv Hr Hf. exists before, rest. split; [exact E|].
  assert (S : forall s, forallb (fun c => negb (Ascii.eqb c " ")) s = true -> Forall (fun c => c <> " "%char) s).
  { intros s Hs. rewrite forallb_forall in Hs. apply Forall_forall. intros c Hc ->. specialize (Hs _ Hc). discriminate. }
  split; [auto|]. split; [auto|]. split; [destruct rest as [|c r]; [now left|right; destruct (Ascii.eqb_spec c " "); [subst; eauto|discriminate]]|].
  intros j Hj. destruct (Nat.le_gt_cases (length before) j) as [H|H]; [exact H|]. exfalso. apply occurs_starts in Hj. rewrite forallb_forall in Hf.
  assert (Hin : In j (seq 0 (length before))) by (apply in_seq; lia). specialize (Hf j Hin). rewrite Hj in Hf. discriminate.
Qed.
Lemma absent_dec line name : forallb (fun j => negb (starts (name ++ s_ "=") (skipn j line))) (seq 0 (S (length line))) = true -> absent name line.
Proof.
  intros Hf j Hj. pose proof Hj as (b & a & E & Hl). apply occurs_starts in Hj. rewrite forallb_forall in Hf.
  assert (Hin : In j (seq 0 (S (length line)))) by (apply in_seq; subst; rewrite !app_length; lia). specialize (Hf j Hin). rewrite Hj in Hf. discriminate.
Qed.

Definition example_text : str :=
  s_ "# example" ++ "010"%char :: s_ "method=patch" ++ "010"%char :: s_ "?convolutional size=7x5 kernels=12" ++ "010"%char :: s_ "?maxpooling size=2x2" ++
  "010"%char :: s_ "?tanh" ++ "010"%char :: s_ "?convolutional size=5x5 kernels=6" ++ "010"%char :: s_ "?fullyconnected neurons=(o)" ++ "010"%char :: s_ "?output".
Definition example_layers : list (option (slayer * slayer)) :=
  [None; None; Some (SConv 7 1 0, SConv 5 1 0); Some (SPool 2, SPool 2); None; Some (SConv 5 1 0, SConv 5 1 0); None; None].
Ltac no_prefix := apply d_other; repeat (constructor; [intros t Et; discriminate Et|]); constructor.
Ltac value_of b r := apply (has_value_dec _ _ _ (s_ b) (s_ r)); vm_compute; reflexivity.
Example C48_witness : Forall2 describes (lines_of example_text) example_layers /\ Forall (both wf_slayer) example_layers /\
  Forall (both modest) example_layers /\ Forall (both numbers) example_layers /\ patch_method (lines_of example_text) /\
  overflow_free (map fst (somes example_layers)) /\ overflow_free (map snd (somes example_layers)) /\
  factory true example_text = Ok (mkGeo (mkAxis 16 2) (mkAxis 14 2) false true) /\ factory false example_text = Ok (mkGeo (mkAxis 14 2) (mkAxis 12 2) false false).
Proof.
  split.
  { change (lines_of example_text) with [s_ "# example"; s_ "method=patch"; s_ "?convolutional size=7x5 kernels=12"; s_ "?maxpooling size=2x2"; s_ "?tanh"; s_ "?convolutional size=5x5 kernels=6"; s_ "?fullyconnected neurons=(o)"; s_ "?output"].
    unfold example_layers. repeat apply Forall2_cons; [| | | | | | | |apply Forall2_nil].
    - exact (d_comment (s_ " example")).
    - no_prefix.
    - refine (d_conv (s_ " size=7x5 kernels=12") (7, 5) (1, 1) (0, 0) _ _ _); [value_of "convolutional " " kernels=12"|right; split; [apply absent_dec; vm_compute; reflexivity|reflexivity]..].
    - refine (d_pool (s_ " size=2x2") (2, 2) _). value_of "maxpooling " "".
    - no_prefix.
    - refine (d_conv (s_ " size=5x5 kernels=6") (5, 5) (1, 1) (0, 0) _ _ _); [value_of "convolutional " " kernels=6"|right; split; [apply absent_dec; vm_compute; reflexivity|reflexivity]..].
    - no_prefix.
    - no_prefix. }
  split; [unfold example_layers; repeat constructor|]. split; [unfold example_layers; repeat constructor|].
  split; [unfold example_layers, both, numbers, small; repeat (constructor; [cbn; lia|]); constructor|].
  split. { exists (s_ "method=patch"), []. split; [right; left; reflexivity|]. split; [intros t Et; discriminate Et|]. value_of "" "". }
  split; [vm_compute; discriminate|]. split; [vm_compute; discriminate|]. split; vm_compute; reflexivity.
Qed.

(** Findings.  With a stride the reported size is not the size of the window: it is 4, but the output pixel depends on 3 pixels. *)
Theorem C48_window_refuted : exists text g, factory true text = Ok g /\
  text = s_ "?convolutional size=3x3 stride=2x2" ++ "010"%char :: s_ "method=patch" /\ a_rf (g_x g) = 4%Z /\
  forall i, depends [SConv 3 2 0] 0 i <-> (0 <= i < 3)%Z.
Proof.
  exists (s_ "?convolutional size=3x3 stride=2x2" ++ "010"%char :: s_ "method=patch"), (mkGeo (mkAxis 4 2) (mkAxis 4 2) false true).
  split; [vm_compute; reflexivity|]. split; [reflexivity|]. split; [reflexivity|].
  intros i. cbn [depends]. split.
  - intros (q & U & ->). unfold uses in U. lia.
  - intros H. exists 0%Z. split; [unfold uses; lia|reflexivity].
Qed.
(** A pooling layer without a size reads uninitialized variables. *)
Theorem C48_missing_size_refuted : exists text, text = s_ "?maxpooling" /\ forall training, factory training text = UB.
Proof. eexists. split; [reflexivity|]. intros []; reflexivity. Qed.
(** The factor wraps around silently. *)
Theorem C48_factor_wraps_refuted : exists text g, text = s_ "?maxpooling size=65536x1" ++ "010"%char :: s_ "?maxpooling size=65536x1" /\
  factory true text = Ok g /\ a_factor (g_x g) = 0%Z.
Proof.
  exists (s_ "?maxpooling size=65536x1" ++ "010"%char :: s_ "?maxpooling size=65536x1"), (mkGeo (mkAxis 0 0) (mkAxis 0 1) false false).
  split; [reflexivity|]. split; vm_compute; reflexivity.
Qed.
Print Assumptions C48_factor_wraps_refuted.

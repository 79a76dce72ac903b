(** C79: the sizes inside the networks a configuration describes. *)
From Coq Require Import Ascii String List.
From Verif Require Import Base BaseFacts Str_Model Str_Proofs Config_Model Config_Spec Graph_Model Graph_Spec Receptive_Model Receptive_Spec Receptive_Proofs Receptive_Props Factory_Model Factory_Spec Factory_Proofs
  FactoryRun_Proofs FactoryLines_Proofs Factory_Props FactoryLayers_Spec FactoryLayers_Props Hybrid_Model Hybrid_Spec Hybrid_Props HybridShape_Proofs Sizes_Spec Sizes_Proofs.
Local Open Scope string_scope.
Local Open Scope list_scope.
Local Open Scope nat_scope.

Section Props.
Context {D : Type} (read_datum : str -> D) (d0 d1 : D) (rand : nat -> Z).
Variables (data : connection) (classes : Z) (g : graph).
Hypothesis Hc : FactoryLayers_Spec.small classes.
Hypothesis Hg : only_data g data.

Section Net.
Variables (cfg : geo) (text : str) (os : list (option (slayer * slayer))) (body : list (@layer D)).
Hypothesis Hfx : FactoryLayers_Spec.small (factorx cfg).
Hypothesis Hfy : FactoryLayers_Spec.small (factory_ cfg).
Hypothesis St : straight read_datum d0 d1 rand (fcn cfg) (factorx cfg) (factory_ cfg) classes (lines_of text) os body.
Hypothesis Hw : Forall (both wf_slayer) os.
Hypothesis Hm : Forall (both modest) os.
Definition bordered : bool := fcn cfg && ((0 <? a_rf (g_x cfg)) && (0 <? a_rf (g_y cfg)))%Z.
Notation read_line := (read_config_line read_datum d0 d1 rand cfg data classes true).

Lemma start_made (st : @fstate D) : start cfg data g = Ok st ->
  f_up st = ((factorx cfg =? 1) && (factory_ cfg =? 1))%Z /\ f_draws st = 0 /\
  map snd (f_made st) = if bordered then [LResize (a_rf (g_x cfg)) (a_rf (g_y cfg))] else [].
Proof.
  unfold start, bordered. destruct (fcn cfg && _).
  - unfold add_behind. intros H. apply add_last_made in H as (S1 & S2 & S3 & _). cbn [f_up f_draws f_made] in *. unfold extends in S1. cbn [f_made map app] in S1. auto.
  - intros H. injection H as <-. auto.
Qed.
Lemma text_readable up n lines made : FactoryLayers_Spec.text_layers read_datum d0 d1 rand (fcn cfg) (factorx cfg) (factory_ cfg) classes true up n lines made ->
  Forall (readable read_datum d0 d1 rand cfg data classes true) lines.
Proof.
  intros T. induction T as [|up n line lines m up' n' rest L _ IH]; constructor; [|exact IH].
  eapply (described_readable read_datum d0 d1 rand cfg data classes true Hc g); [apply Hg|apply Hg|exact L].
Qed.
Lemma produced_layers (l : list (nat * @layer D)) : map snd (produced l) = filter (fun x => match x with LError _ => false | _ => true end) (map snd l).
Proof. induction l as [|[p x] l IH]; [reflexivity|]. unfold produced in *. cbn [filter map snd]. destruct x; cbn [map snd]; now rewrite IH. Qed.

Lemma straight_network s W H x y X Y c k (source : nat -> dims) :
  0 < x -> 0 < y -> 0 < X -> 0 < Y ->
  (fcn cfg = true -> Z.of_nat X = Z.of_nat x * factorx cfg /\ Z.of_nat Y = Z.of_nat y * factory_ cfg)%Z -> (fcn cfg = false -> X = x /\ Y = y) ->
  network_yields (map fst (somes os)) (W + if bordered then Z.to_nat (a_rf (g_x cfg)) else 0) x ->
  network_yields (map snd (somes os)) (H + if bordered then Z.to_nat (a_rf (g_y cfg)) else 0) y ->
  channels (d_maps (source 2)) body c = Some k ->
  source 0 = mkDims s (Z.of_nat W) (Z.of_nat H) c -> source 1 = mkDims s (Z.of_nat X) (Z.of_nat Y) k ->
  source 2 = mkDims s (Z.of_nat X) (Z.of_nat Y) (d_maps (source 2)) -> d_samples (source 3) = s ->
  exists st q, add_layers read_datum d0 d1 rand cfg data classes true text g = Ok (st, true) /\
    (exists ps, parameters (heap (f_graph st)) (f_made st) data source ps) /\
    In q (outputs_of (f_graph st) (f_made st)) /\
    forall d, sized (heap (f_graph st)) (f_made st) data source (mkConn (Some q) 0 true) d <-> d = mkDims s (Z.of_nat X) (Z.of_nat Y) k.
Proof.
  intros Hx Hy HX HY Hwh Hpt Nx Ny Hch S0 S1 S2 S3.
  destruct (straight_passes _ _ _ _ _ _ _ _ _ _ _ St Hw Hm) as (w & rest & act & ups & first & second & out & up & n & El & Ho & Hu & Ns & Lo & Lr & T & T1 & T2 & Ne & Pass).
  pose proof (data_healthy _ _ Hg) as Hh. pose proof (data_outputs _ _ Hg) as Hd.
  pose proof (text_readable _ _ _ _ T) as R. rewrite app_assoc in El.
  destruct (@start_ok D cfg data g Hh Hd) as (st0 & E0 & G0 & B0 & C0 & _). destruct (start_made st0 E0) as (Eu & En & Em0).
  rewrite El in R, Ns, T. apply Forall_app in R as [R1 R2]. apply Forall_cons_iff in R2 as [Ro Rr]. apply Forall_app in Ns as [N1 N2]. apply Forall_cons_iff in N2 as [[No1 No2] Nr].
  destruct (run_chain read_datum d0 d1 rand cfg data classes true _ st0 G0 R1 N1) as (st1 & made1 & E1 & Adv1 & C1).
  destruct (other_step read_datum d0 d1 rand cfg data classes true st1 out (adv_good _ _ _ _ _ Adv1) Ro No1) as (st2 & made2 & E2 & Adv2 & Ef & Loss & Out).
  destruct Ef as [C2|[F _]]; [|contradiction].
  destruct (run_chain read_datum d0 d1 rand cfg data classes true _ st2 (adv_good _ _ _ _ _ Adv2) Rr Nr) as (st & made3 & E3 & Adv3 & C3).
  destruct (Out (fun _ => Hu) Ho) as (q & Oq & Lq & _).
  assert (F12 : foldm read_line ((first ++ second) ++ [out]) st0 = Ok st2) by (rewrite foldm_app, E1; cbn [bind foldm]; rewrite E2; reflexivity).
  assert (F3 : foldm read_line (lines_of text) st0 = Ok st) by (rewrite El, foldm_app, E1; cbn [bind foldm]; rewrite E2; exact E3).
  rewrite <- El in T. rewrite <- Eu, <- En in T, T1, T2.
  pose proof (run_layers read_datum d0 d1 rand cfg data classes true Hc Hfx Hfy _ _ _ _ T F3) as L3.
  pose proof (run_layers read_datum d0 d1 rand cfg data classes true Hc Hfx Hfy _ _ _ _ T1 E1) as L1.
  pose proof (run_layers read_datum d0 d1 rand cfg data classes true Hc Hfx Hfy _ _ _ _ T2 F12) as L2.
  unfold extends in L1, L2, L3.
  pose proof (adv_made _ _ _ _ _ Adv1) as M1. pose proof (adv_made _ _ _ _ _ Adv2) as M2. pose proof (adv_made _ _ _ _ _ Adv3) as M3.
  assert (Z3 : made3 = []).
  { rewrite <- L2, M3, map_app in L3. rewrite <- (app_nil_r (map snd (f_made st2))) in L3 at 2. apply app_inv_head in L3. now destruct made3. }
  subst made3. rewrite app_nil_r in M3. cbn [produced filter chain] in C3.
  pose proof (adv_built _ _ _ _ _ Adv3) as B3.
  assert (Bt : built g (f_graph st) (f_made st)).
  { rewrite M3, M2, M1, <- app_assoc, <- (app_nil_r (made1 ++ made2)), <- app_assoc. eapply built_trans; [exact B0|]. eapply built_trans; [apply (adv_built _ _ _ _ _ Adv1)|]. eapply built_trans; [apply (adv_built _ _ _ _ _ Adv2)|exact B3]. }
  assert (Ch : chain data (heap (f_graph st)) data (produced (f_made st)) (f_last st)).
  { rewrite M3, M2, M1, !produced_app. rewrite C3. apply (chain_stable _ _ _ _ _ _ _ B3). eapply chain_app; [|exact C2]. apply (chain_stable _ _ _ _ _ _ _ (adv_built _ _ _ _ _ Adv2)).
    eapply chain_app; [|exact C1]. now apply (chain_stable _ _ _ _ _ _ _ (adv_built _ _ _ _ _ Adv1)). }
  assert (Lm : map snd (f_made st) = (if bordered then [LResize (a_rf (g_x cfg)) (a_rf (g_y cfg))] else []) ++ (body ++ act :: ups) ++ [LError w]).
  { rewrite L3, Em0, <- app_assoc. reflexivity. }
  assert (Pm : map snd (produced (f_made st)) = (if bordered then [LResize (a_rf (g_x cfg)) (a_rf (g_y cfg))] else []) ++ (body ++ act :: ups)).
  { rewrite produced_layers, Lm. revert Ne. generalize (body ++ act :: ups). intros l Ne. rewrite !filter_app. cbn [filter]. rewrite app_nil_r. f_equal; [now destruct bordered|]. clear - Ne. induction Ne as [|l ls Hl _ IH]; [reflexivity|]. cbn [filter]. rewrite IH. now destruct l. }
  assert (Ps : passes (source 2) (map snd (produced (f_made st))) (source 0) = Some (mkDims s (Z.of_nat X) (Z.of_nat Y) k)).
  { rewrite Pm, S0. pose proof (Pass (source 2) s _ _ x y X Y c k Hx Hy HX HY S2 Hwh Hpt Nx Ny Hch) as K. destruct bordered eqn:Eb; [|now rewrite !Nat.add_0_r in K].
    unfold bordered in Eb. apply andb_prop in Eb as [_ Eb]. apply andb_prop in Eb as [Eb1 Eb2]. apply Z.ltb_lt in Eb1, Eb2.
    rewrite !Nat2Z.inj_add, !Z2Nat.id in K by lia. exact K. }
  destruct (chain_sized (heap (f_graph st)) (f_made st) data source (produced (f_made st)) data (f_last st) (source 0) (mkDims s (Z.of_nat X) (Z.of_nat Y) k)) with (3 := Ch) (4 := Ps) as [Sz Ac].
  { intros z Hz. apply filter_In in Hz. apply Hz. }
  { rewrite <- (data_images _ _ Hg). now apply sized_data. }
  rewrite C3, Lq in Sz.
  assert (Al : Forall (accepts (heap (f_graph st)) (f_made st) data source) (f_made st)).
  { apply Forall_forall. intros [p l] Hi. rewrite Forall_forall in Ac. destruct l as [| | | | | | | | | | | | |w'] eqn:El'; try (apply Ac, filter_In; now split).
    assert (Hi2 : In (p, LError w') made2).
    { rewrite M3, M2 in Hi. apply in_app_or in Hi as [Hi|Hi]; [|exact Hi]. exfalso. apply (in_map snd) in Hi. rewrite L1, Em0 in Hi. apply in_app_or in Hi as [Hi|Hi].
      - destruct bordered; [|contradiction Hi]. destruct Hi as [Hi|[]]. discriminate Hi.
      - rewrite Forall_forall in Ne. apply (Ne (LError w')). apply in_or_app. now left. }
    pose proof (inputs_stable _ _ _ _ _ B3 (Loss p w' Hi2)) as (nd & End & Ein). unfold loss_inputs in Ein. rewrite Lq in Ein. cbn [map c_node] in Ein.
    exists nd, [mkDims s (Z.of_nat X) (Z.of_nat Y) k; source 1; source 3]. cbn [fst snd]. split; [exact End|]. split.
    - rewrite Ein. assert (Dt : forall b bp, sized (heap (f_graph st)) (f_made st) data source (settled (heap (f_graph st)) (mkConn (c_node data) b bp)) (source b)).
      { intros b bp. apply (sized_same _ _ _ _ (mkConn (c_node data) b bp)); [apply settled_node..|]. exact (sized_data _ _ data source (mkConn (c_node data) b bp) eq_refl). }
      constructor; [|constructor; [apply Dt|constructor; [apply Dt|constructor]]]. apply (sized_same _ _ _ _ (mkConn (Some q) 0 true)); [apply settled_node..|exact Sz].
    - cbn [create_outputs]. rewrite S1, S3. cbn [d_samples]. rewrite !Z.eqb_refl. discriminate. }
  assert (Oq' : In q (outputs_of (f_graph st) (f_made st))).
  { rewrite M3, M2, outputs_app. apply in_or_app. right. rewrite (outputs_stable cfg data st1 st2 st made2 [] Adv2 Adv3), Oq. now left. }
  exists st, q. split; [|split; [now apply accepts_parameters|split; [exact Oq'|]]].
  2: { intros d. split; [|intros ->; exact Sz]. refine (proj1 (sized_unique _ _ _ _ _ _) _ _ Sz d).
    - rewrite (built_fresh _ _ _ Bt). apply seq_NoDup.
    - intros p Hp. apply (built_bound _ _ _ _ Bt) in Hp. destruct Hd as [(q' & m & Eq & _ & Em & _) _]. rewrite Eq. intros [= ->]. assert (p < length (heap g)) by (apply nth_error_Some; congruence). lia. }
  unfold add_layers. rewrite E0. cbn [bind]. rewrite F3. cbn [bind].
  destruct (healthy_complete (f_graph st) (good_graph _ _ _ (adv_good _ _ _ _ _ Adv3))) as (b & -> & Hb). cbn [bind]. replace b with true; [reflexivity|]. symmetry. apply Hb. split.
  - destruct (data_input _ _ Hg) as (n0 & nd & Hn & En0 & Hi). destruct (built_same _ _ _ Bt n0 nd En0) as (m & Em & Sm). exists n0, m. split; [rewrite (built_nodes _ _ _ Bt); apply in_or_app; now left|].
    split; [exact Em|]. destruct Sm as (_ & _ & _ & _ & _ & Hs). congruence.
  - unfold outputs_of in Oq'. apply filter_In in Oq' as [Hin Hout]. unfold node_has in Hout. destruct (nth_error (heap (f_graph st)) q) as [m|] eqn:Em; [|discriminate Hout].
    exists q, m. split; [rewrite (built_nodes _ _ _ Bt); apply in_or_app; now right|]. auto.
Qed.
End Net.

Lemma planned_describes P whole fx fy up n lines os made up' n' : planned read_datum d0 d1 rand whole fx fy classes P up n lines os made up' n' -> Forall2 Receptive_Spec.describes lines os.
Proof. induction 1; constructor; auto. Qed.
Lemma straight_describes whole fx fy lines os body : straight read_datum d0 d1 rand whole fx fy classes lines os body -> Forall2 Receptive_Spec.describes lines os.
Proof.
  intros [first second out rest os1 os2 m1 m2 up1 n1 up2 n2 w El Eo Eb Ns Pe Pl Ho Hu Lo Lr]. subst lines os.
  apply Forall2_app; [eapply planned_describes; exact Pe|]. apply Forall2_app; [eapply planned_describes; exact Pl|]. constructor.
  - apply d_other. destruct Ho as [r ->]. repeat constructor; intros t E; discriminate E.
  - clear - Lr. induction Lr as [|l rest [_ H] _ IH]; constructor; auto.
Qed.
Lemma border_fits ls : Forall wf_slayer ls -> Forall modest ls -> overflow_free ls -> FactoryLayers_Spec.small (product ls).
Proof. intros W M O. pose proof (product_pos ls W). pose proof (border_nonneg ls W M). unfold overflow_free in O. unfold FactoryLayers_Spec.small, int_max. lia. Qed.

(** Whole images: for images whose sides are multiples of the factors, every layer accepts its inputs, the
    loss layer included, and the output has one pixel for every pixel of the image. *)
Theorem C79_whole_images : forall training text cfg os body (source : nat -> dims) s c k w h mx my,
  factory training text = Ok cfg -> ~ (training = true /\ patch_method (lines_of text)) ->
  straight read_datum d0 d1 rand true (a_factor (g_x cfg)) (a_factor (g_y cfg)) classes (lines_of text) os body ->
  Forall (both wf_slayer) os -> Forall (both modest) os -> Forall (both numbers) os ->
  overflow_free (map fst (somes os)) -> overflow_free (map snd (somes os)) ->
  (a_rf (g_x cfg) = 0 <-> a_rf (g_y cfg) = 0)%Z ->
  0 < mx -> 0 < my -> Z.of_nat w = (a_factor (g_x cfg) * Z.of_nat mx)%Z -> Z.of_nat h = (a_factor (g_y cfg) * Z.of_nat my)%Z ->
  source 0 = mkDims s (Z.of_nat w) (Z.of_nat h) c -> source 1 = mkDims s (Z.of_nat w) (Z.of_nat h) k ->
  source 2 = mkDims s (Z.of_nat w) (Z.of_nat h) (d_maps (source 2)) -> d_samples (source 3) = s ->
  channels (d_maps (source 2)) body c = Some k ->
  exists st q, assemble read_datum d0 d1 rand training text data classes g = Ok (st, true) /\
    (exists ps, parameters (heap (f_graph st)) (f_made st) data source ps) /\
    In q (outputs_of (f_graph st) (f_made st)) /\
    forall d, sized (heap (f_graph st)) (f_made st) data source (mkConn (Some q) 0 true) d <-> d = mkDims s (Z.of_nat w) (Z.of_nat h) k.
Proof.
  intros training text cfg os body source s c k w h mx my Ef Np St Hw Hm Hn Ox Oy Hrf Hmx Hmy Ew Eh S0 S1 S2 S3 Hch.
  pose proof (straight_describes _ _ _ _ _ _ St) as Hd.
  destruct (C48_fcn training text os cfg Hd Hw Hm Hn Ox Oy Np Ef) as (Yx & Yy & Fx & Fy).
  destruct (C48_reported training text os Hd Hw Hm Hn Ox Oy) as [_ Rep]. specialize (Rep Np). rewrite Ef in Rep. apply ok_inj' in Rep.
  assert (Ec : fcn cfg = true) by (rewrite Rep; reflexivity).
  destruct (both_forall _ _ Hw) as [Wx Wy]. destruct (both_forall _ _ Hm) as [Mx My].
  pose proof (product_pos _ Wx). pose proof (product_pos _ Wy). pose proof (border_nonneg _ Wx Mx) as Bx. pose proof (border_nonneg _ Wy My) as By.
  replace (border (map fst (somes os))) with (a_rf (g_x cfg)) in Bx by (rewrite Rep; reflexivity). replace (border (map snd (somes os))) with (a_rf (g_y cfg)) in By by (rewrite Rep; reflexivity).
  specialize (Yx w mx Hmx Ew). specialize (Yy h my Hmy Eh).
  assert (Eb : (if bordered cfg then Z.to_nat (a_rf (g_x cfg)) else 0) = Z.to_nat (a_rf (g_x cfg)) /\ (if bordered cfg then Z.to_nat (a_rf (g_y cfg)) else 0) = Z.to_nat (a_rf (g_y cfg))).
  { unfold bordered. rewrite Ec. cbn [andb]. destruct (0 <? a_rf (g_x cfg))%Z eqn:B1; [apply Z.ltb_lt in B1|apply Z.ltb_ge in B1]; (destruct (0 <? a_rf (g_y cfg))%Z eqn:B2; [apply Z.ltb_lt in B2|apply Z.ltb_ge in B2]); cbn [andb]; try (split; reflexivity); lia. }
  unfold assemble. rewrite Ef. cbn [bind].
  apply (straight_network cfg text os body) with (W := w) (H := h) (x := mx) (y := my) (c := c); auto; try nia.
  - unfold factorx. rewrite Fx. now apply border_fits.
  - unfold factory_. rewrite Fy. now apply border_fits.
  - rewrite Ec. exact St.
  - intros _. unfold factorx, factory_. lia.
  - intros F. congruence.
  - now rewrite (proj1 Eb).
  - now rewrite (proj2 Eb).
Qed.

(** Patches as large as the receptive field: every layer accepts its inputs, the loss layer included, and the output
    is one pixel. *)
Theorem C79_patches : forall text cfg os body (source : nat -> dims) s c k,
  factory true text = Ok cfg -> patch_method (lines_of text) ->
  straight read_datum d0 d1 rand false (a_factor (g_x cfg)) (a_factor (g_y cfg)) classes (lines_of text) os body ->
  Forall (both wf_slayer) os -> Forall (both modest) os -> Forall (both numbers) os ->
  overflow_free (map fst (somes os)) -> overflow_free (map snd (somes os)) ->
  source 0 = mkDims s (a_rf (g_x cfg)) (a_rf (g_y cfg)) c -> source 1 = mkDims s 1 1 k ->
  source 2 = mkDims s 1 1 (d_maps (source 2)) -> d_samples (source 3) = s ->
  channels (d_maps (source 2)) body c = Some k ->
  exists st q, assemble read_datum d0 d1 rand true text data classes g = Ok (st, true) /\
    (exists ps, parameters (heap (f_graph st)) (f_made st) data source ps) /\
    In q (outputs_of (f_graph st) (f_made st)) /\
    forall d, sized (heap (f_graph st)) (f_made st) data source (mkConn (Some q) 0 true) d <-> d = mkDims s 1 1 k.
Proof.
  intros text cfg os body source s c k Ef Np St Hw Hm Hn Ox Oy S0 S1 S2 S3 Hch.
  pose proof (straight_describes _ _ _ _ _ _ St) as Hd.
  destruct (C48_patch text os cfg Hd Hw Hm Hn Ox Oy Np Ef) as (Yx & Yy & Fx & Fy).
  destruct (C48_reported true text os Hd Hw Hm Hn Ox Oy) as [Rep _]. specialize (Rep (conj eq_refl Np)). rewrite Ef in Rep. apply ok_inj' in Rep.
  assert (Ec : fcn cfg = false) by (rewrite Rep; reflexivity).
  assert (Eb : bordered cfg = false) by (unfold bordered; now rewrite Ec).
  destruct (both_forall _ _ Hw) as [Wx Wy]. destruct (both_forall _ _ Hm) as [Mx My].
  pose proof (product_pos _ Wx). pose proof (product_pos _ Wy). pose proof (border_nonneg _ Wx Mx) as Bx. pose proof (border_nonneg _ Wy My) as By.
  assert (Px : (0 <= a_rf (g_x cfg))%Z) by (rewrite Rep; cbn [g_x a_rf]; lia). assert (Py : (0 <= a_rf (g_y cfg))%Z) by (rewrite Rep; cbn [g_y a_rf]; lia).
  unfold assemble. rewrite Ef. cbn [bind]. change 1%Z with (Z.of_nat 1).
  apply (straight_network cfg text os body) with (W := Z.to_nat (a_rf (g_x cfg))) (H := Z.to_nat (a_rf (g_y cfg))) (x := 1) (y := 1) (c := c); auto.
  - unfold factorx. rewrite Fx. now apply border_fits.
  - unfold factory_. rewrite Fy. now apply border_fits.
  - rewrite Ec. exact St.
  - intros F. congruence.
  - now rewrite Eb, Nat.add_0_r.
  - now rewrite Eb, Nat.add_0_r.
  - now rewrite !Z2Nat.id.
Qed.
End Props.
Print Assumptions C79_whole_images.
Print Assumptions C79_patches.

(** ** A concrete configuration *)
Definition prior_text : str := concat (map (fun l => s_ l ++ ["010"%char])
  ["?convolutional size=3x3 kernels=4"; "?maxpooling size=2x2"; "?spatialprior"; "?fullyconnected neurons=(o)"; "?output"]).
Definition prior_cfg : geo := mkGeo (mkAxis 2 2) (mkAxis 2 2) false false.
Definition prior_spans : list (option (slayer * slayer)) := [Some (SConv 3 1 0, SConv 3 1 0); Some (SPool 2, SPool 2); None; None; None; None].
Definition prior_layers : list (@layer Z) := [LConvolution 3 3 4 1 1 0 0 1 0 0 1; LMaxPooling 2 2; LUpscale 2 2; LConcatenation; LConvolution 1 1 3 1 1 0 0 1 1 0 1]%Z.
Definition prior_images (i : nat) : dims := match i with 0 => mkDims 5 32 48 3 | 1 => mkDims 5 32 48 3 | 2 => mkDims 5 32 48 2 | _ => mkDims 5 32 48 1 end.
Notation ex_line whole := (line_layers (fun _ => 0%Z) 0%Z 1%Z Z.of_nat whole 2 2 3 true).
Lemma ex_small z : (0 <=? z)%Z && (z <=? 2147483647)%Z = true -> FactoryLayers_Spec.small z.
Proof. intros H; apply andb_prop in H as [H1 H2]; unfold FactoryLayers_Spec.small, int_max; lia. Qed.
Lemma ex_kept (whole : bool) l : mentionsb "flatten" l = false -> ~ (whole = true /\ mentions "flatten" l).
Proof. intros H [_ M]; now apply mentions_dec in H. Qed.
Lemma ex_conv whole up n : ex_line whole up n (s_ "?convolutional size=3x3 kernels=4") [LConvolution 3 3 4 1 1 0 0 1 (Z.of_nat n) 0 1]%Z up (S n).
Proof.
  apply (one_layer _ _ _ _ _ _ _ _ _ up n _ (s_ "convolutional size=3x3 kernels=4") (LConvolution 3 3 4 1 1 0 0 1 (Z.of_nat n) 0 1)%Z).
  - intros [r Hr]. discriminate Hr.
  - apply same_dec; vm_compute; reflexivity.
  - apply ex_kept. vm_compute. reflexivity.
  - apply is_convolution; try discriminate; try (right; split; [apply absent_dec; vm_compute; reflexivity|reflexivity]).
    + now exists (s_ " size=3x3 kernels=4").
    + left. split; [now apply ex_small|]. split; [now apply ex_small|]. apply (value_dec (s_ "convolutional ") (s_ "size") (s_ "3x3") (s_ " kernels=4")); try (vm_compute; reflexivity). right. now exists (s_ "kernels=4").
    + left. split; [now apply ex_small|]. apply (value_dec (s_ "convolutional size=3x3 ") (s_ "kernels") (s_ "4") []); try (vm_compute; reflexivity). now left.
    + now exists 4%Z.
Qed.
Lemma ex_conv_span : Receptive_Spec.describes (s_ "?convolutional size=3x3 kernels=4") (Some (SConv 3 1 0, SConv 3 1 0)).
Proof.
  apply (d_conv (s_ " size=3x3 kernels=4") (3, 3) (1, 1) (0, 0)).
  - apply (value_dec (s_ "convolutional ") (s_ "size") (s_ "3x3") (s_ " kernels=4")); try (vm_compute; reflexivity). right. now exists (s_ "kernels=4").
  - right. split; [apply absent_dec; vm_compute; reflexivity|reflexivity].
  - right. split; [apply absent_dec; vm_compute; reflexivity|reflexivity].
Qed.
Lemma ex_pool whole up n : ex_line whole up n (s_ "?maxpooling size=2x2") [LMaxPooling 2 2]%Z up n.
Proof.
  apply (one_layer _ _ _ _ _ _ _ _ _ up n _ (s_ "maxpooling size=2x2") (LMaxPooling 2 2)%Z).
  - intros [r Hr]. discriminate Hr.
  - apply same_dec; vm_compute; reflexivity.
  - apply ex_kept. vm_compute. reflexivity.
  - apply is_maxpooling; [now exists (s_ " size=2x2")|]. left. split; [now apply ex_small|]. split; [now apply ex_small|]. apply (value_dec (s_ "maxpooling ") (s_ "size") (s_ "2x2") []); try (vm_compute; reflexivity). now left.
Qed.
Lemma ex_pool_span : Receptive_Spec.describes (s_ "?maxpooling size=2x2") (Some (SPool 2, SPool 2)).
Proof. apply (d_pool (s_ " size=2x2") (2, 2)). apply (value_dec (s_ "maxpooling ") (s_ "size") (s_ "2x2") []); try (vm_compute; reflexivity). now left. Qed.
Lemma ex_prior whole up n : ex_line whole up n (s_ "?spatialprior") ((if whole && negb up then [LUpscale 2 2]%Z else []) ++ [LConcatenation]) (up || whole) n.
Proof.
  apply (prior_layer _ _ _ _ whole 2 2 3 true up n _ (s_ "spatialprior")).
  - intros [r Hr]. discriminate Hr.
  - apply same_dec; vm_compute; reflexivity.
  - apply ex_kept. vm_compute. reflexivity.
  - now exists [].
Qed.
Lemma ex_full whole up n : ex_line whole up n (s_ "?fullyconnected neurons=(o)") [LConvolution 1 1 3 1 1 0 0 1 (Z.of_nat n) 0 1]%Z up (S n).
Proof.
  apply (one_layer _ _ _ _ _ _ _ _ _ up n _ (s_ "convolutional size=1x1 kernels=3") (LConvolution 1 1 3 1 1 0 0 1 (Z.of_nat n) 0 1)%Z).
  - intros [r Hr]. discriminate Hr.
  - exists (s_ "?fullyconnected neurons=3"). split; [exact (replaced_dec "(o)" (decimal 3) (s_ "?fullyconnected neurons=") [] eq_refl)|]. left.
    split; [now exists (s_ "?"), (s_ " neurons=3")|]. exists (s_ "?convolutional size=1x1 neurons=3"). split; [exact (replaced_dec "fullyconnected" (s_ "convolutional size=1x1") (s_ "?") (s_ " neurons=3") eq_refl)|].
    split; [now exists (s_ "?convolutional size=1x1 "), (s_ "3")|]. exact (replaced_dec "neurons=" (s_ "kernels=") (s_ "?convolutional size=1x1 ") (s_ "3") eq_refl).
  - apply ex_kept. vm_compute. reflexivity.
  - apply is_convolution; try discriminate; try (right; split; [apply absent_dec; vm_compute; reflexivity|reflexivity]).
    + now exists (s_ " size=1x1 kernels=3").
    + left. split; [now apply ex_small|]. split; [now apply ex_small|]. apply (value_dec (s_ "convolutional ") (s_ "size") (s_ "1x1") (s_ " kernels=3")); try (vm_compute; reflexivity). right. now exists (s_ "kernels=3").
    + left. split; [now apply ex_small|]. apply (value_dec (s_ "convolutional size=1x1 ") (s_ "kernels") (s_ "3") []); try (vm_compute; reflexivity). now left.
    + now exists 3%Z.
Qed.
Lemma ex_out whole up n : ex_line whole up n (s_ "?output") (LSigmoid :: (if whole && negb up && negb ((2 =? 1) && (2 =? 1))%Z then [LUpscale 2 2]%Z else []) ++ [LError 1%Z]) up n.
Proof.
  apply (output_layer (fun _ => 0%Z) 0%Z 1%Z Z.of_nat whole 2 2 3 true up n (s_ "?output") (s_ "output") 1%Z).
  - intros [r Hr]. discriminate Hr.
  - apply same_dec; vm_compute; reflexivity.
  - apply ex_kept. vm_compute. reflexivity.
  - now exists [].
  - right. split; [apply absent_dec; vm_compute; reflexivity|reflexivity].
Qed.
Lemma ex_nothing whole up n l : starts (s_ "#") l = false -> mentionsb "(o)" l = false -> mentionsb "fullyconnected" l = false -> starts (s_ "?") l = false -> ex_line whole up n l [] up n.
Proof.
  intros H1 H2 H3 H4. apply no_layer with l; [intros H; apply begins_iff in H; congruence|now apply same_dec|intros H; apply begins_iff in H; congruence].
Qed.
Ltac other := apply d_other; repeat constructor; intros t E; discriminate E.
Lemma prior_straight : straight (fun _ => 0%Z) 0%Z 1%Z Z.of_nat true 2 2 3 (lines_of prior_text) prior_spans prior_layers.
Proof.
  apply (straight_intro _ _ _ _ _ _ _ _ _ _ _ [s_ "?convolutional size=3x3 kernels=4"; s_ "?maxpooling size=2x2"] [s_ "?spatialprior"; s_ "?fullyconnected neurons=(o)"] (s_ "?output") [[]]
    [Some (SConv 3 1 0, SConv 3 1 0); Some (SPool 2, SPool 2)] [None; None] ([LConvolution 3 3 4 1 1 0 0 1 0 0 1] ++ [LMaxPooling 2 2] ++ [])%Z ([LUpscale 2 2; LConcatenation] ++ [LConvolution 1 1 3 1 1 0 0 1 1 0 1] ++ [])%Z false 1 true 2 1%Z);
    try reflexivity.
  - change (lines_of prior_text) with [s_ "?convolutional size=3x3 kernels=4"; s_ "?maxpooling size=2x2"; s_ "?spatialprior"; s_ "?fullyconnected neurons=(o)"; s_ "?output"; []].
    repeat constructor; try (intros ([] & [[r Hr]|[r Hr]]); discriminate Hr); intros [[r Hr]|[r Hr]]; discriminate Hr.
  - eapply planned_cons; [apply ex_conv|exact ex_conv_span|eexists; split; reflexivity|repeat constructor|].
    eapply planned_cons; [apply ex_pool|exact ex_pool_span|eexists; split; reflexivity|repeat constructor|constructor].
  - eapply (planned_cons _ _ _ _ _ _ _ _ _ false 1 _ [LUpscale 2 2; LConcatenation]%Z); [apply (ex_prior true false)|other|repeat constructor|split; [now left|right; reflexivity]|].
    eapply planned_cons; [apply ex_full|other|constructor; [right; reflexivity|constructor]|split; [now left|left; repeat constructor]|constructor].
  - now exists [].
  - split; [|split]; apply mentions_dec; vm_compute; reflexivity.
  - apply (ex_out true true).
  - constructor; [split; [now apply ex_nothing|other]|constructor].
Qed.
(** The same layers for patches. *)
Definition patch_text : str := s_ "method=patch" ++ "010"%char :: prior_text.
Definition patch_sizes (i : nat) : dims := match i with 0 => mkDims 64 4 4 3 | 1 => mkDims 64 1 1 3 | 2 => mkDims 64 1 1 2 | _ => mkDims 64 1 1 1 end.
Lemma patch_straight : straight (fun _ => 0%Z) 0%Z 1%Z Z.of_nat false 2 2 3 (lines_of patch_text) (None :: prior_spans) (filter (fun l => match l with LUpscale _ _ => false | _ => true end) prior_layers).
Proof.
  apply (straight_intro _ _ _ _ _ _ _ _ _ _ _ [s_ "method=patch"; s_ "?convolutional size=3x3 kernels=4"; s_ "?maxpooling size=2x2"] [s_ "?spatialprior"; s_ "?fullyconnected neurons=(o)"] (s_ "?output") [[]]
    [None; Some (SConv 3 1 0, SConv 3 1 0); Some (SPool 2, SPool 2)] [None; None] ([] ++ [LConvolution 3 3 4 1 1 0 0 1 0 0 1] ++ [LMaxPooling 2 2] ++ [])%Z ([LConcatenation] ++ [LConvolution 1 1 3 1 1 0 0 1 1 0 1] ++ [])%Z false 1 false 2 1%Z);
    try reflexivity.
  - change (lines_of patch_text) with [s_ "method=patch"; s_ "?convolutional size=3x3 kernels=4"; s_ "?maxpooling size=2x2"; s_ "?spatialprior"; s_ "?fullyconnected neurons=(o)"; s_ "?output"; []].
    repeat constructor; try (intros ([] & [[r Hr]|[r Hr]]); discriminate Hr); intros [[r Hr]|[r Hr]]; discriminate Hr.
  - eapply planned_cons; [now apply ex_nothing|other|constructor|constructor|].
    eapply planned_cons; [apply ex_conv|exact ex_conv_span|eexists; split; reflexivity|repeat constructor|].
    eapply planned_cons; [apply ex_pool|exact ex_pool_span|eexists; split; reflexivity|repeat constructor|constructor].
  - eapply (planned_cons _ _ _ _ _ _ _ _ _ false 1 _ [LConcatenation]%Z); [apply (ex_prior false false)|other|repeat constructor|split; [now left|right; reflexivity]|].
    eapply planned_cons; [apply ex_full|other|constructor; [right; reflexivity|constructor]|split; [now left|left; repeat constructor]|constructor].
  - now exists [].
  - split; [|split]; apply mentions_dec; vm_compute; reflexivity.
  - apply (ex_out false false).
  - constructor; [split; [now apply ex_nothing|other]|constructor].
Qed.
Example C79_witness : exists st q, ex_assemble false prior_text ex_data 3%Z ex_graph = Ok (st, true) /\
  (exists ps, parameters (heap (f_graph st)) (f_made st) ex_data prior_images ps) /\ In q (outputs_of (f_graph st) (f_made st)) /\
  forall d, sized (heap (f_graph st)) (f_made st) ex_data prior_images (mkConn (Some q) 0 true) d <-> d = mkDims 5 32 48 3.
Proof.
  assert (Sm : FactoryLayers_Spec.small 3) by (unfold FactoryLayers_Spec.small, int_max; lia).
  apply (C79_whole_images (fun _ => 0%Z) 0%Z 1%Z Z.of_nat ex_data 3 ex_graph Sm ex_only_data false prior_text prior_cfg prior_spans prior_layers prior_images 5 3 3 32 48 16 24);
    try reflexivity; try exact prior_straight; try lia.
  - repeat constructor; cbn; lia.
  - repeat constructor; cbn; lia.
  - repeat constructor; cbn; unfold Receptive_Spec.small; lia.
  - unfold overflow_free. vm_compute. discriminate.
  - unfold overflow_free. vm_compute. discriminate.
Qed.
Example C79_patch_witness : exists st q, ex_assemble true patch_text ex_data 3%Z ex_graph = Ok (st, true) /\
  (exists ps, parameters (heap (f_graph st)) (f_made st) ex_data patch_sizes ps) /\ In q (outputs_of (f_graph st) (f_made st)) /\
  forall d, sized (heap (f_graph st)) (f_made st) ex_data patch_sizes (mkConn (Some q) 0 true) d <-> d = mkDims 64 1 1 3.
Proof.
  apply (C79_patches (fun _ => 0%Z) 0%Z 1%Z Z.of_nat ex_data 3 ex_graph (ex_small 3 eq_refl) ex_only_data patch_text (mkGeo (mkAxis 4 2) (mkAxis 4 2) false true) (None :: prior_spans)
    (filter (fun l => match l with LUpscale _ _ => false | _ => true end) prior_layers) patch_sizes 64 3 3); try reflexivity; try exact patch_straight.
  - exists (s_ "method=patch"), []. split; [now left|]. split; [intros t E; discriminate E|]. apply (value_dec [] (s_ "method") (s_ "patch") []); try reflexivity. now left.
  - repeat constructor; cbn; lia.
  - repeat constructor; cbn; lia.
  - repeat constructor; cbn; unfold Receptive_Spec.small; lia.
  - unfold overflow_free. vm_compute. discriminate.
  - unfold overflow_free. vm_compute. discriminate.
Qed.

(** Finding: the border for whole images is only added if the receptive field is larger than one pixel in both directions
    (ConfigurableFactory.cpp:167), so a network whose kernels extend in one direction only gives an output narrower than
    the image, and the loss layer refuses it (ErrorLayer.cpp:48-51). *)
Definition thin_text : str := concat (map (fun l => s_ l ++ ["010"%char]) ["?convolutional size=3x1 kernels=3"; "?output"]).
Theorem C79_thin_kernels_refuted : factory false thin_text = Ok (mkGeo (mkAxis 2 1) (mkAxis 0 1) false false) /\
  exists st q, ex_assemble false thin_text ex_data 3%Z ex_graph = Ok (st, true) /\
    map snd (f_made st) = [LConvolution 3 1 3 1 1 0 0 1 0 0%Z 1%Z; LSigmoid; LError 1%Z] /\ outputs_of (f_graph st) (f_made st) = [q] /\
    forall source s w h, (0 < s)%Z -> (2 < w)%Z -> (0 < h)%Z -> source 0 = mkDims s w h 3 -> source 1 = mkDims s w h 3 ->
      sized (heap (f_graph st)) (f_made st) ex_data source (mkConn (Some q) 0 true) (mkDims s (w - 2) h 3) /\
      ~ exists ps, parameters (heap (f_graph st)) (f_made st) ex_data source ps.
Proof.
  split; [vm_compute; reflexivity|].
  destruct (ex_assemble false thin_text ex_data 3%Z ex_graph) as [[st b]| |] eqn:E; [|vm_compute in E; discriminate E..].
  vm_compute in E. injection E as <- <-. do 2 eexists. split; [reflexivity|]. split; [reflexivity|]. split; [reflexivity|]. cbn [f_graph f_made heap].
  intros source s w h Hs Hw Hh S0 S1. match goal with |- sized ?a ?b _ _ _ _ /\ _ => set (hp := a); set (md := b) end.
  assert (Z0 : sized hp md ex_data source (mkConn (Some 2) 0 true) (mkDims s (w - 2) h 3)).
  { eapply (sized_layer hp md ex_data source _ 2 LSigmoid); [reflexivity|right; left; reflexivity|reflexivity|constructor; [|constructor]|reflexivity|reflexivity].
    eapply (sized_layer hp md ex_data source _ 1); [reflexivity|left; reflexivity|reflexivity|constructor; [|constructor]; apply (sized_data hp md ex_data source (mkConn (Some 0) 0 false) eq_refl)| |].
    - cbn [c_buffer]. rewrite S0. cbn [create_outputs d_width d_height d_samples d_maps]. unfold window. rewrite !Z.quot_1_r. cbn [Z.eqb orb].
      replace (0 + 0 + w - 3 + 1 <=? 0)%Z with false by (symmetry; apply Z.leb_gt; lia). replace (0 + 0 + h - 1 + 1 <=? 0)%Z with false by (symmetry; apply Z.leb_gt; lia).
      cbn [orb]. replace (0 + 0 + w - 3 + 1)%Z with (w - 2)%Z by lia. replace (0 + 0 + h - 1 + 1)%Z with h by lia. reflexivity.
    - reflexivity. }
  split; [exact Z0|]. intros (ps & Hp).
  assert (U : forall c d d', sized hp md ex_data source c d -> sized hp md ex_data source c d' -> d' = d).
  { intros c d d' H1 H2. refine (proj1 (sized_unique hp md ex_data source _ _) c d H1 d' H2).
    - repeat constructor; cbn; intuition discriminate.
    - cbn. intros p Hi F. injection F as <-. intuition discriminate. }
  assert (He : exists nd ds, nth_error hp 3 = Some nd /\ all_sized hp md ex_data source (n_inputs nd) ds /\ create_outputs (@LError Z 1%Z) ds <> None).
  { clear - Hp. unfold parameters in Hp. unfold md at 2 in Hp. inversion Hp as [|? ? ? ? _ Hp1]; subst. inversion Hp1 as [|? ? ? ? _ Hp2]; subst. inversion Hp2 as [|? ? ? ? (nd & ds & K1 & K2 & K3 & _) _]; subst. exists nd, ds. auto. }
  destruct He as (nd & ds & En & Ha & Hc). injection En as <-. cbn [n_inputs] in Ha.
  inversion Ha as [|c1 cs1 e1 ds1 H1 Hr1]; subst. inversion Hr1 as [|c2 cs2 e2 ds2 H2 Hr2]; subst. inversion Hr2 as [|c3 cs3 e3 ds3 H3 Hr3]; subst. inversion Hr3; subst.
  apply (U _ _ _ Z0) in H1. subst e1.
  apply (U _ _ _ (sized_data hp md ex_data source (mkConn (Some 0) 1 false) eq_refl)) in H2. cbn [c_buffer] in H2. rewrite S1 in H2. subst e2.
  cbn [create_outputs] in Hc. unfold elements in Hc. cbn [d_samples d_width d_height d_maps] in Hc. rewrite Z.eqb_refl in Hc. cbn [negb orb] in Hc.
  replace (s * (w - 2) * h * 3 =? s * w * h * 3)%Z with false in Hc by (symmetry; apply Z.eqb_neq; nia). now apply Hc.
Qed.
Print Assumptions C79_thin_kernels_refuted.

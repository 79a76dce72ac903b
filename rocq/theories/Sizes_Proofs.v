(** Proofs for C79. *)
From Coq Require Import String List.
From Verif Require Import Base BaseFacts Str_Model Math_Spec Graph_Model Graph_Spec Receptive_Model Receptive_Spec Receptive_Proofs Factory_Model Factory_Spec Factory_Proofs
  FactoryRun_Proofs FactoryLines_Proofs Factory_Props FactoryLayers_Spec FactoryLayers_Props Hybrid_Model Hybrid_Spec HybridShape_Proofs Sizes_Spec.
Local Open Scope string_scope.
Local Open Scope list_scope.
Local Open Scope nat_scope.

Section Sizes.
Context {D : Type}.
Notation layer := (@layer D).

(** ** One layer *)
Lemma conv_window k s p n m : 0 < s -> yields (SConv k s p) n m -> window (Z.of_nat p) (Z.of_nat n) (Z.of_nat k) (Z.of_nat s) = Z.of_nat m /\ 0 < m.
Proof.
  intros Hs [Hk ->]. unfold positions, window. rewrite (proj2 (Nat.ltb_ge _ _)) by lia. split; [|lia].
  rewrite Nat2Z.inj_add, Nat2Z.inj_div, Nat2Z.inj_sub by lia. rewrite Z.quot_div_nonneg by lia. f_equal. f_equal. lia.
Qed.
Lemma apool_window k s n m : 0 < s -> yields (SAPool k s) n m -> window 0 (Z.of_nat n) (Z.of_nat k) (Z.of_nat s) = Z.of_nat m.
Proof.
  intros Hs [Hk ->]. unfold positions, window. rewrite (proj2 (Nat.ltb_ge _ _)) by lia.
  rewrite Nat2Z.inj_add, Nat2Z.inj_div, Nat2Z.inj_sub by lia. rewrite Z.quot_div_nonneg by lia. f_equal.
Qed.

(** The numbers of a layer are not negative, and no division by zero occurs. *)
Definition proper (l : layer) : Prop :=
  (match l with
   | LConvolution kx ky k sx sy px py group _ _ _ => 0 <= kx /\ 0 <= ky /\ 0 < sx /\ 0 < sy /\ 0 <= px /\ 0 <= py /\ 0 < group
   | LMaxPooling kx ky | LDownSampling kx ky => 0 <= kx /\ 0 <= ky
   | LAdvancedMaxPooling kx ky sx sy => 0 <= kx /\ 0 <= ky /\ 0 <= sx /\ 0 <= sy
   | _ => True
   end)%Z.
Definition pass (helper : dims) (l : layer) (d : dims) : option dims :=
  match create_outputs l (match l with LConcatenation => [d; helper] | _ => [d] end) with Some [o] => Some o | _ => None end.
Fixpoint passes (helper : dims) (ls : list layer) (d : dims) : option dims :=
  match ls with [] => Some d | l :: r => match pass helper l d with Some o => passes helper r o | None => None end end.
Lemma passes_app helper a b d d' : passes helper a d = Some d' -> passes helper (a ++ b) d = passes helper b d'.
Proof. revert d. induction a as [|l a IH]; intros d; cbn [passes app]; [now intros [= ->]|]. destruct (pass helper l d); [apply IH|discriminate]. Qed.
Lemma channels_app hm (a b : list layer) m k : channels hm (a ++ b) m = Some k <-> exists q, channels hm a m = Some q /\ channels hm b q = Some k.
Proof.
  revert m. induction a as [|l a IH]; intros m.
  - cbn [app]. split; [intros H; now exists m|intros (q & [= ->] & H); exact H].
  - destruct l as [bx by_|kx ky k0 sx sy px py g sd dr lr|ac si al be|kx ky|kx ky|kx ky sx sy| |mu w| | |fx fy| | |w]; cbn [app channels]; try apply IH.
    destruct (m mod g =? 0)%Z; [apply IH|]. split; [discriminate|intros (q & H & _); discriminate].
Qed.

Lemma inner_pass helper l s x y m x' y' m' : inner l -> proper l ->
  match span_of l with Some (a, b) => wf_slayer a /\ wf_slayer b /\ yields a x x' /\ yields b y y' | None => x' = x /\ y' = y end ->
  channels (d_maps helper) [l] m = Some m' ->
  pass helper l (mkDims s (Z.of_nat x) (Z.of_nat y) m) = Some (mkDims s (Z.of_nat x') (Z.of_nat y') m').
Proof.
  intros Hi Hp Hs Hc. unfold pass.
  destruct l as [bx by_|kx ky k sx sy px py g sd dr lr|ac si al be|kx ky|kx ky|kx ky sx sy| |mu w| | |fx fy| | |w]; cbn [inner] in Hi; try contradiction; cbn [span_of] in Hs; cbn [channels] in Hc.
  all: try (destruct Hs as [-> ->]; injection Hc as <-; reflexivity).
  - destruct Hs as (_ & _ & Yx & Yy). cbn [proper] in Hp. destruct Hp as (P1 & P2 & P3 & P4 & P5 & P6 & P7).
    apply conv_window in Yx, Yy; try lia. rewrite !Z2Nat.id in Yx, Yy by lia. destruct Yx as [Yx Px], Yy as [Yy Py].
    cbn [create_outputs d_width d_height d_maps d_samples]. rewrite Yx, Yy.
    rewrite (proj2 (Z.eqb_neq sx 0)), (proj2 (Z.eqb_neq sy 0)), (proj2 (Z.eqb_neq g 0)) by lia. cbn [orb].
    rewrite (proj2 (Z.leb_gt (Z.of_nat x') 0)), (proj2 (Z.leb_gt (Z.of_nat y') 0)) by lia. cbn [orb].
    destruct (m mod g =? 0)%Z; [|discriminate Hc]. injection Hc as <-. reflexivity.
  - destruct Hs as (W1 & W2 & -> & ->). injection Hc as <-. cbn [proper wf_slayer] in *. cbn [create_outputs d_width d_height d_maps d_samples].
    rewrite (proj2 (Z.eqb_neq kx 0)), (proj2 (Z.eqb_neq ky 0)) by lia. cbn [orb]. rewrite !Nat2Z.inj_mul, !Z2Nat.id by lia.
    rewrite !Z.mod_mul, !Z.div_mul by lia. reflexivity.
  - destruct Hs as (W1 & W2 & -> & ->). injection Hc as <-. cbn [proper wf_slayer] in *. cbn [create_outputs d_width d_height d_maps d_samples].
    rewrite (proj2 (Z.eqb_neq kx 0)), (proj2 (Z.eqb_neq ky 0)) by lia. cbn [orb]. rewrite !Nat2Z.inj_mul, !Z2Nat.id by lia.
    rewrite !Z.mod_mul, !Z.div_mul by lia. reflexivity.
  - destruct Hs as (W1 & W2 & Yx & Yy). injection Hc as <-. cbn [proper wf_slayer] in *. cbn [create_outputs d_width d_height d_maps d_samples].
    apply apool_window in Yx, Yy; try lia. rewrite !Z2Nat.id in Yx, Yy by lia. rewrite Yx, Yy.
    rewrite (proj2 (Z.eqb_neq sx 0)), (proj2 (Z.eqb_neq sy 0)) by lia. reflexivity.
Qed.

(** Lines describe proper layers. *)
Section Lines.
Context (read_datum : str -> D) (d0 d1 : D) (rand : nat -> Z) (whole : bool) (fx fy classes : Z).
Notation line_layers := (line_layers read_datum d0 d1 rand whole fx fy classes true).
Lemma size_nonneg l name dflt x y : size_param l name dflt x y -> (0 <= fst dflt)%Z -> (0 <= snd dflt)%Z -> (0 <= x /\ 0 <= y)%Z.
Proof. intros [([? _] & [? _] & _)|[_ H]] Hx Hy; [lia|]. subst dflt. exact (conj Hx Hy). Qed.
Lemma line_proper up n line made up' n' : line_layers up n line made up' n' -> Forall proper made.
Proof.
  intros H. destruct H as [H|line' Hn He Hq|line' Hn He Hw Hf|l layer Hn He Hf Hd|l Hn He Ho Hu|l Hn He Hf Hb|l ux uy o Hn He Hf Hb P1 P2|l w Hn He Hf Hb Pw]; try constructor; try exact I.
  - destruct Hd as [kx ky k sx sy px py g dr lr _ S1 S2 S3 _ C2 _ _ N1 N2 N3 N4 N5 _| |kx ky _ S1|kx ky _ S1|kx ky sx sy _ S1 S2| | | | | |]; cbn [proper]; try exact I.
    + apply size_nonneg in S1, S2, S3; cbn [fst snd]; try lia. assert (0 <= g)%Z by (destruct C2 as [([? _] & _)|[_ ->]]; lia). lia.
    + apply size_nonneg in S1; cbn [fst snd]; lia.
    + apply size_nonneg in S1; cbn [fst snd]; lia.
    + apply size_nonneg in S1; cbn [fst snd]; try lia. apply size_nonneg in S2; cbn [fst snd]; lia.
  - constructor.
  - destruct (whole && negb up); cbn [app]; repeat constructor.
  - destruct ((o =? 1)%Z && true); repeat constructor.
  - destruct (classes =? 1)%Z; exact I.
  - destruct (whole && negb up && _); repeat constructor.
Qed.

(** ** Lines *)
Notation planned := (planned read_datum d0 d1 rand whole fx fy classes).
Notation span := (option (slayer * slayer)).
Definition span_yields (o : span) (x x' y y' : nat) : Prop :=
  match o with Some (a, b) => yields a x x' /\ yields b y y' | None => x' = x /\ y' = y end.
Lemma pixel_yields n : 0 < n -> yields (SConv 1 1 0) n n.
Proof. intros H. cbn [yields]. split; [lia|]. unfold positions. rewrite (proj2 (Nat.ltb_ge _ _)) by lia. rewrite Nat.div_1_r. lia. Qed.
Lemma pixel_same n m : yields (SConv 1 1 0) n m -> m = n.
Proof. cbn [yields]. intros [H ->]. unfold positions. rewrite (proj2 (Nat.ltb_ge _ _)) by lia. rewrite Nat.div_1_r. lia. Qed.
Lemma yields_positive l n q : wf_slayer l -> modest l -> 0 < q -> yields l n q -> 0 < n.
Proof. destruct l as [k st p|k|k st]; cbn [wf_slayer modest yields]; intros; try lia; nia. Qed.
Lemma network_positive ls n m : Forall wf_slayer ls -> Forall modest ls -> 0 < m -> network_yields ls n m -> 0 < n.
Proof.
  intros Hw. revert n. induction Hw as [|l ls W _ IH]; intros n Hm H0; cbn [network_yields]; [now intros ->|]. inversion Hm as [|? ? M1 M2]; subst.
  intros (q & Y & N). apply (yields_positive l n q W M1); [|exact Y]. now apply IH.
Qed.
Lemma network_app a b n m : network_yields (a ++ b) n m <-> exists q, network_yields a n q /\ network_yields b q m.
Proof.
  revert n. induction a as [|l a IH]; intros n; cbn [app network_yields].
  - split; [intros H; now exists n|intros (q & -> & H); exact H].
  - split; [intros (q & Y & H); apply IH in H as (r & H1 & H2); exists r; split; [now exists q|exact H2]|].
    intros (r & (q & Y & H1) & H2). exists q. split; [exact Y|]. apply IH. now exists r.
Qed.

Lemma line_pass helper made o s x y m x' y' m' : 0 < x -> 0 < y -> Forall inner made -> Forall proper made -> agrees_with made o -> both wf_slayer o ->
  span_yields o x x' y y' -> channels (d_maps helper) made m = Some m' ->
  passes helper made (mkDims s (Z.of_nat x) (Z.of_nat y) m) = Some (mkDims s (Z.of_nat x') (Z.of_nat y') m').
Proof.
  intros Hx Hy Hi Hp Ha Hw Hs Hc. destruct o as [[a b]|]; cbn [agrees_with span_yields both fst snd] in *.
  - destruct Ha as (l & -> & El). inversion Hi as [|? ? I1 _]; subst. inversion Hp as [|? ? P1 _]; subst.
    cbn [passes]. rewrite (inner_pass helper l s x y m x' y' m'); auto. rewrite El. tauto.
  - destruct Hs as [-> ->]. clear Hw. revert m m' Hc. induction made as [|l made IH]; intros m m' Hc; [cbn in *; congruence|].
    inversion Hi as [|? ? I1 I2]; subst. inversion Hp as [|? ? P1 P2]; subst. inversion Ha as [|? ? A1 A2]; subst.
    apply (channels_app _ [l] made) in Hc as (q & C1 & C2). cbn [passes]. rewrite (inner_pass helper l s x y m x y q); auto.
    destruct A1 as [-> | ->]; [auto|]. unfold pixelwise. cbn [wf_slayer]. repeat split; try lia; now apply pixel_yields.
Qed.
Lemma inner_up up n line made up' n' : line_layers up n line made up' n' -> Forall inner made -> up' = up.
Proof.
  intros H Hi. destruct H as [H|line' Hn He Hq|line' Hn He Hw Hf|l layer Hn He Hf Hd|l Hn He Ho Hu|l Hn He Hf Hb|l ux uy o Hn He Hf Hb P1 P2|l w Hn He Hf Hb Pw]; try reflexivity.
  - exfalso. apply Forall_app in Hi as [_ Hi]. inversion Hi as [|? ? X _]; subst. exact X.
  - exfalso. inversion Hi as [|? ? X _]; subst. exact X.
Qed.
Lemma somes_cons o (os : list span) : map fst (somes (o :: os)) = match o with Some l => [fst l] | None => [] end ++ map fst (somes os).
Proof. destruct o; reflexivity. Qed.
Lemma somes_cons' o (os : list span) : map snd (somes (o :: os)) = match o with Some l => [snd l] | None => [] end ++ map snd (somes os).
Proof. destruct o; reflexivity. Qed.
Lemma both_lists f (os : list span) : Forall (both f) os -> Forall f (map fst (somes os)) /\ Forall f (map snd (somes os)).
Proof. intros H. induction H as [|[[a b]|] os Ho Hf [IH1 IH2]]; cbn; auto. destruct Ho. cbn in *. auto. Qed.

Lemma early_passes helper s up n lines os made up' n' : planned early up n lines os made up' n' -> Forall (both wf_slayer) os -> Forall (both modest) os ->
  forall x y m x' y' m', 0 < x' -> 0 < y' -> network_yields (map fst (somes os)) x x' -> network_yields (map snd (somes os)) y y' ->
  channels (d_maps helper) made m = Some m' ->
  up' = up /\ passes helper made (mkDims s (Z.of_nat x) (Z.of_nat y) m) = Some (mkDims s (Z.of_nat x') (Z.of_nat y') m').
Proof.
  induction 1 as [up n|up n line made up1 n1 o lines os rest up2 n2 L De Ag Pe _ IH]; intros Hw Hm x y m x' y' m' Hx Hy Nx Ny Hc.
  - cbn in *. split; [reflexivity|]. congruence.
  - inversion Hw as [|? ? W1 W2]; subst. inversion Hm as [|? ? M1 M2]; subst. apply channels_app in Hc as (q & C1 & C2).
    rewrite somes_cons in Nx. rewrite somes_cons' in Ny. apply network_app in Nx as (x1 & Nx1 & Nx2). apply network_app in Ny as (y1 & Ny1 & Ny2).
    destruct (both_lists _ _ W2) as [Wx Wy]. destruct (both_lists _ _ M2) as [Mx My].
    pose proof (network_positive _ _ _ Wx Mx Hx Nx2) as Hx1. pose proof (network_positive _ _ _ Wy My Hy Ny2) as Hy1.
    assert (Sp : span_yields o x x1 y y1 /\ 0 < x /\ 0 < y).
    { destruct o as [[a b]|]; cbn [span_yields fst snd network_yields both] in *.
      - destruct Nx1 as (? & Yx & ->). destruct Ny1 as (? & Yy & ->). split; [auto|]. split; [now apply (yields_positive a x x1)|now apply (yields_positive b y y1)].
      - subst. auto. }
    destruct Sp as (Sp & Px & Py). destruct (IH W2 M2 x1 y1 q x' y' m' Hx Hy Nx2 Ny2 C2) as (-> & E). split; [exact (inner_up _ _ _ _ _ _ L Pe)|].
    rewrite (passes_app helper made rest _ (mkDims s (Z.of_nat x1) (Z.of_nat y1) q)); [exact E|].
    apply (line_pass helper made o); auto. exact (line_proper _ _ _ _ _ _ L).
Qed.

(** The size behind the lines: [x] and [y], or [X] and [Y] after magnification. *)
Definition size_at (s x y X Y m : Z) (up : bool) : dims := if up then mkDims s X Y m else mkDims s x y m.
Lemma late_passes helper s up n lines os made up' n' x y X Y : planned (late whole fx fy) up n lines os made up' n' ->
  0 < x -> 0 < y -> 0 < X -> 0 < Y -> helper = mkDims s (Z.of_nat X) (Z.of_nat Y) (d_maps helper) ->
  (whole = true -> Z.of_nat X = Z.of_nat x * fx /\ Z.of_nat Y = Z.of_nat y * fy)%Z -> (whole = false -> X = x /\ Y = y) ->
  forall m m', channels (d_maps helper) made m = Some m' ->
  passes helper made (size_at s (Z.of_nat x) (Z.of_nat y) (Z.of_nat X) (Z.of_nat Y) m up) = Some (size_at s (Z.of_nat x) (Z.of_nat y) (Z.of_nat X) (Z.of_nat Y) m' up').
Proof.
  intros Hpl Hx Hy HX HY Hh Hwh Hpt. destruct helper as [hs hw hh hm]. cbn [d_maps] in Hh. injection Hh as -> -> ->. cbn [d_maps]. set (helper := mkDims s (Z.of_nat X) (Z.of_nat Y) hm).
  induction Hpl as [up n|up n line made up1 n1 o lines os rest up2 n2 L De Ag [Po Pm] _ IH]; intros m m' Hc; [cbn in *; congruence|].
  apply channels_app in Hc as (q & C1 & C2).
  rewrite (passes_app helper made rest _ (size_at s (Z.of_nat x) (Z.of_nat y) (Z.of_nat X) (Z.of_nat Y) q up1)); [now apply IH|]. clear IH C2.
  destruct Pm as [Pm|Pm].
  - pose proof (inner_up _ _ _ _ _ _ L Pm) as ->. pose proof (line_proper _ _ _ _ _ _ L) as Pr.
    assert (K : forall x y, 0 < x -> 0 < y -> passes helper made (mkDims s (Z.of_nat x) (Z.of_nat y) m) = Some (mkDims s (Z.of_nat x) (Z.of_nat y) q)).
    { intros x0 y0 H1 H2. apply (line_pass helper made o); auto; destruct Po as [-> | ->]; cbn; auto; unfold pixelwise; cbn; repeat split; try lia;
        rewrite ?Nat.add_0_r; unfold positions; rewrite (proj2 (Nat.ltb_ge _ _)) by lia; rewrite Nat.div_1_r; lia. }
    unfold size_at. destruct up; now apply K.
  - destruct (whole && negb up) eqn:Ew; cbn [app] in Pm; subst made.
    + apply andb_prop in Ew as [Ew Eu]. destruct up; [discriminate Eu|]. destruct (Hwh Ew) as [E1 E2].
      assert (up1 = true) as ->.
      { clear - L Ew. inversion L; subst; try reflexivity. exfalso. destruct (classes =? 1)%Z; discriminate. }
      cbn [channels] in C1. injection C1 as <-. cbn [passes pass size_at create_outputs d_samples d_width d_height d_maps]. rewrite <- E1, <- E2.
      unfold helper, pass. cbn [create_outputs d_samples d_width d_height d_maps]. rewrite Z.eqb_refl. reflexivity.
    + cbn [channels] in C1. injection C1 as <-.
      assert (Eup : up1 = up /\ (whole = true -> up = true)).
      { split; [|intros W; rewrite W in Ew; now destruct up]. clear - L Ew. inversion L; subst; try reflexivity. destruct up; [reflexivity|]. cbn [orb]. now rewrite andb_true_r in Ew. }
      destruct Eup as [-> Eup].
      assert (K : passes helper [LConcatenation : layer] (mkDims s (Z.of_nat X) (Z.of_nat Y) m) = Some (mkDims s (Z.of_nat X) (Z.of_nat Y) (m + hm))).
      { cbn [passes]. unfold helper, pass. cbn [create_outputs d_samples d_width d_height d_maps]. rewrite Z.eqb_refl. reflexivity. }
      unfold size_at. destruct up; [exact K|]. destruct whole; [discriminate (Eup eq_refl)|]. destruct (Hpt eq_refl) as [-> ->]. exact K.
Qed.

Lemma late_trivial up n lines os made up' n' : planned (late whole fx fy) up n lines os made up' n' -> Forall (fun o => o = None \/ o = pixelwise) os.
Proof. induction 1 as [|? ? ? ? ? ? ? ? ? ? ? ? _ _ _ [P _] _ IH]; constructor; auto. Qed.
Lemma trivial_yields (os : list span) n m : Forall (fun o => o = None \/ o = pixelwise) os ->
  (network_yields (map fst (somes os)) n m -> n = m) /\ (network_yields (map snd (somes os)) n m -> n = m).
Proof.
  intros H. revert n. induction H as [|o os Ho _ IH]; intros n; [cbn; auto|]. destruct Ho as [-> | ->]; [exact (IH n)|]. unfold pixelwise. cbn [somes flat_map app map fst snd network_yields].
  split; intros (q & Y & N); apply pixel_same in Y; subst q; [exact (proj1 (IH n) N)|exact (proj2 (IH n) N)].
Qed.
Lemma somes_app (a b : list span) : somes (a ++ b) = somes a ++ somes b.
Proof. unfold somes. apply flat_map_app. Qed.
Lemma somes_none {X} (l : list X) : somes (map (fun _ => None) l) = [].
Proof. induction l; auto. Qed.

(** The layers of a straight configuration, without the loss, turn an input of size [x0] x [y0] into an output of size [X] x [Y]. *)
Lemma straight_passes lines os body : straight read_datum d0 d1 rand whole fx fy classes lines os body ->
  Forall (both wf_slayer) os -> Forall (both modest) os ->
  exists w rest act ups first second out up n,
    lines = first ++ second ++ out :: rest /\ output_line out /\ unmarked out /\ Forall (fun l => ~ stack_command l /\ ~ collects l) lines /\
    line_layers up n out (act :: ups ++ [LError w]) up n /\ Forall (fun l => line_layers up n l [] up n) rest /\
    FactoryLayers_Spec.text_layers read_datum d0 d1 rand whole fx fy classes true ((fx =? 1) && (fy =? 1))%Z 0 lines (body ++ act :: ups ++ [LError w]) /\
    FactoryLayers_Spec.text_layers read_datum d0 d1 rand whole fx fy classes true ((fx =? 1) && (fy =? 1))%Z 0 (first ++ second) body /\
    FactoryLayers_Spec.text_layers read_datum d0 d1 rand whole fx fy classes true ((fx =? 1) && (fy =? 1))%Z 0 ((first ++ second) ++ [out]) (body ++ act :: ups ++ [LError w]) /\
    Forall (fun l => match l with LError _ => False | _ => True end) (body ++ act :: ups) /\
    forall helper s x0 y0 x y X Y c k, 0 < x -> 0 < y -> 0 < X -> 0 < Y -> helper = mkDims s (Z.of_nat X) (Z.of_nat Y) (d_maps helper) ->
      (whole = true -> Z.of_nat X = Z.of_nat x * fx /\ Z.of_nat Y = Z.of_nat y * fy)%Z -> (whole = false -> X = x /\ Y = y) ->
      network_yields (map fst (somes os)) x0 x -> network_yields (map snd (somes os)) y0 y ->
      channels (d_maps helper) body c = Some k ->
      passes helper (body ++ act :: ups) (mkDims s (Z.of_nat x0) (Z.of_nat y0) c) = Some (mkDims s (Z.of_nat X) (Z.of_nat Y) k).
Proof.
  intros [first second out rest os1 os2 m1 m2 up1 n1 up2 n2 w El Eo Eb Ns Pe Pl Ho Hu Lo Lr] Hw Hm. subst os body.
  exists w, rest, (if (classes =? 1)%Z then LTanh else LSigmoid), (if whole && negb up2 && negb ((fx =? 1) && (fy =? 1))%Z then [LUpscale fx fy] else []), first, second, out, up2, n2.
  split; [exact El|]. split; [exact Ho|]. split; [exact Hu|]. split; [exact Ns|]. split; [exact Lo|].
  assert (Lr' : Forall (fun l => line_layers up2 n2 l [] up2 n2) rest) by (eapply Forall_impl; [|exact Lr]; intros l [K _]; exact K). split; [exact Lr'|].
  assert (T : forall P up n lines os made up' n' tail tl_made, planned P up n lines os made up' n' ->
    FactoryLayers_Spec.text_layers read_datum d0 d1 rand whole fx fy classes true up' n' tail tl_made ->
    FactoryLayers_Spec.text_layers read_datum d0 d1 rand whole fx fy classes true up n (lines ++ tail) (made ++ tl_made)).
  { intros P up n lines0 os made up' n' tail tlm H Ht. induction H as [|up n line made up1' n1' o lines1 os rest0 up2' n2' L _ _ _ _ IH]; [exact Ht|].
    cbn [app]. rewrite <- app_assoc. eapply text_cons; [exact L|]. now apply IH. }
  split; [|split; [|split; [|split]]].
  - rewrite El, <- app_assoc. apply (T _ _ _ _ _ _ _ _ _ _ Pe). apply (T _ _ _ _ _ _ _ _ _ _ Pl).
    rewrite <- (app_nil_r (_ :: _ ++ [LError w])). eapply text_cons; [exact Lo|]. clear - Lr'. induction Lr' as [|l rest L _ IH]; [constructor|].
    rewrite <- (app_nil_l (@nil layer)). eapply text_cons; [exact L|exact IH].
  - apply (T _ _ _ _ _ _ _ _ _ _ Pe). rewrite <- (app_nil_r second), <- (app_nil_r m2). apply (T _ _ _ _ _ _ _ _ _ _ Pl). constructor.
  - rewrite <- !app_assoc. apply (T _ _ _ _ _ _ _ _ _ _ Pe). apply (T _ _ _ _ _ _ _ _ _ _ Pl).
    rewrite <- (app_nil_r (_ :: _ ++ [LError w])). eapply text_cons; [exact Lo|constructor].
  - apply Forall_app. split; [apply Forall_app; split|].
    + clear - Pe. induction Pe as [|? ? ? ? ? ? ? ? ? ? ? ? L _ _ P _ IH]; [constructor|]. apply Forall_app. split; [|exact IH]. eapply Forall_impl; [|exact P]. intros []; cbn; tauto.
    + clear - Pl. induction Pl as [|? ? ? ? ? ? ? ? ? ? ? ? L _ _ [_ P] _ IH]; [constructor|]. apply Forall_app. split; [|exact IH].
      destruct P as [P| ->]; [eapply Forall_impl; [|exact P]; intros []; cbn; tauto|]. destruct (whole && _); repeat constructor.
    + constructor; [destruct (classes =? 1)%Z; exact I|]. destruct (whole && _ && _); repeat constructor.
  - intros helper s x0 y0 x y X Y c k Hx Hy HX HY Hh Hwh Hpt Nx Ny Hc.
    apply Forall_app in Hw as [W1 W2]. apply Forall_app in Hm as [M1 M2]. apply Forall_app in W2 as [W2 _]. apply Forall_app in M2 as [M2 _].
    rewrite !somes_app, !map_app in Nx, Ny. apply network_app in Nx as (x1 & Nx1 & Nx2). apply network_app in Ny as (y1 & Ny1 & Ny2).
    apply network_app in Nx2 as (x2 & Nx2 & Nx3). apply network_app in Ny2 as (y2 & Ny2 & Ny3).
    change (somes (None :: map (fun _ : str => None) rest)) with (somes (map (fun _ : str => @None (slayer * slayer)) rest)) in Nx3, Ny3. rewrite somes_none in Nx3, Ny3. cbn in Nx3, Ny3. subst x2 y2.
    pose proof (late_trivial _ _ _ _ _ _ _ Pl) as Tr. apply (trivial_yields _ _ _ Tr) in Nx2, Ny2. subst x1 y1.
    apply channels_app in Hc as (q & C1 & C2).
    destruct (early_passes helper s _ _ _ _ _ _ _ Pe W1 M1 x0 y0 c x y q Hx Hy Nx1 Ny1 C1) as (Eu & E1).
    rewrite <- app_assoc. rewrite (passes_app helper m1 _ _ _ E1).
    pose proof (late_passes helper s _ _ _ _ _ _ _ x y X Y Pl Hx Hy HX HY Hh Hwh Hpt q k C2) as E2.
    assert (Same : ((fx =? 1) && (fy =? 1))%Z = true -> X = x /\ Y = y).
    { intros F. apply andb_prop in F as [F1 F2]. apply Z.eqb_eq in F1, F2. destruct whole; [|now apply Hpt]. destruct (Hwh eq_refl). lia. }
    replace (mkDims s (Z.of_nat x) (Z.of_nat y) q) with (size_at s (Z.of_nat x) (Z.of_nat y) (Z.of_nat X) (Z.of_nat Y) q up1).
    2: { unfold size_at. subst up1. destruct ((fx =? 1) && (fy =? 1))%Z; [|reflexivity]. destruct (Same eq_refl) as [-> ->]. reflexivity. }
    rewrite (passes_app helper m2 _ _ _ E2).
    assert (Act : forall d ls, passes helper ((if (classes =? 1)%Z then LTanh else LSigmoid) :: ls) d = passes helper ls d) by (intros; destruct (classes =? 1)%Z; reflexivity).
    rewrite Act. unfold size_at. destruct up2.
    + rewrite andb_false_r. reflexivity.
    + cbn [negb]. rewrite andb_true_r. destruct whole.
      * destruct (Hwh eq_refl) as [E3 E4]. destruct ((fx =? 1) && (fy =? 1))%Z; cbn [andb negb].
        -- destruct (Same eq_refl) as [-> ->]. reflexivity.
        -- unfold passes, pass. cbn [create_outputs d_samples d_width d_height d_maps]. now rewrite E3, E4.
      * destruct (Hpt eq_refl) as [-> ->]. reflexivity.
Qed.
End Lines.

(** ** The network *)
Section Net.
Variables (h : list node) (made : list (nat * layer)) (data : connection) (source : nat -> dims).
Lemma sized_same c c' d : c_node c' = c_node c -> c_buffer c' = c_buffer c -> sized h made data source c d -> sized h made data source c' d.
Proof.
  intros E1 E2 H. destruct H as [c E|c p l nd ds os d E1' Hi En Ha Ec Eo].
  - rewrite <- E2. apply sized_data. congruence.
  - apply (sized_layer h made data source c' p l nd ds os d); congruence.
Qed.
Lemma settled_node (c : connection) : c_node (settled h c) = c_node c /\ c_buffer (settled h c) = c_buffer c.
Proof. unfold settled. destruct (c_node c) eqn:E; [|now rewrite E]. destruct (_ && _); cbn; now rewrite ?E. Qed.
Definition accepts (x : nat * layer) : Prop :=
  exists nd ds, nth_error h (fst x) = Some nd /\ all_sized h made data source (n_inputs nd) ds /\ create_outputs (snd x) ds <> None.
Lemma chain_sized ps : forall c c' d d', incl ps made -> sized h made data source c d -> chain data h c ps c' -> passes (source 2) (map snd ps) d = Some d' ->
  sized h made data source c' d' /\ Forall accepts ps.
Proof.
  induction ps as [|[p l] ps IH]; intros c c' d d' Hi Hs Hc Hp; cbn [chain map snd passes] in *.
  - injection Hp as <-. subst c'. split; [exact Hs|constructor].
  - destruct Hc as [(nd & En & Ei) (bp & Hc)]. destruct (pass (source 2) l d) as [o|] eqn:Ep; [|discriminate Hp]. unfold pass in Ep.
    set (ins := match l with LConcatenation => [d; source 2] | _ => [d] end) in *.
    assert (Ha : all_sized h made data source (n_inputs nd) ins).
    { rewrite Ei. assert (S0 : sized h made data source (settled h c) d) by (apply (sized_same c); [apply settled_node..|exact Hs]).
      unfold behind, ins. destruct l; cbn [map]; repeat constructor; auto.
      replace (source 2) with (source (c_buffer (settled h (mkConn (c_node data) 2 false)))) by (now rewrite (proj2 (settled_node _))). apply sized_data.
      now rewrite (proj1 (settled_node _)). }
    destruct (create_outputs l ins) as [[|o1 [|? ?]]|] eqn:Ec; try discriminate Ep. injection Ep as ->.
    destruct (IH (mkConn (Some p) 0 bp) c' o d') as [S1 A1]; auto.
    + intros z Hz. apply Hi. now right.
    + apply (sized_layer h made data source _ p l nd ins [o] o); auto. apply Hi. now left.
    + split; [exact S1|]. constructor; [|exact A1]. exists nd, ins. cbn [fst snd]. repeat split; auto. congruence.
Qed.
Lemma accepts_parameters : Forall accepts made -> exists ps, parameters h made data source ps.
Proof.
  unfold parameters. generalize made at 1 3. intros l H. induction H as [|x l (nd & ds & H1 & H2 & H3) _ (ps & IH)]; [exists []; constructor|].
  exists (parameters_of (snd x) ds :: ps). constructor; [|exact IH]. exists nd, ds. auto.
Qed.
(** A connection leads to one size only. *)
Lemma sized_unique : NoDup (map fst made) -> (forall p, In p (map fst made) -> c_node data <> Some p) ->
  (forall c d, sized h made data source c d -> forall d', sized h made data source c d' -> d' = d) /\
  (forall cs ds, all_sized h made data source cs ds -> forall ds', all_sized h made data source cs ds' -> ds' = ds).
Proof.
  intros Hn Hd. apply sized_mut.
  - intros c E d' H. inversion H as [c0 E'|c0 p l nd ds os d0 E1 Hi]; subst; [reflexivity|]. exfalso. apply (Hd p); [now apply (in_map fst) in Hi|congruence].
  - intros c p l nd ds os d E1 Hi En _ IH Ec Eo d' H. inversion H as [c0 E'|c0 p' l' nd' ds' os' d0 E1' Hi' En' Ha' Ec' Eo']; subst.
    + exfalso. apply (Hd p); [now apply (in_map fst) in Hi|congruence].
    + assert (p' = p) as -> by congruence. rewrite (pair_unique made p l' l Hn Hi' Hi) in *. assert (nd' = nd) as -> by congruence. rewrite (IH ds' Ha') in *. congruence.
  - intros ds' H. inversion H. reflexivity.
  - intros c cs d ds _ IH1 _ IH2 ds' H. inversion H as [|c0 cs0 d0 ds0 H1 H2]; subst. now rewrite (IH1 _ H1), (IH2 _ H2).
Qed.
End Net.
End Sizes.

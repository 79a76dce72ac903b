(** Lemmas for C86. *)
From Coq Require Import ZArith Bool Lia Reals Lra Floats.SpecFloat.
From Flocq Require Import Core.Core IEEE754.BinarySingleNaN.
From Verif Require Import Base BaseFacts Float32 FloatOps Tensor_Model Tensor_Spec Tensor_Proofs Num RealNum Math_Model Math_Spec Math_Proofs Conv_Proofs Conv2_Proofs
  Act_Model Act_Spec Act_Proofs Layers_Model Layers_Proofs Pool_Model Pool_Spec Pool_Proofs ConvLayer_Model ConvLayer_Spec ConvLayer_Proofs ConvExact_Proofs ConvReady_Proofs Conv_Props
  Graph_Model Graph_Spec Graph_Proofs Backprop_Model Backprop_Spec Backprop_Proofs BackpropLayers_Model BackpropLayers_Spec BackpropLayers_Proofs BackpropMap_Proofs
  Batch_Model Batch_Spec Batch_Proofs FloatOps_Flocq Float64_Flocq FloatNonneg Rounding_Spec Rounding_Proofs Rounding_Props.
Local Open Scope R_scope.
#[local] Existing Instance Hprec.
#[local] Existing Instance Hmax.

(** ** Comparing floats *)
Lemma key_value a r : rep32 a r -> f32_nan a = false /\ exists n : Z, (0 <= n)%Z /\ ((f32_key a = n /\ nn n r) \/ (f32_key a = (- n)%Z /\ nn n (- r))).
Proof.
  intros (b & -> & F & <-). set (p := if Bsign b then Bopp b else b).
  assert (Np : nn (bits_of_sf (B2SF p)) (if Bsign b then - B2R b else B2R b)).
  { exists p. split; [reflexivity|]. unfold p. destruct b as [[|]|s| |[|] m e H]; try discriminate; cbn [Bsign Bopp negb is_finite]; repeat split; try reflexivity; rewrite ?B2R_Bopp; cbn; try lra. now rewrite <- F2R_Zopp. }
  pose proof (nn_range _ _ Np) as Rg. destruct (key_nonneg _ Rg) as [Kp Xp]. unfold f32_nonneg, f32_inf in Rg.
  destruct (Bsign b) eqn:Sg.
  - assert (E : bits_of_sf (B2SF b) = (2 ^ 31 + bits_of_sf (B2SF p))%Z).
    { unfold p. destruct b as [s|s| |s m e H]; try discriminate; cbn in Sg; subst s; cbn [Bopp B2SF bits_of_sf sign_bit negb]; lia. }
    set (n := bits_of_sf (B2SF p)) in *. rewrite E.
    assert (M : f32_mag (2 ^ 31 + n)%Z = n).
    { unfold f32_mag. replace (2 ^ 31 + n)%Z with (n + 1 * 2 ^ 31)%Z by lia. rewrite Z.mod_add by lia. apply Z.mod_small. lia. }
    split; [unfold f32_nan; rewrite M; apply Z.ltb_ge; lia|]. exists n. split; [lia|]. right. split; [|exact Np]. unfold f32_key. rewrite M. destruct (Z.ltb_spec (2 ^ 31 + n) (2 ^ 31)); lia.
  - fold p in Kp. unfold p in *. split; [exact Xp|]. exists (bits_of_sf (B2SF b)). split; [lia|]. left. now split.
Qed.
Lemma fgt_value a b r s : rep32 a r -> rep32 b s -> fgt a b = Rlt_bool s r.
Proof.
  intros Ha Hb. destruct (key_value a r Ha) as (Na & n & Pn & Kn), (key_value b s Hb) as (Nb & k & Pk & Kk). unfold fgt. rewrite Na, Nb. cbn [negb andb].
  destruct Kn as [(-> & Vn)|(-> & Vn)], Kk as [(-> & Vk)|(-> & Vk)]; pose proof (nn_pos _ _ Vn) as P1; pose proof (nn_pos _ _ Vk) as P2; pose proof (nn_order _ _ _ _ Vn Vk) as O1; pose proof (nn_order _ _ _ _ Vk Vn) as O2.
  - destruct (Z.ltb_spec k n), (Rlt_bool_spec s r); try reflexivity; exfalso; [assert (n <= k)%Z by (apply O1; lra); lia|assert (r <= s) by (apply O1; lia); lra].
  - destruct (Z.ltb_spec (- k) n), (Rlt_bool_spec s r); try reflexivity; exfalso.
    + assert (n <= k /\ k <= n)%Z as (A & B) by (split; [apply O1|apply O2]; lra). assert (n <= 0)%Z; [|lia]. apply (nn_order _ _ _ _ Vn nn_zero). lra.
    + assert (n = 0 /\ k = 0)%Z as (-> & ->) by lia. pose proof (nn_unique _ _ _ Vn nn_zero). pose proof (nn_unique _ _ _ Vk nn_zero). lra.
  - destruct (Z.ltb_spec k (- n)), (Rlt_bool_spec s r); try reflexivity; exfalso; [lia|lra].
  - destruct (Z.ltb_spec (- k) (- n)), (Rlt_bool_spec s r); try reflexivity; exfalso; [assert (k <= n)%Z by (apply O2; lra); lia|assert (- s <= - r) by (apply O2; lia); lra].
Qed.
Lemma lowest_value : rep32 f32_lowest R_lowest.
Proof.
  assert (H : bounded 24 128 16777215 104 = true) by reflexivity.
  exists (B754_finite true 16777215 104 H : float). split; [reflexivity|]. split; [reflexivity|]. cbn [B2R cond_Zopp]. unfold F2R, R_lowest. cbn [Fnum Fexp].
  change (bpow radix2 104) with (IZR (2 ^ 104)). rewrite <- mult_IZR. exact eq_refl.
Qed.

(** The running maximum of floats is that of their values. *)
Lemma scan_value cells (v : nat * nat -> f32) (r : nat * nat -> R) : (forall c, In c cells -> rep32 (v c) (r c)) ->
  rep32 (fst (scan f32_order v cells)) (fst (scan R_order r cells)).
Proof.
  unfold scan. cbn [o_lowest f32_order R_order]. pose proof lowest_value as L. revert L.
  generalize (0%nat, 0%nat) at 1 as p. generalize (0%nat, 0%nat) as q. generalize f32_lowest as a. generalize R_lowest as z.
  induction cells as [|c cells IH]; intros z a q p L H; cbn [fold_left]; [exact L|].
  cbn [fst o_gt f32_order R_order]. rewrite (fgt_value (v c) a (r c) z (H c (or_introl eq_refl)) L).
  destruct (Rlt_bool_spec z (r c)) as [G|G], (Rlt_dec z (r c)) as [G'|G']; try lra; apply IH; auto using in_cons; try exact L; apply H; now left.
Qed.
Lemma scan_close cells (r s : nat * nat -> R) e : 0 <= e -> (forall c, In c cells -> Rabs (r c - s c) <= e) ->
  Rabs (fst (scan R_order r cells) - fst (scan R_order s cells)) <= e.
Proof.
  intros He. unfold scan. cbn [o_lowest R_order]. assert (L : Rabs (R_lowest - R_lowest) <= e) by (rewrite Rminus_diag_eq, Rabs_R0 by reflexivity; exact He). revert L.
  generalize (0%nat, 0%nat) at 1 as p. generalize (0%nat, 0%nat) as q. generalize R_lowest at 1 3 as a. generalize R_lowest as b.
  induction cells as [|c cells IH]; intros b a q p L H; cbn [fold_left]; [exact L|]. pose proof (H c (or_introl eq_refl)) as Hc.
  cbn [fst o_gt f32_order R_order]. destruct (Rlt_dec a (r c)), (Rlt_dec b (s c)); apply IH; auto using in_cons; clear IH; revert L Hc; unfold Rabs; repeat destruct Rcase_abs; lra.
Qed.
Lemma scan_most cells (s : nat * nat -> R) most : cells <> [] -> (forall c, In c cells -> Rabs (s c) <= most) -> most <= - R_lowest ->
  Rabs (fst (scan R_order s cells)) <= most.
Proof.
  intros Hn Hc Hm. unfold scan. cbn [o_lowest R_order].
  assert (G : forall cells (b : R * (nat * nat)), (forall c, In c cells -> Rabs (s c) <= most) -> Rabs (fst b) <= most \/ (fst b = R_lowest /\ cells <> []) ->
    Rabs (fst (fold_left (fun best c => if o_gt R_order (s c) (fst best) then (s c, c) else best) cells b)) <= most).
  { clear Hn Hc cells. induction cells as [|c cells IH]; intros b Hc Hb; cbn [fold_left]; [destruct Hb as [Hb|[_ Hb]]; [exact Hb|congruence]|].
    pose proof (Hc c (or_introl eq_refl)) as H1. apply IH; [auto using in_cons|]. cbn [o_gt R_order]. left. destruct (Rlt_dec (fst b) (s c)) as [L|L]; cbn [fst]; [exact H1|].
    destruct Hb as [Hb|[Hb _]]; [exact Hb|]. rewrite Hb in *. revert H1. unfold Rabs. repeat destruct Rcase_abs; lra. }
  apply G; [exact Hc|]. right. cbn. auto.
Qed.

(** ** Tensors *)
Lemma near_val q l r x y m s : near q l r -> in_range (q_dims q) x y m s -> close (q_most q) (q_error q) (val f32_zero (q_dims q) l x y m s) (val 0 (q_dims q) r x y m s).
Proof. intros (_ & _ & H) V. rewrite !val_in by exact V. apply H. now apply place_lt. Qed.
Lemma near_out q (t : tensor f32) (u : tensor R) f g : (0 < size (q_dims q))%nat ->
  wf t -> has_shape t (d_samples (q_dims q)) (d_width (q_dims q)) (d_height (q_dims q)) (d_maps (q_dims q)) -> contents t f ->
  wf u -> has_shape u (d_samples (q_dims q)) (d_width (q_dims q)) (d_height (q_dims q)) (d_maps (q_dims q)) -> contents u g ->
  (forall x y m s, in_range (q_dims q) x y m s -> close (q_most q) (q_error q) (f x y m s) (g x y m s)) ->
  near q (elements_of t) (elements_of u).
Proof.
  intros P Wt St Ct Wu Su Cu H. destruct (elements_val f32_zero (q_dims q) t f Wt St Ct P) as (L1 & E1). destruct (elements_val 0 (q_dims q) u g Wu Su Cu P) as (L2 & E2).
  split; [exact L1|]. split; [exact L2|]. intros i Hi. destruct (place_surj (q_dims q) i Hi) as (x & y & m & s & V & <-). rewrite E1, E2 by exact V. now apply H.
Qed.
Lemma near_one q x y : all_near [Some q] x y -> exists l r, x = [l] /\ y = [r] /\ near q l r.
Proof. intros H. inversion H as [|? ? l r ? ? A B]; subst. inversion B; subst. eauto. Qed.
Lemma near_two q p x y : all_near [Some q; Some p] x y -> exists l r k s, x = [l; k] /\ y = [r; s] /\ near q l r /\ near p k s.
Proof. intros H. inversion H as [|? ? l r ? ? A B]; subst. apply near_one in B as (k & s & -> & -> & B). exists l, r, k, s. auto. Qed.
Lemma near_single q l r : near q l r -> all_near [Some q] [l] [r].
Proof. intros H. constructor; [exact H|constructor]. Qed.
Lemma near_nth qs ls rs b q : all_near qs ls rs -> nth_error qs b = Some (Some q) -> near q (nth b ls []) (nth b rs []) /\ (b < length ls)%nat /\ (b < length rs)%nat.
Proof.
  intros H. revert b. induction H as [|q' qs l r ls rs A B IH]; intros [|b] E; cbn [nth_error] in E; try discriminate.
  - injection E as ->. cbn [nth length]. split; [exact A|lia].
  - cbn [nth length]. destruct (IH b E) as (H1 & H2 & H3). split; [exact H1|lia].
Qed.
Lemma close_more most error most' error' a r : close most error a r -> most <= most' -> error <= error' -> close most' error' a r.
Proof. intros (v & V & A & B) H1 H2. exists v. split; [exact V|]. split; lra. Qed.

(** ** Layers *)
Lemma act_close fwd ideal bp1 bp2 d old1 old2 od1 od2 most error most' error' ps qs : (0 < size d)%nat -> length old1 = size d -> length old2 = size d ->
  (forall a r, close most error a r -> close most' error' (fwd a) (ideal r)) ->
  stays_close (activation_behaviour f32_num d (act_ff fwd) bp1 old1 od1) (activation_behaviour R_num d (act_ff ideal) bp2 old2 od2) ps qs
    [Some (mkQuality d most error)] [Some (mkQuality d most' error')].
Proof.
  intros P O1 O2 F x1 x2 H. apply near_one in H as (l & r & -> & -> & H). pose proof H as (L1 & L2 & _). cbn in L1, L2. apply near_single. cbn [activation_behaviour b_outputs nth].
  destruct (act_ff_spec fwd (tensor_of d l) (tensor_of d old1) (val f32_zero d l)) as (t1 & E1 & W1 & S1 & C1);
    try (apply wf_of; assumption); [apply tensor_same|now apply contents_val|].
  destruct (act_ff_spec ideal (tensor_of d r) (tensor_of d old2) (val 0 d r)) as (t2 & E2 & W2 & S2 & C2);
    try (apply wf_of; assumption); [apply tensor_same|now apply contents_val|].
  rewrite E1, E2. cbn [written]. apply (near_out (mkQuality d most' error') t1 t2 _ _ P W1 S1 C1 W2 S2 C2). intros x y m s V. apply F. exact (near_val _ _ _ _ _ _ _ H V).
Qed.

Lemma rectify_close most error a r : close most error a r -> close most error (rectify f32_num (fun v => fgt v f32_zero) a) (rectify R_num R_positive r).
Proof.
  intros (v & V & A & B). pose proof (Rabs_pos r). pose proof (Rabs_pos (v - r)). unfold rectify. rewrite (fgt_value a f32_zero v 0 V rep32_zero). unfold R_positive.
  destruct (Rlt_bool_spec 0 v) as [L|L], (Rlt_dec 0 r) as [G|G]; cbn [n0 f32_num R_num].
  - exists v. auto.
  - exists v. split; [exact V|]. rewrite Rabs_R0. split; [|lra]. revert A. unfold Rabs. repeat destruct Rcase_abs; lra.
  - exists 0. split; [exact rep32_zero|]. split; [|exact B]. revert A. unfold Rabs. repeat destruct Rcase_abs; lra.
  - exists 0. split; [exact rep32_zero|]. rewrite Rminus_0_r, Rabs_R0. lra.
Qed.

Lemma sum_close_numbers m1 e1 m2 e2 a b r s : close m1 e1 a r -> close m2 e2 b s -> m1 + e1 + m2 + e2 <= IZR (2 ^ 127) ->
  close (m1 + m2) (e1 + e2 + (m1 + e1 + m2 + e2) / IZR (2 ^ 24) + / IZR (2 ^ 150)) (fadd a b) (r + s).
Proof.
  intros (v & V & A & B) (w & W & C & E) L. change (IZR (2 ^ 127)) with (bpow radix2 127) in L. pose proof (abs_diff v r). pose proof (abs_diff w s). pose proof (Rabs_triang v w) as T.
  exists (rnd32 (v + w)). split; [apply rep32_add; [exact V|exact W|lra]|]. split; [|pose proof (Rabs_triang r s); lra].
  pose proof (round_error (v + w)) as Re. pose proof u24_pos. assert (u24 * Rabs (v + w) <= u24 * (m1 + e1 + m2 + e2)) by (apply Rmult_le_compat_l; lra).
  replace (rnd32 (v + w) - (r + s)) with ((rnd32 (v + w) - (v + w)) + ((v - r) + (w - s))) by ring.
  pose proof (Rabs_triang (rnd32 (v + w) - (v + w)) ((v - r) + (w - s))). pose proof (Rabs_triang (v - r) (w - s)). unfold Rdiv. rewrite <- u24_value, <- eta_value. lra.
Qed.

Lemma sum_near d m1 e1 m2 e2 old1 old2 a1 a2 c1 c2 ps qs : (0 < size d)%nat -> length old1 = size d -> length old2 = size d -> m1 + e1 + m2 + e2 <= IZR (2 ^ 127) ->
  stays_close (sum_behaviour f32_num d old1 a1 c1) (sum_behaviour R_num d old2 a2 c2) ps qs
    [Some (mkQuality d m1 e1); Some (mkQuality d m2 e2)] [Some (mkQuality d (m1 + m2) (e1 + e2 + (m1 + e1 + m2 + e2) / IZR (2 ^ 24) + / IZR (2 ^ 150)))].
Proof.
  intros P O1 O2 L x1 x2 H. apply near_two in H as (l1 & l2 & k1 & k2 & -> & -> & H & G). pose proof H as (L1 & L2 & _). pose proof G as (M1 & M2 & _). cbn in L1, L2, M1, M2.
  apply near_single. cbn [sum_behaviour b_outputs nth].
  destruct (sum_ff_correct f32_num (tensor_of d l1) (tensor_of d k1) (tensor_of d old1) (val f32_zero d l1) (val f32_zero d k1)
    (d_samples d) (d_width d) (d_height d) (d_maps d)) as (t1 & E1 & W1 & S1 & C1); try (apply wf_of; assumption); try (now repeat split); try (now apply contents_val).
  destruct (sum_ff_correct R_num (tensor_of d l2) (tensor_of d k2) (tensor_of d old2) (val 0 d l2) (val 0 d k2)
    (d_samples d) (d_width d) (d_height d) (d_maps d)) as (t2 & E2 & W2 & S2 & C2); try (apply wf_of; assumption); try (now repeat split); try (now apply contents_val).
  rewrite E1, E2. cbn [written]. match goal with |- near ?q _ _ => apply (near_out q t1 t2 _ _ P W1 S1 C1 W2 S2 C2) end. intros x y m s V.
  apply sum_close_numbers; [exact (near_val _ _ _ _ _ _ _ H V)|exact (near_val _ _ _ _ _ _ _ G V)|exact L].
Qed.

Lemma concat_near da db m1 e1 m2 e2 old1 old2 a1 a2 c1 c2 ps qs : (0 < size da)%nat -> (0 < size db)%nat ->
  d_samples da = d_samples db -> d_width da = d_width db -> d_height da = d_height db ->
  length old1 = size (concat_dims da db) -> length old2 = size (concat_dims da db) ->
  stays_close (concat_behaviour f32_num da db old1 a1 c1) (concat_behaviour R_num da db old2 a2 c2) ps qs
    [Some (mkQuality da m1 e1); Some (mkQuality db m2 e2)] [Some (mkQuality (concat_dims da db) (Rmax m1 m2) (Rmax e1 e2))].
Proof.
  intros P Q Es Ew Eh O1 O2 x1 x2 H. apply near_two in H as (l1 & l2 & k1 & k2 & -> & -> & H & G). pose proof H as (L1 & L2 & _). pose proof G as (M1 & M2 & _). cbn in L1, L2, M1, M2.
  assert (P' : (0 < size (concat_dims da db))%nat) by (unfold size, concat_dims in *; cbn; nia).
  apply near_single. cbn [concat_behaviour b_outputs nth].
  destruct (concat_ff_correct f32_num (tensor_of da l1) (tensor_of db k1) (tensor_of (concat_dims da db) old1) (val f32_zero da l1) (val f32_zero db k1)
    (d_samples da) (d_width da) (d_height da) (d_maps da) (d_maps db)) as (t1 & E1 & W1 & S1 & C1); try (apply wf_of; assumption); try (now repeat split); try (now apply contents_val).
  destruct (concat_ff_correct R_num (tensor_of da l2) (tensor_of db k2) (tensor_of (concat_dims da db) old2) (val 0 da l2) (val 0 db k2)
    (d_samples da) (d_width da) (d_height da) (d_maps da) (d_maps db)) as (t2 & E2 & W2 & S2 & C2); try (apply wf_of; assumption); try (now repeat split); try (now apply contents_val).
  rewrite E1, E2. cbn [written]. match goal with |- near ?q _ _ => apply (near_out q t1 t2 _ _ P' W1 S1 C1 W2 S2 C2) end. intros x y m s V. cbn in V. destruct V as (V1 & V2 & V3 & V4). cbn in V1, V2, V3, V4. cbn beta. cbn [q_most q_error].
  destruct (Nat.ltb_spec m (d_maps da)) as [Lm|Lm].
  - apply (close_more m1 e1); [|apply Rmax_l|apply Rmax_l]. apply (near_val _ _ _ x y m s H). repeat split; assumption.
  - apply (close_more m2 e2); [|apply Rmax_r|apply Rmax_r]. apply (near_val _ _ _ x y (m - d_maps da)%nat s G). repeat split; cbn [q_dims]; lia.
Qed.

Lemma map_near q p ff1 ff2 bp1 bp2 ps qs :
  (forall l r, near q l r -> near p (written (ff1 l)) (written (ff2 r))) ->
  stays_close (map_behaviour f32_num ff1 bp1) (map_behaviour R_num ff2 bp2) ps qs [Some q] [Some p].
Proof. intros F x1 x2 H. apply near_one in H as (l1 & l2 & -> & -> & H). apply near_single. now apply F. Qed.

Lemma close_zero most error : 0 <= most -> 0 <= error -> close most error f32_zero 0.
Proof. intros A B. exists 0. split; [exact rep32_zero|]. rewrite Rminus_0_r, Rabs_R0. auto. Qed.
Lemma near_signs q l r : (0 < size (q_dims q))%nat -> near q l r -> 0 <= q_most q /\ 0 <= q_error q.
Proof. intros P (_ & _ & H). destruct (H 0%nat P) as (v & _ & A & B). pose proof (Rabs_pos (nth 0 r 0)). pose proof (Rabs_pos (v - nth 0 r 0)). lra. Qed.

Lemma border_near bx by_ d most error old1 old2 od1 od2 ps qs : (0 < size d)%nat ->
  length old1 = size (border_dims bx by_ d) -> length old2 = size (border_dims bx by_ d) ->
  stays_close (border_behaviour f32_num bx by_ d old1 od1) (border_behaviour R_num bx by_ d old2 od2) ps qs
    [Some (mkQuality d most error)] [Some (mkQuality (border_dims bx by_ d) most error)].
Proof.
  intros P O1 O2. assert (P' : (0 < size (border_dims bx by_ d))%nat) by (unfold size, border_dims in *; cbn; nia).
  apply map_near. intros l1 l2 H. pose proof H as (L1 & L2 & _). cbn in L1, L2. pose proof (near_signs (mkQuality d most error) _ _ P H) as (N1 & N2).
  destruct (resize_ff_correct f32_num bx by_ (tensor_of d l1) (tensor_of (border_dims bx by_ d) old1) (val f32_zero d l1)
    (d_samples d) (d_width d) (d_height d) (d_maps d)) as (t1 & E1 & W1 & S1 & C1); try (apply wf_of; assumption); try (now repeat split); try (now apply contents_val).
  destruct (resize_ff_correct R_num bx by_ (tensor_of d l2) (tensor_of (border_dims bx by_ d) old2) (val 0 d l2)
    (d_samples d) (d_width d) (d_height d) (d_maps d)) as (t2 & E2 & W2 & S2 & C2); try (apply wf_of; assumption); try (now repeat split); try (now apply contents_val).
  rewrite E1, E2. cbn [written]. match goal with |- near ?q _ _ => apply (near_out q t1 t2 _ _ P' W1 S1 C1 W2 S2 C2) end. intros x y m s (V1 & V2 & V3 & V4). cbn in V1, V2, V3, V4. cbn beta. cbn [q_most q_error].
  destruct (_ && _)%bool eqn:Ein; [|now apply close_zero]. rewrite !andb_true_iff, !Nat.leb_le, !Nat.ltb_lt in Ein. apply (near_val _ _ _ (x - bx / 2)%nat (y - by_ / 2)%nat m s H). repeat split; cbn [q_dims]; lia.
Qed.

Lemma prior_near ratio1 ratio2 d most error most' error' old1 old2 od1 od2 ps qs : (0 < size d)%nat ->
  length old1 = size (prior_dims d) -> length old2 = size (prior_dims d) ->
  (forall i n, (i < n)%nat -> (n = d_width d \/ n = d_height d)%nat -> close most' error' (ratio1 i n) (ratio2 i n)) ->
  stays_close (prior_behaviour f32_num ratio1 d old1 od1) (prior_behaviour R_num ratio2 d old2 od2) ps qs
    [Some (mkQuality d most error)] [Some (mkQuality (prior_dims d) (Rmax most most') (Rmax error error'))].
Proof.
  intros P O1 O2 Hr. assert (P' : (0 < size (prior_dims d))%nat) by (unfold size, prior_dims in *; cbn; nia).
  apply map_near. intros l1 l2 H. pose proof H as (L1 & L2 & _). cbn in L1, L2.
  destruct (prior_ff_correct f32_num ratio1 (tensor_of d l1) (tensor_of (prior_dims d) old1) (val f32_zero d l1)
    (d_samples d) (d_width d) (d_height d) (d_maps d)) as (t1 & E1 & W1 & S1 & C1); try (apply wf_of; assumption); try (now repeat split); try (now apply contents_val).
  destruct (prior_ff_correct R_num ratio2 (tensor_of d l2) (tensor_of (prior_dims d) old2) (val 0 d l2)
    (d_samples d) (d_width d) (d_height d) (d_maps d)) as (t2 & E2 & W2 & S2 & C2); try (apply wf_of; assumption); try (now repeat split); try (now apply contents_val).
  rewrite E1, E2. cbn [written]. match goal with |- near ?q _ _ => apply (near_out q t1 t2 _ _ P' W1 S1 C1 W2 S2 C2) end. intros x y m s (V1 & V2 & V3 & V4). cbn in V1, V2, V3, V4. cbn beta. cbn [q_most q_error].
  destruct (Nat.eqb_spec m 0); [apply (close_more most' error'); [auto|apply Rmax_r|apply Rmax_r]|]. destruct (Nat.eqb_spec m 1); [apply (close_more most' error'); [auto|apply Rmax_r|apply Rmax_r]|].
  apply (close_more most error); [|apply Rmax_l|apply Rmax_l]. apply (near_val _ _ _ x y (m - 2)%nat s H). repeat split; cbn [q_dims]; lia.
Qed.

Lemma times_one_close most error a r : close most error a r -> close most error (fmul a f32_one) (r * 1).
Proof. intros (v & V & A & B). exists v. rewrite Rmult_1_r. split; [now apply rep32_one_times|auto]. Qed.
Lemma upscale_near rw rh d most error old1 old2 od1 od2 ps qs : (0 < rw)%nat -> (0 < rh)%nat -> (0 < size d)%nat ->
  length old1 = size (upscale_dims rw rh d) -> length old2 = size (upscale_dims rw rh d) ->
  stays_close (upscale_behaviour f32_num rw rh d old1 od1) (upscale_behaviour R_num rw rh d old2 od2) ps qs
    [Some (mkQuality d most error)] [Some (mkQuality (upscale_dims rw rh d) most error)].
Proof.
  intros Hw Hh P O1 O2. assert (P' : (0 < size (upscale_dims rw rh d))%nat) by (unfold size, upscale_dims in *; cbn; nia).
  apply map_near. intros l1 l2 H. pose proof H as (L1 & L2 & _). cbn in L1, L2. unfold upscale_ff.
  destruct (up_spec f32_num (tensor_of d l1) (tensor_of (upscale_dims rw rh d) old1) rw rh (n1 f32_num) (val f32_zero d l1))
    as (t1 & E1 & W1 & S1 & C1); try (apply wf_of; assumption); [repeat split; cbn; ring|now apply contents_val|].
  destruct (up_spec R_num (tensor_of d l2) (tensor_of (upscale_dims rw rh d) old2) rw rh (n1 R_num) (val 0 d l2))
    as (t2 & E2 & W2 & S2 & C2); try (apply wf_of; assumption); [repeat split; cbn; ring|now apply contents_val|].
  rewrite E1, E2. cbn [written]. match goal with |- near ?q _ _ => apply (near_out q t1 t2 _ _ P' W1 S1 C1 W2 S2 C2) end. intros x y m s (V1 & V2 & V3 & V4). cbn in V1, V2, V3, V4. cbn beta. cbn [q_most q_error].
  apply times_one_close. apply (near_val _ _ _ (x / rw)%nat (y / rh)%nat m s H). repeat split; cbn [q_dims]; try assumption; apply Nat.div_lt_upper_bound; lia.
Qed.

Lemma scan_near cells (v : nat * nat -> f32) (r : nat * nat -> R) most error : cells <> [] -> 0 <= error -> most <= - R_lowest ->
  (forall c, In c cells -> close most error (v c) (r c)) -> close most error (fst (scan f32_order v cells)) (fst (scan R_order r cells)).
Proof.
  intros Hn He Hm H. set (u := fun c => SF2R radix2 (sf_of_bits (v c))).
  assert (U : forall c, In c cells -> rep32 (v c) (u c) /\ Rabs (u c - r c) <= error /\ Rabs (r c) <= most).
  { intros c Hc. destruct (H c Hc) as (w & V & A & B). assert (E : u c = w); [|rewrite E; auto]. destruct V as (b & Eb & F & <-). unfold u. rewrite Eb, sf_bits. apply SF2R_B2SF. }
  exists (fst (scan R_order u cells)). split; [apply scan_value; intros; now apply U|]. split; [apply scan_close; [exact He|intros; now apply U]|]. apply scan_most; auto. intros; now apply U.
Qed.
Lemma lowest_big : IZR (2 ^ 127) <= - R_lowest.
Proof. unfold R_lowest. rewrite <- opp_IZR. apply IZR_le. lia. Qed.

Lemma pool_near rw rh d most error ix1 ix2 iy1 iy2 old1 old2 od1 od2 ps qs : (0 < rw)%nat -> (0 < rh)%nat -> (d_width d mod rw = 0)%nat -> (d_height d mod rh = 0)%nat -> (0 < size d)%nat ->
  let o := pool_dims rw rh d in
  length ix1 = size o -> length iy1 = size o -> length old1 = size o -> length ix2 = size o -> length iy2 = size o -> length old2 = size o -> most <= IZR (2 ^ 127) ->
  stays_close (pool_behaviour f32_num f32_order rw rh d ix1 iy1 old1 od1) (pool_behaviour R_num R_order rw rh d ix2 iy2 old2 od2) ps qs
    [Some (mkQuality d most error)] [Some (mkQuality o most error)].
Proof.
  intros Hw Hh Mw Mh P o I1 J1 O1 I2 J2 O2 Hm.
  assert (Ew : (d_width d = d_width d / rw * rw)%nat) by (rewrite Nat.mul_comm; apply Nat.div_exact; lia).
  assert (Eh : (d_height d = d_height d / rh * rh)%nat) by (rewrite Nat.mul_comm; apply Nat.div_exact; lia).
  assert (P' : (0 < size o)%nat) by (unfold size, o, pool_dims in *; cbn; rewrite Ew, Eh in P; nia).
  apply map_near. intros l1 l2 H. pose proof H as (L1 & L2 & _). cbn in L1, L2. pose proof (near_signs (mkQuality d most error) _ _ P H) as (N1 & N2). cbn in N1, N2. fold o.
  destruct (pool_ff_scan f32_order rw rh (d_width d / rw) (d_height d / rh) (d_maps d) (d_samples d) (tensor_of d l1) (tensor_of o old1) (tensor_of o ix1) (tensor_of o iy1)
    (val f32_zero d l1) Hw Hh) as (mx1 & my1 & t1 & E1 & W1 & S1 & C1); try (apply wf_of; assumption); try (now repeat split); try (now apply contents_val).
  destruct (pool_ff_scan R_order rw rh (d_width d / rw) (d_height d / rh) (d_maps d) (d_samples d) (tensor_of d l2) (tensor_of o old2) (tensor_of o ix2) (tensor_of o iy2)
    (val 0 d l2) Hw Hh) as (mx2 & my2 & t2 & E2 & W2 & S2 & C2); try (apply wf_of; assumption); try (now repeat split); try (now apply contents_val).
  rewrite E1, E2. cbn [bind snd written]. match goal with |- near ?q _ _ => apply (near_out q t1 t2 _ _ P' W1 S1 C1 W2 S2 C2) end. intros x y m s (V1 & V2 & V3 & V4). cbn in V1, V2, V3, V4. cbn beta. cbn [q_most q_error].
  pose proof lowest_big. apply scan_near; [|exact N2|lra|].
  - intros E. assert (I : In ((x * rw)%nat, (y * rh)%nat) (columns (x * rw) (y * rh) rw rh)) by (apply in_columns; cbn; lia). rewrite E in I. destruct I.
  - intros c Hc. apply in_columns in Hc as [B1 B2]. apply (near_val _ _ _ (fst c) (snd c) m s H).
    assert ((x + 1) * rw <= d_width d / rw * rw)%nat by (apply Nat.mul_le_mono_r; lia). assert ((y + 1) * rh <= d_height d / rh * rh)%nat by (apply Nat.mul_le_mono_r; lia). repeat split; cbn [q_dims]; lia.
Qed.

Lemma strided_near rw rh sw sh d o most error mask1 mask2 old1 old2 od1 od2 ps qs : (0 < rw)%nat -> (0 < rh)%nat -> (0 < sw)%nat -> (0 < sh)%nat ->
  o = strided_dims rw rh sw sh d -> (0 < size d)%nat -> (0 < size o)%nat ->
  length mask1 = size o -> length old1 = size o -> length mask2 = size o -> length old2 = size o -> most <= IZR (2 ^ 127) ->
  stays_close (strided_behaviour f32_num f32_order rw rh sw sh d o mask1 old1 od1) (strided_behaviour R_num R_order rw rh sw sh d o mask2 old2 od2) ps qs
    [Some (mkQuality d most error)] [Some (mkQuality o most error)].
Proof.
  intros Hrw Hrh Hw Hh Eo P P' I1 O1 I2 O2 Hm. apply map_near. intros l1 l2 H. pose proof H as (L1 & L2 & _). cbn in L1, L2. pose proof (near_signs (mkQuality d most error) _ _ P H) as (N1 & N2). cbn in N1, N2.
  destruct (apool_ff_scan f32_order rw rh sw sh (d_width d) (d_height d) (d_maps d) (d_samples d) (tensor_of d l1) (tensor_of o old1) (tensor_of o mask1)
    (val f32_zero d l1) Hw Hh) as (mx1 & t1 & E1 & W1 & S1 & C1); try (apply wf_of; assumption); try (now repeat split); try (now rewrite Eo; repeat split); try (now apply contents_val).
  destruct (apool_ff_scan R_order rw rh sw sh (d_width d) (d_height d) (d_maps d) (d_samples d) (tensor_of d l2) (tensor_of o old2) (tensor_of o mask2)
    (val 0 d l2) Hw Hh) as (mx2 & t2 & E2 & W2 & S2 & C2); try (apply wf_of; assumption); try (now repeat split); try (now rewrite Eo; repeat split); try (now apply contents_val).
  rewrite E1, E2. cbn [bind snd written]. match goal with |- near ?q _ _ => apply (near_out q t1 t2 _ _ P' W1 S1 C1 W2 S2 C2) end. rewrite Eo. intros x y m s (V1 & V2 & V3 & V4). cbn in V1, V2, V3, V4. cbn beta. cbn [q_most q_error].
  pose proof lowest_big. apply scan_near; [|exact N2|lra|].
  - intros E. assert (I : In ((x * sw)%nat, (y * sh)%nat) (rows (x * sw) (y * sh) rw rh)) by (apply in_rows; cbn; lia). rewrite E in I. destruct I.
  - intros c Hc. apply in_rows in Hc as [B1 B2]. apply (near_val _ _ _ (fst c) (snd c) m s H).
    apply (positions_fit _ _ _ _ Hw) in V1. apply (positions_fit _ _ _ _ Hh) in V2. repeat split; cbn [q_dims]; lia.
Qed.

Lemma acc_near n samples1 samples2 eps1 eps2 old1 old2 q ps qs :
  stays_close (accumulation_behaviour f32_num n samples1 eps1 old1) (accumulation_behaviour R_num n samples2 eps2 old2) ps qs [Some q] (repeat (Some q) n).
Proof. intros x1 x2 H. apply near_one in H as (l1 & l2 & -> & -> & H). cbn. induction n; cbn; constructor; auto. Qed.

(** ** Convolutions *)
Lemma nsum_diff n f g h : (forall i, (i < n)%nat -> Rabs (f i - g i) <= h i) -> Rabs (nsum R_num n f - nsum R_num n g) <= nsum R_num n h.
Proof.
  induction n as [|n IH]; intros H; cbn [nsum n0 nadd R_num]; [rewrite Rminus_0_r, Rabs_R0; lra|].
  replace (nsum R_num n f + f n - (nsum R_num n g + g n)) with ((nsum R_num n f - nsum R_num n g) + (f n - g n)) by ring.
  pose proof (Rabs_triang (nsum R_num n f - nsum R_num n g) (f n - g n)). pose proof (H n ltac:(lia)). assert (Rabs (nsum R_num n f - nsum R_num n g) <= nsum R_num n h) by (apply IH; intros; apply H; lia). lra.
Qed.
Lemma nsum_scale n f k : nsum R_num n (fun i => k * f i) = k * nsum R_num n f.
Proof. induction n as [|n IH]; cbn [nsum n0 nadd R_num]; [ring|]. rewrite IH. ring. Qed.

Section Window.
Variables (c : conv) (w h m : nat) (wt u r : nat -> nat -> nat -> nat -> R) (e : R).
Hypothesis He : 0 <= e.
Hypothesis Hu : forall x y i s, Rabs (u x y i s - r x y i s) <= e.
Definition kernel (o : nat) : R := nsum R_num (m / cv_group c) (fun i => nsum R_num (cv_kh c) (fun ky => nsum R_num (cv_kw c) (fun kx => Rabs (wt kx ky i o)))).
Lemma padded_diff x y i s : Rabs (padded R_num w h u x y i s - padded R_num w h r x y i s) <= e.
Proof using Hu He. unfold padded. destruct (_ && _)%bool; [apply Hu|]. cbn [n0 R_num]. rewrite Rminus_0_r, Rabs_R0. exact He. Qed.
Lemma window_diff x y o s : Rabs (window R_num c w h m wt u x y o s - window R_num c w h m wt r x y o s) <= e * kernel o.
Proof using Hu He.
  unfold window, kernel. cbv zeta. rewrite <- nsum_scale. apply nsum_diff. intros i _. rewrite <- nsum_scale. apply nsum_diff. intros ky _. rewrite <- nsum_scale. apply nsum_diff. intros kx _. cbn [nmul R_num].
  rewrite <- Rmult_minus_distr_l, Rabs_mult, (Rmult_comm e). apply Rmult_le_compat_l; [apply Rabs_pos|]. apply padded_diff.
Qed.
End Window.
Lemma window_most c w h m wt u e : 0 <= e -> (forall x y i s, Rabs (u x y i s) <= e) -> forall x y o s,
  window R_num c w h m (fun kx ky i o => Rabs (wt kx ky i o)) (fun x y i s => Rabs (u x y i s)) x y o s <= e * kernel c m wt o /\
  Rabs (window R_num c w h m wt u x y o s) <= e * kernel c m wt o.
Proof.
  intros He Hu x y o s. split.
  - unfold window, kernel. cbv zeta. rewrite <- nsum_scale. apply nsum_mono. intros i _. rewrite <- nsum_scale. apply nsum_mono. intros ky _. rewrite <- nsum_scale. apply nsum_mono. intros kx _. cbn [nmul R_num].
    rewrite (Rmult_comm e). apply Rmult_le_compat_l; [apply Rabs_pos|]. unfold padded. destruct (_ && _)%bool; [apply Hu|exact He].
  - assert (Z : window R_num c w h m wt (fun _ _ _ _ => 0) x y o s = 0).
    { unfold window. cbv zeta. assert (N0 : forall n f, (forall i, f i = 0) -> nsum R_num n f = 0) by (induction n as [|n IH]; intros f F; cbn [nsum n0 nadd R_num]; [reflexivity|rewrite IH, F by exact F; ring]).
      apply N0. intros i. apply N0. intros ky. apply N0. intros kx. cbn [nmul R_num]. unfold padded. destruct (_ && _)%bool; cbn [n0 R_num]; ring. }
    pose proof (window_diff c w h m wt u (fun _ _ _ _ => 0) e He) as G. rewrite <- (Rminus_0_r (window R_num c w h m wt u x y o s)), <- Z. apply G. intros. rewrite Rminus_0_r. apply Hu.
Qed.

Lemma value_fn a r : rep32 a r -> r = SF2R radix2 (sf_of_bits a).
Proof. intros (b & -> & _ & <-). rewrite sf_bits. symmetry. apply SF2R_B2SF. Qed.

Lemma conv_near (c : conv) (testing : bool) dropout p d st1 st2 wt1 wt2 bb1 bb2 old1 old2 ps qs weight bias most error l1 l2 :
  value dropout p -> 0 <= p <= 1 -> (testing = true \/ (dropout = f32_zero /\ p = 0)) -> (0 < size d)%nat ->
  conv_ready f32_num c st1 (d_width d) (d_height d) (d_maps d) (d_samples d) wt1 bb1 -> conv_ready R_num c st2 (d_width d) (d_height d) (d_maps d) (d_samples d) wt2 bb2 ->
  (0 < size (weights_dims c d))%nat -> (0 < cv_omaps c)%nat -> parameters_within c d weight bias ps qs ->
  (Z.of_nat (cv_kw c * cv_kh c * (d_maps d / cv_group c)) <= 2 ^ 20)%Z -> bias + weight * (most + error) <= IZR (2 ^ 124) ->
  let o := mkDims (d_samples d) (cs_ow st1) (cs_oh st1) (cv_omaps c) in
  (0 < size o)%nat -> length old1 = size o -> length old2 = size o -> near (mkQuality d most error) l1 l2 ->
  near (convolved c d o weight bias most error)
    (written (r <- conv_ff f32_num c testing dropout (with_params c d st1 ps) (tensor_of d l1) (tensor_of o old1) ;; Ok (snd r)))
    (written (r <- conv_ff R_num c testing p (with_params c d st2 qs) (tensor_of d l2) (tensor_of (mkDims (d_samples d) (cs_ow st2) (cs_oh st2) (cv_omaps c)) old2) ;; Ok (snd r))).
Proof.
  intros Vd Hp Hd P R1 R2 Pw Po (Lw & Lb & (Lw2 & Vw) & (Lb2 & Vb) & Hpar) Hn Hsize o P' O1 O2 H. pose proof H as (L1 & L2 & _). cbn in L1, L2.
  pose proof (near_signs (mkQuality d most error) _ _ P H) as (N1 & N2). cbn in N1, N2.
  assert (Ew : cs_ow st2 = cs_ow st1) by (rewrite (cr_ow _ _ _ _ _ _ _ _ _ R1), (cr_ow _ _ _ _ _ _ _ _ _ R2); reflexivity).
  assert (Eh : cs_oh st2 = cs_oh st1) by (rewrite (cr_oh _ _ _ _ _ _ _ _ _ R1), (cr_oh _ _ _ _ _ _ _ _ _ R2); reflexivity).
  assert (Pb : (0 < size (bias_dims c))%nat) by (unfold size, bias_dims; cbn; lia).
  set (W := val f32_zero (weights_dims c d) (nth 0 ps [])). set (B := fun q => val f32_zero (bias_dims c) (nth 1 ps []) q 0%nat 0%nat 0%nat).
  set (W2 := val 0 (weights_dims c d) (nth 0 qs [])). set (B2 := fun q => val 0 (bias_dims c) (nth 1 qs []) q 0%nat 0%nat 0%nat).
  assert (Rd1 : conv_ready f32_num c (with_params c d st1 ps) (d_width d) (d_height d) (d_maps d) (d_samples d) W B).
  { apply (conv_ready_set_params f32_num c st1 _ _ _ _ wt1 bb1 (tensor_of (weights_dims c d) (nth 0 ps [])) (tensor_of (bias_dims c) (nth 1 ps [])) W B R1);
      try (apply wf_of; assumption); try apply tensor_shape; [now apply contents_val|].
    intros x y m s V. rewrite (contents_val f32_zero (bias_dims c) (nth 1 ps []) Lb x y m s V). destruct V as (_ & V2 & V3 & V4). cbn in V2, V3, V4.
    assert (y = 0 /\ m = 0 /\ s = 0)%nat as (-> & -> & ->) by lia. reflexivity. }
  assert (Rd2 : conv_ready R_num c (with_params c d st2 qs) (d_width d) (d_height d) (d_maps d) (d_samples d) W2 B2).
  { apply (conv_ready_set_params R_num c st2 _ _ _ _ wt2 bb2 (tensor_of (weights_dims c d) (nth 0 qs [])) (tensor_of (bias_dims c) (nth 1 qs [])) W2 B2 R2);
      try (apply wf_of; congruence); try apply tensor_shape; [apply contents_val; congruence|].
    intros x y m s V. rewrite (contents_val 0 (bias_dims c) (nth 1 qs []) ltac:(congruence) x y m s V). destruct V as (_ & V2 & V3 & V4). cbn in V2, V3, V4.
    assert (y = 0 /\ m = 0 /\ s = 0)%nat as (-> & -> & ->) by lia. reflexivity. }
  rewrite Ew, Eh. fold o.
  set (f := val f32_zero d l1). set (g := val 0 d l2). set (u := fun x y i s => SF2R radix2 (sf_of_bits (f x y i s))).
  assert (Hf : forall x y i s, value (f x y i s) (u x y i s) /\ Rabs (u x y i s - g x y i s) <= error /\ Rabs (g x y i s) <= most).
  { intros x y i s. assert (Cl : close most error (f x y i s) (g x y i s)).
    { unfold f, g. destruct ((x <? d_width d) && (y <? d_height d) && (i <? d_maps d) && (s <? d_samples d))%bool eqn:E.
      - rewrite !andb_true_iff, !Nat.ltb_lt in E. apply (near_val _ _ _ x y i s H). cbn [q_dims]. unfold in_range. tauto.
      - unfold val. rewrite E. now apply close_zero. }
    destruct Cl as (v & V & A & A2). unfold u. rewrite <- (value_fn _ _ V). auto. }
  assert (Vw' : forall kx ky i q, (kx < cv_kw c)%nat -> (ky < cv_kh c)%nat -> (i < d_maps d / cv_group c)%nat -> (q < cv_omaps c)%nat -> value (W kx ky i q) (W2 kx ky i q)).
  { intros kx ky i q A1 A2 A3 A4. assert (V : in_range (weights_dims c d) kx ky i q) by (repeat split; assumption). unfold W, W2. rewrite !val_in by exact V. apply Vw. rewrite Lw. now apply place_lt. }
  assert (Vb' : forall q, (q < cv_omaps c)%nat -> value (B q) (B2 q) /\ B2 q = nth q (nth 1 qs []) 0).
  { intros q Hq. assert (V : in_range (bias_dims c) q 0 0 0) by (repeat split; cbn; lia). unfold B, B2. rewrite !val_in by exact V. unfold place. cbn [bias_dims d_maps d_height d_width Nat.mul Nat.add]. split; [|reflexivity]. apply Vb. rewrite Lb. unfold size. cbn. lia. }
  assert (K : forall q, (q < cv_omaps c)%nat -> kernel c (d_maps d) W2 q <= weight /\ Rabs (B2 q) <= bias).
  { intros q Hq. destruct (Hpar q Hq) as (A1 & A2). destruct (Vb' q Hq) as (_ & ->). split; [|exact A2]. eapply Rle_trans; [|exact A1]. unfold kernel, absolute_weights.
    apply nsum_mono. intros i Hi. apply nsum_mono. intros ky Hky. apply nsum_mono. intros kx Hkx. unfold W2. rewrite val_in by (repeat split; assumption). apply Rle_refl. }
  pose proof (Rabs_pos (B2 0%nat)) as Bp.
  assert (M : forall x y i s, Rabs (u x y i s) <= most + error) by (intros x y i s; destruct (Hf x y i s) as (_ & A & A2); pose proof (abs_diff (u x y i s) (g x y i s)); lra).
  assert (K0 : forall q, 0 <= kernel c (d_maps d) W2 q) by (intros q; unfold kernel; do 3 (apply nsum_nonneg; intros); apply Rabs_pos).
  assert (Hsz : forall x y q s, valid_pos (tensor_of o old1) x y q s ->
    Rabs (B2 q) + window R_num c (d_width d) (d_height d) (d_maps d) (fun kx ky i o => Rabs (W2 kx ky i o)) (fun x y i s => Rabs (u x y i s)) x y q s <= bias + weight * (most + error)).
  { intros x y q s V. assert (Hq : (q < cv_omaps c)%nat) by apply V. destruct (K q Hq) as (A1 & A2). pose proof (proj1 (window_most c (d_width d) (d_height d) (d_maps d) W2 u (most + error) ltac:(lra) M x y q s)) as A3.
    assert ((most + error) * kernel c (d_maps d) W2 q <= (most + error) * weight) by (apply Rmult_le_compat_l; lra). lra. }
  destruct (C85_convolution c _ (d_width d) (d_height d) (d_maps d) (d_samples d) W B testing dropout (tensor_of d l1) (tensor_of o old1) f p W2 u B2 Rd1) as (st1' & t1 & out1 & E1 & S1 & C1 & A1);
    try (apply wf_of; assumption); try (now repeat split); try (now apply contents_val); try exact Vd; try exact Hp; try exact Vw'; try exact Hn.
  { destruct Hd as [?|[? _]]; auto. }
  { intros. apply Hf. }
  { intros q Hq. now apply Vb'. }
  { intros x y q s V. eapply Rle_trans; [apply Hsz; exact V|exact Hsize]. }
  destruct (conv_ff_spec f32_num c _ (d_width d) (d_height d) (d_maps d) (d_samples d) W B testing dropout (tensor_of d l1) (tensor_of o old1) f eq_refl eq_refl Rd1) as (st1'' & t1' & E1' & W1 & _);
    try (apply wf_of; assumption); try (now repeat split); try (now apply contents_val).
  { destruct testing; [reflexivity|]. destruct Hd as [?|[-> _]]; [discriminate|reflexivity]. }
  assert (t1' = t1) by congruence. subst t1'. clear E1'.
  destruct (C35_forward R_num R_ring_laws c _ (d_width d) (d_height d) (d_maps d) (d_samples d) W2 B2 testing p (tensor_of d l2) (tensor_of o old2) g Rd2) as (st2' & t2 & E2 & W2' & S2 & C2 & _);
    try (apply wf_of; assumption); try (now repeat split); try (now apply contents_val); try (repeat split; cbn; congruence).
  { destruct Hd as [?|[_ ?]]; auto. }
  rewrite E1, E2. cbn [bind snd written]. match goal with |- near ?q _ _ => apply (near_out q t1 t2 _ _ P' W1 S1 C1 W2' S2 C2) end.
  intros x y q s V. cbn beta. cbn [convolved q_dims] in V. destruct (A1 x y q s V) as (v & Vv & Ev). exists v. split; [exact Vv|].
  assert (Hq : (q < cv_omaps c)%nat) by apply V. destruct (K q Hq) as (K1 & K2). pose proof (K0 q) as K3.
  set (factor := if testing then 1 - p else 1) in *.
  assert (F : 0 <= factor <= 1) by (unfold factor; destruct testing; lra).
  replace (if testing then nsub R_num (n1 R_num) p else n1 R_num) with factor by (unfold factor; destruct testing; reflexivity).
  cbn [nmul nadd R_num] in *. cbn [convolved q_error q_most].
  set (wu := window R_num c (d_width d) (d_height d) (d_maps d) W2 u x y q s) in *. set (wg := window R_num c (d_width d) (d_height d) (d_maps d) W2 g x y q s) in *.
  assert (Dw : Rabs (wu - wg) <= weight * error).
  { eapply Rle_trans; [apply (window_diff c _ _ _ W2 u g error N2); intros; apply Hf|]. rewrite Rmult_comm. apply Rmult_le_compat_r; [exact N2|exact K1]. }
  assert (Mg : Rabs wg <= weight * most).
  { eapply Rle_trans; [apply (window_most c _ _ _ W2 g most N1); intros; apply Hf|]. rewrite Rmult_comm. apply Rmult_le_compat_r; [exact N1|exact K1]. }
  split.
  - replace (v - factor * (B2 q + wg)) with ((v - factor * (B2 q + wu)) + factor * (wu - wg)) by ring. pose proof (Rabs_triang (v - factor * (B2 q + wu)) (factor * (wu - wg))) as T.
    assert (Rabs (factor * (wu - wg)) <= weight * error).
    { rewrite Rabs_mult, (Rabs_right factor) by lra. apply Rle_trans with (1 * Rabs (wu - wg)); [apply Rmult_le_compat_r; [apply Rabs_pos|lra]|lra]. }
    pose proof (Hsz x y q s V) as Z. pose proof (pos_INR (cv_kw c * cv_kh c * (d_maps d / cv_group c) + 4)) as I0.
    assert (I1 : 0 <= INR (cv_kw c * cv_kh c * (d_maps d / cv_group c) + 4) / IZR (2 ^ 23)) by (apply Rmult_le_pos; [exact I0|]; left; apply Rinv_0_lt_compat, IZR_lt; lia).
    pose proof (Rmult_le_compat_l _ _ _ I1 Z). lra.
  - rewrite Rabs_mult, (Rabs_right factor) by lra. apply Rle_trans with (1 * Rabs (B2 q + wg)); [apply Rmult_le_compat_r; [apply Rabs_pos|lra]|]. pose proof (Rabs_triang (B2 q) wg). lra.
Qed.

(** ** Networks *)
Lemma network_near g (layer1 : nat -> behaviour f32) (layer2 : nat -> behaviour R) params1 params2 takes makes l l' m1 m2 :
  ordered (heap g) l -> ordered (heap g) l' -> (forall n, In n l -> In n (nodes g) /\ In n l') -> qualified g takes makes ->
  (forall n, In n (nodes g) -> stays_close (layer1 n) (layer2 n) (params1 n) (params2 n) (takes n) (makes n)) ->
  let r1 := fold_left (forward_node layer1 params1 (heap g)) l m1 in
  let r2 := fold_left (forward_node layer2 params2 (heap g)) l' m2 in
  forall n b q, In n l -> nth_error (makes n) b = Some (Some q) -> near q (m_data r1 n b) (m_data r2 n b).
Proof.
  intros Ho Ho' Hl Hc Hs r1 r2 n b q Hn E. revert b q E.
  assert (Step : forall n, In n l -> (forall q, before q n l -> forall b d, nth_error (makes q) b = Some (Some d) -> near d (m_data r1 q b) (m_data r2 q b)) ->
    forall b d, nth_error (makes n) b = Some (Some d) -> near d (m_data r1 n b) (m_data r2 n b)).
  { clear n Hn. intros n Hn IH b d E.
    assert (Hi : all_near (takes n) (input_data (heap g) r1 n) (input_data (heap g) r2 n)).
    { unfold input_data. specialize (Hc n (proj1 (Hl n Hn))). assert (Hb : forall c q, In c (inputs_of (heap g) n) -> c_node c = Some q -> before q n l) by (intros c q; apply Ho; exact Hn).
      revert Hb. induction Hc as [|c dd cs ds (q & Eq & Em) _ IHc]; intros Hb; cbn [map]; constructor.
      - rewrite Eq. destruct dd as [dd|]; [|exact I]. apply IH; [|exact Em]. apply (Hb c q); [now left|exact Eq].
      - apply IHc. intros c' q' H. apply Hb. now right. }
    destruct (near_nth _ _ _ b d (Hs n (proj1 (Hl n Hn)) _ _ Hi) E) as (A & B1 & B2).
    pose proof (forward_equations layer1 (heap g) params1 l m1 n Ho Hn b) as F1. pose proof (forward_equations layer2 (heap g) params2 l' m2 n Ho' (proj2 (Hl n Hn)) b) as F2. cbv zeta in F1, F2.
    fold r1 in F1. fold r2 in F2. rewrite F1, F2, (proj2 (Nat.ltb_lt _ _) B1), (proj2 (Nat.ltb_lt _ _) B2). exact A. }
  assert (All : forall pre post, l = pre ++ post -> forall n, In n pre -> forall b d, nth_error (makes n) b = Some (Some d) -> near d (m_data r1 n b) (m_data r2 n b)).
  { induction pre as [|k pre IH] using rev_ind; intros post El k' Hk; [destruct Hk|]. rewrite <- app_assoc in El. cbn in El.
    apply in_app_or in Hk as [Hk|[<-|[]]]; [now apply (IH (k :: post))|]. apply Step; [rewrite El; apply in_or_app; right; now left|].
    intros q' Bq. apply (IH (k :: post) El). destruct Ho as [Nd _]. apply (before_nodup q' k l pre post Nd Bq El). }
  exact (All l [] (eq_sym (app_nil_r l)) n Hn).
Qed.

(** Proofs about the convolution layer. *)
From Coq Require Import Ring_theory Ring.
From Verif Require Import Base BaseFacts LoopFacts Tensor_Model Tensor_Spec Tensor_Proofs Num Math_Model Math_Spec Math_Proofs
  Conv_Proofs Conv2_Proofs ConvLayer_Model ConvLayer_Spec DatasetInput_Proofs.

(** * Sizes *)

Lemma quot_neg_small a b : (a < 0)%Z -> (0 < b)%Z -> (Z.quot a b <= 0)%Z.
Proof. intros Ha Hb. rewrite <- (Z.opp_involutive a), Z.quot_opp_l by lia. pose proof (Z.quot_pos (- a) b ltac:(lia) Hb). lia. Qed.

Lemma connect_dim_fits pad size kernel stride : kernel <= size + 2 * pad -> 0 < stride ->
  (Z.of_nat (size + 2 * pad) < 2 ^ 64)%Z ->
  connect_dim pad size kernel stride = Z.of_nat (positions (size + 2 * pad) kernel stride).
Proof.
  intros Hk Hs Hb. unfold connect_dim. rewrite <- out_dim_positions by auto. unfold out_dim.
  rewrite Z.mod_small by lia. now rewrite Z.quot_div_nonneg by lia.
Qed.

Lemma connect_dim_small pad size kernel stride : size + 2 * pad < kernel -> 0 < stride ->
  (Z.of_nat kernel < 2 ^ 32)%Z -> (Z.of_nat stride < 2 ^ 32)%Z ->
  (1 < connect_dim pad size kernel stride)%Z.
Proof.
  intros Hk Hs Hb Hb2. unfold connect_dim.
  assert (E : ((2 * Z.of_nat pad + Z.of_nat size - Z.of_nat kernel) mod 2 ^ 64 = 2 ^ 64 - (Z.of_nat kernel - 2 * Z.of_nat pad - Z.of_nat size))%Z).
  { symmetry. apply Z.mod_unique with (q := (-1)%Z); lia. }
  rewrite E. set (d := (2 ^ 64 - _)%Z). assert (Hd : (2 ^ 63 <= d)%Z) by (unfold d; lia). clearbody d.
  pose proof (Z.div_le_mono (2 ^ 63) d (Z.of_nat stride) ltac:(lia) Hd).
  assert (1 <= 2 ^ 63 / Z.of_nat stride)%Z; [|lia]. apply Z.div_le_lower_bound; lia.
Qed.

Lemma conv_insert_spec c w h m :
  0 < cv_sw c -> 0 < cv_sh c -> 0 < cv_group c ->
  (Z.of_nat (cv_kw c) < 2 ^ 32)%Z -> (Z.of_nat (cv_kh c) < 2 ^ 32)%Z ->
  (Z.of_nat (cv_sw c) < 2 ^ 32)%Z -> (Z.of_nat (cv_sh c) < 2 ^ 32)%Z ->
  (Z.of_nat (w + 2 * cv_pw c) < 2 ^ 64)%Z -> (Z.of_nat (h + 2 * cv_ph c) < 2 ^ 64)%Z ->
  forall r, conv_insert c w h m = Ok (Some r) <->
     cv_kw c <= w + 2 * cv_pw c /\ cv_kh c <= h + 2 * cv_ph c /\ m mod cv_group c = 0 /\
     r = (Z.of_nat (positions (w + 2 * cv_pw c) (cv_kw c) (cv_sw c)), Z.of_nat (positions (h + 2 * cv_ph c) (cv_kh c) (cv_sh c))).
Proof.
  intros Hsw Hsh Hg B1 B2 B3 B4 B5 B6 r. unfold conv_insert, conv_create_outputs.
  assert (E0 : (cv_sw c =? 0) || (cv_sh c =? 0) = false)
    by (destruct (Nat.eqb_spec (cv_sw c) 0), (Nat.eqb_spec (cv_sh c) 0); lia || reflexivity).
  rewrite E0. cbv zeta. set (ow := out_dim _ _ _ _). set (oh := out_dim (cv_ph c) _ _ _).
  assert (Hdim : forall pad size kernel stride, 0 < stride -> size + 2 * pad < kernel -> (out_dim pad size kernel stride <= 1)%Z).
  { intros pad size kernel stride Hst Hlt. unfold out_dim.
    pose proof (quot_neg_small (2 * Z.of_nat pad + Z.of_nat size - Z.of_nat kernel) (Z.of_nat stride) ltac:(lia) ltac:(lia)). lia. }
  split.
  - destruct ((ow <=? 0) || (oh <=? 0))%Z eqn:E1; [discriminate|]. rewrite orb_false_iff, !Z.leb_gt in E1.
    destruct (Nat.eqb_spec (cv_group c) 0); [lia|].
    destruct (Nat.eqb_spec (m mod cv_group c) 0) as [Em|]; [|discriminate]. cbn [negb bind].
    destruct (conv_connect c w h ow oh) eqn:Ec; [|discriminate]. intros [= <-].
    unfold conv_connect in Ec. rewrite andb_true_iff, !Z.eqb_eq in Ec. destruct Ec as [C1 C2].
    assert (F1 : cv_kw c <= w + 2 * cv_pw c).
    { destruct (Nat.le_gt_cases (cv_kw c) (w + 2 * cv_pw c)) as [|Hlt]; [assumption|exfalso].
      pose proof (Hdim _ _ _ _ Hsw Hlt). pose proof (connect_dim_small _ _ _ _ Hlt Hsw B1 B3). fold ow in H. lia. }
    assert (F2 : cv_kh c <= h + 2 * cv_ph c).
    { destruct (Nat.le_gt_cases (cv_kh c) (h + 2 * cv_ph c)) as [|Hlt]; [assumption|exfalso].
      pose proof (Hdim _ _ _ _ Hsh Hlt). pose proof (connect_dim_small _ _ _ _ Hlt Hsh B2 B4). fold oh in H. lia. }
    split; [exact F1|]. split; [exact F2|]. split; [exact Em|].
    unfold ow, oh. now rewrite !out_dim_positions by auto.
  - intros (F1 & F2 & Em & ->). unfold ow, oh. rewrite !out_dim_positions by auto.
    set (pw := positions _ (cv_kw c) _). set (ph := positions _ (cv_kh c) _).
    assert (0 < pw) by (apply (positions_fit _ _ _ 0 Hsw); lia). assert (0 < ph) by (apply (positions_fit _ _ _ 0 Hsh); lia).
    replace ((Z.of_nat pw <=? 0) || (Z.of_nat ph <=? 0))%Z with false
      by (symmetry; rewrite orb_false_iff, !Z.leb_gt; lia).
    destruct (Nat.eqb_spec (cv_group c) 0); [lia|]. rewrite Em. cbn [Nat.eqb negb bind].
    unfold conv_connect. rewrite !connect_dim_fits by auto. fold pw. fold ph. now rewrite !Z.eqb_refl.
Qed.

(** * Flat positions *)

Section Flat.
Context {D : Type}.
Variable K : num D.

Lemma contents_raw (t : tensor D) f s j : contents t f -> s < samples t -> j < maps t * width t * height t ->
  raw t (s * (maps t * width t * height t) + j) =
  Some (f (j mod width t) ((j / width t) mod height t) (j / (width t * height t)) s).
Proof.
  intros Hf Hs Hj. destruct (decode_map (width t) (height t) (maps t) j ltac:(lia)) as (Hx & Hy & Hm & Ej).
  rewrite <- (Hf _ _ _ _ (conj Hx (conj Hy (conj Hm Hs)))), at_pos_raw by (unfold valid_pos; auto).
  f_equal. unfold offset. rewrite Ej at 1. ring.
Qed.

Lemma raw_contents (t : tensor D) F :
  (forall s j, s < samples t -> j < maps t * width t * height t -> raw t (s * (maps t * width t * height t) + j) = Some (F s j)) ->
  contents t (fun x y m s => F s ((m * height t + y) * width t + x)).
Proof.
  intros H x y m s Hv. rewrite at_pos_raw by exact Hv. destruct Hv as (Hx & Hy & Hm & Hs).
  rewrite <- H; [|exact Hs|pose proof (encode_lt (width t) (height t) (maps t) m y x Hx Hy Hm); lia].
  f_equal. unfold offset. ring.
Qed.

(** One block of rows of a grouped product. *)
Lemma gemm_block tA tB R N k alpha A smA ldA B smB ldB C g (V a b : nat -> nat -> D) :
  wf C -> maps C * width C * height C = N -> (g + 1) * R <= samples C -> nzerob K (n0 K) = true ->
  stored tA A smA ldA R k a -> stored tB B smB ldB k N b ->
  (forall i j, i < R -> j < N -> V (g * R + i) j = nmul K alpha (nsum K k (fun l => nmul K (a i l) (b l j)))) ->
  (forall r j, r < g * R -> j < N -> raw C (r * N + j) = Some (V r j)) ->
  exists C', gemm K true tA tB R N k alpha A smA ldA B smB ldB (n0 K) C (g * R) N = Ok C' /\ wf C' /\ same_shape C' C /\
    forall r j, r < (g + 1) * R -> j < N -> raw C' (r * N + j) = Some (V r j).
Proof.
  intros Hwf HN Hle Hz HA HB HV Hpre.
  assert (Hel : forall r j, r < samples C -> j < N -> r * N + j < elements C).
  { intros r j Hr Hj. rewrite (elements_dims C Hwf), HN. now apply mix_lt. }
  set (c := fun i j => match raw C ((g * R) * N + (i * N + j)) with Some v => v | None => n0 K end).
  assert (HC : stored false C (g * R) N R N c).
  { intros i j Hi Hj. unfold c. rewrite HN. destruct (raw_lt C ((g * R) * N + (i * N + j)) Hwf) as [v ->]; [|reflexivity].
    replace ((g * R) * N + (i * N + j)) with ((g * R + i) * N + j) by ring. apply Hel; lia. }
  destruct (gemm_spec K tA tB R N k alpha (n0 K) A smA ldA B smB ldB C (g * R) N a b c Hwf (le_n N) HA HB HC)
    as (C' & E & Hwf' & Hs & Hst & Hfr).
  exists C'. split; [exact E|]. split; [exact Hwf'|]. split; [exact Hs|].
  intros r j Hr Hj. destruct (Nat.lt_ge_cases r (g * R)) as [Hlt|Hge].
  - rewrite Hfr; [now apply Hpre|]. intros i j' Hi Hj' Eq. rewrite HN in Eq.
    replace ((g * R) * N + (i * N + j')) with ((g * R + i) * N + j') in Eq by ring.
    apply mix_inj in Eq; lia.
  - assert (Hi : r - g * R < R) by lia. pose proof (Hst (r - g * R) j Hi Hj) as H. cbn [Nat.add] in H.
    destruct Hs as (S1 & S2 & S3 & S4). rewrite S2, S3, S4, HN in H.
    replace ((g * R) * N + ((r - g * R) * N + j)) with (r * N + j) in H by (replace r with (g * R + (r - g * R)) at 1 by lia; ring).
    rewrite H. f_equal. unfold scale_add. rewrite Hz. rewrite <- HV by auto. f_equal. lia.
Qed.
End Flat.

Lemma div_exact_mul a b c : b <> 0 -> c mod b = 0 -> (a * c) / b = a * (c / b).
Proof.
  intros Hb Hc. apply Nat.mod_divide in Hc as [q ->]; [|exact Hb].
  rewrite Nat.mul_assoc, !Nat.div_mul by exact Hb. reflexivity.
Qed.

(** * The connected layer *)

Section LayerProofs.
Context {D : Type}.
Variable K : num D.

(** Sum over the kernel window, indexed by the position in the flattened kernel. *)
Definition flat_window (c : conv) (w h m S : nat) (wt img : nat -> nat -> nat -> nat -> D) (x y o s : nat) : D :=
  let g := conv_geo c w h m S in
  let mg := m / cv_group c in
  nsum K (cv_kw c * cv_kh c * mg) (fun k =>
    nmul K (wt (k mod cv_kw c) ((k / cv_kw c) mod cv_kh c) (k / (cv_kw c * cv_kh c)) o)
           (col_value K g img x y s (o / (cv_omaps c / cv_group c) * (cv_kw c * cv_kh c * mg) + k))).

Lemma group_sizes c m : 0 < cv_group c -> m mod cv_group c = 0 ->
  cv_kw c * cv_kh c * m / cv_group c = cv_kw c * cv_kh c * (m / cv_group c) /\
  (forall g, cv_kw c * cv_kh c * m * g / cv_group c = g * (cv_kw c * cv_kh c * (m / cv_group c))) /\
  cv_group c * (cv_kw c * cv_kh c * (m / cv_group c)) = cv_kw c * cv_kh c * m.
Proof.
  intros Hg Hm. split; [apply div_exact_mul; lia|]. split.
  - intros g. replace (cv_kw c * cv_kh c * m * g) with (g * (cv_kw c * cv_kh c) * m) by ring.
    rewrite div_exact_mul by lia. ring.
  - assert (cv_group c * (m / cv_group c) = m) by (apply Nat.mod_divide in Hm as [q ->]; [rewrite Nat.div_mul by lia; ring|lia]). nia.
Qed.

Lemma conv_ff_spec c st w h m S wt b (testing : bool) dropout input output img :
  nzerob K (n0 K) = true -> nzerob K (n1 K) = false ->
  conv_ready K c st w h m S wt b ->
  wf input -> has_shape input S w h m -> contents input img ->
  wf output -> has_shape output S (cs_ow st) (cs_oh st) (cv_omaps c) ->
  nzerob K (if testing then n0 K else dropout) = true ->
  let wd := if testing then nsub K (n1 K) dropout else n1 K in
  exists st' output', conv_ff K c testing dropout st input output = Ok (st', output') /\
    wf output' /\ same_shape output' output /\
    contents output' (fun x y o s =>
      nadd K (nmul K (n1 K) (nmul K wd (flat_window c w h m S wt img x y o s)))
             (nmul K wd (nadd K (n0 K) (nmul K (b o) (n1 K))))) /\
    conv_ready K c st' w h m S wt b /\ cs_weights_delta st' = cs_weights_delta st /\ cs_bias_delta st' = cs_bias_delta st /\
    contents (cs_im2col st') (col_value K (conv_geo c w h m S) img).
Proof.
  intros Hz0 Hz1 HR Hwi Hsi Himg Hwo Hso Hp wd. pose proof HR as HR'.
  destruct HR as [Rgeo Rfit Row Roh Rg Rm Ro [Wc Sc] [Ws Ss] [Ws2 Ss2] Rdx (W1 & S1 & C1) (Ww & Sw & Cw) Rwd (Wb & Sb & Cb) Rbd].
  set (geo := conv_geo c w h m S) in *. unfold conv_ff. fold wd.
  assert (ESm : samples input = S) by apply Hsi. rewrite ESm.
  destruct (group_sizes c m Rg Rm) as (G1 & G2 & G3).
  set (mg := m / cv_group c) in *. set (kg := cv_kw c * cv_kh c * mg) in *. set (og := cv_omaps c / cv_group c) in *.
  assert (Eog : cv_group c * og = cv_omaps c).
  { unfold og. apply Nat.mod_divide in Ro as [q ->]; [rewrite Nat.div_mul by lia; ring|lia]. }
  set (N := cs_ow st * cs_oh st * S) in *.
  rewrite Rgeo. destruct (im2col_spec K geo input (cs_im2col st) img Rfit Hwi Wc) as (col & Ecol & Wcol & Scol & Ccol).
  { exact Hsi. } { exact Himg. } { unfold col_maps, geo, conv_geo. cbn. rewrite Row, Roh in Sc. exact Sc. }
  rewrite Ecol. cbn [bind].
  assert (Scol' : has_shape col (cv_kw c * cv_kh c * m) (cs_ow st) (cs_oh st) S).
  { destruct Scol as (A1 & A2 & A3 & A4), Sc as (B1 & B2 & B3 & B4). repeat split; congruence. }
  assert (Ncol : maps col * width col * height col = N).
  { destruct Scol' as (_ & -> & -> & ->). unfold N. ring. }
  assert (Rawcol : forall tm j, tm < cv_kw c * cv_kh c * m -> j < N ->
    raw col (tm * N + j) = Some (col_value K geo img (j mod cs_ow st) ((j / cs_ow st) mod cs_oh st) (j / (cs_ow st * cs_oh st)) tm)).
  { intros tm j Ht Hj. rewrite <- Ncol. rewrite (contents_raw col _ tm j Ccol); [|destruct Scol' as (-> & _); exact Ht|rewrite Ncol; exact Hj].
    destruct Scol' as (_ & -> & -> & _). reflexivity. }
  set (V := fun o j => nmul K wd (nsum K kg (fun k =>
    nmul K (wt (k mod cv_kw c) ((k / cv_kw c) mod cv_kh c) (k / (cv_kw c * cv_kh c)) o)
           (col_value K geo img (j mod cs_ow st) ((j / cs_ow st) mod cs_oh st) (j / (cs_ow st * cs_oh st)) (o / og * kg + k))))).
  assert (Nsms : maps (cs_sms st) * width (cs_sms st) * height (cs_sms st) = N).
  { destruct Ss as (_ & -> & -> & ->). unfold N. ring. }
  destruct (foldm_seq_inv (fun smsb g => conv_group_ff K c st S wd col smsb g)
    (fun g sm => wf sm /\ same_shape sm (cs_sms st) /\ forall r j, r < g * og -> j < N -> raw sm (r * N + j) = Some (V r j))
    (cv_group c) 0 (cs_sms st)) as (sms1 & Efold & Wsm1 & Ssm1 & Hsm1).
  { split; [exact Ws|]. split; [apply same_shape_refl|]. intros r j Hr. lia. }
  { intros g sm Hgl (Wsm & Ssm & Hsm).
    unfold conv_group_ff. rewrite Rgeo. cbn [g_maps geo conv_geo]. fold N. fold og.
    rewrite G1, G2. rewrite (div_exact_mul g) by (auto; lia). fold og.
    destruct (gemm_block K false false og N kg wd (cs_weights st) (g * og) kg col (g * kg) N sm g V
      (fun i k => wt (k mod cv_kw c) ((k / cv_kw c) mod cv_kh c) (k / (cv_kw c * cv_kh c)) (g * og + i))
      (fun k j => col_value K geo img (j mod cs_ow st) ((j / cs_ow st) mod cs_oh st) (j / (cs_ow st * cs_oh st)) (g * kg + k)))
      as (sm' & Eg & Wsm' & Ssm' & Hsm').
    - exact Wsm.
    - destruct Ssm as (_ & -> & -> & ->). exact Nsms.
    - destruct Ssm as (-> & _), Ss as (-> & _). rewrite <- Eog. nia.
    - exact Hz0.
    - intros i k Hi Hk. assert (Ew : maps (cs_weights st) * width (cs_weights st) * height (cs_weights st) = kg).
      { destruct Sw as (_ & -> & -> & ->). unfold kg. ring. }
      rewrite Ew. replace (g * og * kg + (i * kg + k)) with ((g * og + i) * kg + k) by ring.
      rewrite <- Ew at 1. rewrite (contents_raw _ _ (g * og + i) k Cw); [|destruct Sw as (-> & _); rewrite <- Eog; nia|lia].
      destruct Sw as (_ & -> & -> & _). reflexivity.
    - intros k j Hk Hj. rewrite Ncol. replace (g * kg * N + (k * N + j)) with ((g * kg + k) * N + j) by ring.
      apply Rawcol; [rewrite <- G3; nia|exact Hj].
    - intros i j Hi Hj. unfold V. assert (Eq : (g * og + i) / og = g) by (rewrite Nat.div_add_l, Nat.div_small by lia; lia).
      rewrite Eq. reflexivity.
    - exact Hsm.
    - exists sm'. split; [exact Eg|]. split; [exact Wsm'|]. split; [eapply same_shape_trans; eauto|].
      replace (Datatypes.S g) with (g + 1) by lia. exact Hsm'. }
  change (0 + cv_group c) with (cv_group c) in Hsm1. rewrite Efold. cbn [bind]. rewrite Eog in Hsm1.
  assert (Nsm1 : maps sms1 * width sms1 * height sms1 = N).
  { destruct Ssm1 as (_ & -> & -> & ->). exact Nsms. }
  destruct (gemm_spec K false false (cv_omaps c) N 1 wd (n1 K) (cs_bias st) 0 1 (cs_ones st) 0 N sms1 0 N
    (fun i _ => b i) (fun _ _ => n1 K) V Wsm1 (le_n N)) as (sms2 & Eg2 & Wsm2 & Ssm2 & Hsm2 & _).
  { intros i k Hi Hk. assert (k = 0) as -> by lia. cbn [Nat.mul Nat.add].
    replace (i * 1 + 0) with (0 * (maps (cs_bias st) * width (cs_bias st) * height (cs_bias st)) + i) by lia.
    destruct Sb as (Sb1 & Sb2 & Sb3 & Sb4). rewrite (contents_raw _ _ 0 i Cb); [|lia|rewrite Sb2, Sb3, Sb4; lia].
    rewrite Sb2. now rewrite Nat.mod_small. }
  { intros k j Hk Hj. assert (k = 0) as -> by lia. cbn [Nat.mul Nat.add].
    destruct S1 as (SA & SB & SC & SD). apply (contents_raw _ _ 0 j C1); [lia|]. rewrite SB, SC, SD. lia. }
  { intros o j Ho Hj. rewrite Nsm1. cbn [Nat.mul Nat.add]. now apply Hsm1. }
  rewrite Eg2. cbn [bind].
  assert (Ssms2 : has_shape sms2 (cv_omaps c) (cs_ow st) (cs_oh st) S).
  { destruct Ssm2 as (A1 & A2 & A3 & A4), Ssm1 as (B1 & B2 & B3 & B4), Ss as (D1 & D2 & D3 & D4). repeat split; congruence. }
  assert (Csm2 : contents sms2 (fun x y s o => nadd K (nmul K (n1 K) (V o ((s * cs_oh st + y) * cs_ow st + x)))
                                             (nmul K wd (nadd K (n0 K) (nmul K (b o) (n1 K)))))).
  { pose proof (raw_contents sms2 (fun o j => nadd K (nmul K (n1 K) (V o j)) (nmul K wd (nadd K (n0 K) (nmul K (b o) (n1 K)))))) as Hc.
    destruct Ssms2 as (A1 & A2 & A3 & A4). rewrite A1, A2, A3, A4 in Hc. apply Hc. clear Hc.
    assert (EN : S * cs_ow st * cs_oh st = N) by (unfold N; ring). rewrite EN.
    intros o j Ho Hj. pose proof (Hsm2 o j Ho Hj) as H. cbn [Nat.mul Nat.add] in H. rewrite H. f_equal.
    unfold scale_add. rewrite Hz1. reflexivity. }
  destruct Hso as (O1 & O2 & O3 & O4).
  assert (Sso : has_shape sms2 (maps output) (width output) (height output) (samples output))
    by (rewrite O1, O2, O3, O4; exact Ssms2).
  destruct (sms_spec sms2 output _ Wsm2 Hwo Sso Csm2) as (out & Eout & Wout & Sout & Cout).
  rewrite Eout. cbn [bind]. rewrite Hp. eexists. exists out. split; [reflexivity|].
  split; [exact Wout|]. split; [exact Sout|]. split.
  - intros x y o s Hv. rewrite (Cout x y o s Hv). f_equal. apply (same_shape_valid _ _ _ _ _ _ Sout) in Hv.
    destruct Hv as (Hx & Hy & Ho & Hs). rewrite O1, O2, O3, O4 in *.
    destruct (encode_map (cs_ow st) (cs_oh st) s y x Hx Hy) as (D1 & D2 & D3).
    f_equal. unfold V, flat_window. rewrite D1, D2, D3. reflexivity.
  - split; [|split; [reflexivity|split; [reflexivity|exact Ccol]]].
    split; cbn [cs_geo cs_ow cs_oh cs_im2col cs_sms cs_sms2 cs_deltax cs_ones cs_weights cs_weights_delta cs_bias cs_bias_delta]; auto.
Qed.

(** What the backward pass stores in the column buffer before COL2IM. *)
Definition flat_col_delta (c : conv) (m : nat) (wt dl : nat -> nat -> nat -> nat -> D) (x y s tm : nat) : D :=
  let kg := cv_kw c * cv_kh c * (m / cv_group c) in
  let og := cv_omaps c / cv_group c in
  nsum K og (fun o =>
    nmul K (wt (tm mod kg mod cv_kw c) ((tm mod kg / cv_kw c) mod cv_kh c) (tm mod kg / (cv_kw c * cv_kh c)) (tm / kg * og + o))
           (dl x y (tm / kg * og + o) s)).

Lemma conv_bp_spec c st w h m S wt b backprop output_delta input_delta img dl :
  nzerob K (n0 K) = true ->
  conv_ready K c st w h m S wt b ->
  contents (cs_im2col st) (col_value K (conv_geo c w h m S) img) ->
  wf output_delta -> has_shape output_delta S (cs_ow st) (cs_oh st) (cv_omaps c) -> contents output_delta dl ->
  wf input_delta -> has_shape input_delta S w h m ->
  (backprop = true -> col2im_safe (conv_geo c w h m S)) ->
  let ow := cs_ow st in let oh := cs_oh st in let N := ow * oh * S in
  exists st' input_delta', conv_bp K c backprop st S output_delta input_delta = Ok (st', input_delta') /\
    conv_ready K c st' w h m S wt b /\
    contents (cs_weights_delta st') (fun kx ky mm o =>
      nmul K (n1 K) (nsum K N (fun j =>
        nmul K (dl (j mod ow) ((j / ow) mod oh) o (j / (ow * oh)))
               (col_value K (conv_geo c w h m S) img (j mod ow) ((j / ow) mod oh) (j / (ow * oh))
                  (o / (cv_omaps c / cv_group c) * (cv_kw c * cv_kh c * (m / cv_group c)) + ((mm * cv_kh c + ky) * cv_kw c + kx)))))) /\
    contents (cs_bias_delta st') (fun o _ _ _ =>
      nmul K (n1 K) (nsum K N (fun j => nmul K (n1 K) (dl (j mod ow) ((j / ow) mod oh) o (j / (ow * oh)))))) /\
    wf input_delta' /\ same_shape input_delta' input_delta /\
    (backprop = false -> input_delta' = input_delta) /\
    (backprop = true -> contents input_delta' (fun x y mm s =>
      fold_left (nadd K) (col_readers (conv_geo c w h m S) (fun x y s tm => nmul K (n1 K) (flat_col_delta c m wt dl x y s tm)) x y mm s) (n0 K))).
Proof.
  intros Hz0 HR Himg Hwo Hso Hdl Hwi Hsi Hsafe ow oh N. pose proof HR as HR'.
  destruct HR as [Rgeo Rfit Row Roh Rg Rm Ro [Wc Sc] [Ws Ss] [Ws2 Ss2] [Wdx Sdx] (W1 & S1 & C1) (Ww & Sw & Cw) [Wwd Swd] (Wb & Sb & Cb) [Wbd Sbd]].
  set (geo := conv_geo c w h m S) in *. unfold conv_bp. fold ow. fold oh. fold N. rewrite Rgeo.
  destruct (group_sizes c m Rg Rm) as (G1 & G2 & G3).
  set (mg := m / cv_group c) in *. set (kg := cv_kw c * cv_kh c * mg) in *. set (og := cv_omaps c / cv_group c) in *.
  assert (Eog : cv_group c * og = cv_omaps c).
  { unfold og. apply Nat.mod_divide in Ro as [q ->]; [rewrite Nat.div_mul by lia; ring|lia]. }
  assert (Sod : has_shape output_delta (maps (cs_sms2 st)) (width (cs_sms2 st)) (height (cs_sms2 st)) (samples (cs_sms2 st))).
  { destruct Ss2 as (-> & -> & -> & ->). exact Hso. }
  destruct (sms_spec output_delta (cs_sms2 st) dl Hwo Ws2 Sod Hdl) as (sms2 & Esms & Wsms & Ssms & Csms).
  rewrite Esms. cbn [bind].
  assert (Ssms' : has_shape sms2 (cv_omaps c) ow oh S).
  { destruct Ssms as (A1 & A2 & A3 & A4), Ss2 as (B1 & B2 & B3 & B4). unfold has_shape. rewrite A1, A2, A3, A4, B1, B2, B3, B4. auto. }
  assert (Nsms : maps sms2 * width sms2 * height sms2 = N) by (destruct Ssms' as (_ & -> & -> & ->); unfold N; ring).
  assert (Rawd : forall o j, o < cv_omaps c -> j < N ->
    raw sms2 (o * N + j) = Some (dl (j mod ow) ((j / ow) mod oh) o (j / (ow * oh)))).
  { intros o j Ho Hj. rewrite <- Nsms. rewrite (contents_raw sms2 _ o j Csms); [|destruct Ssms' as (-> & _); exact Ho|rewrite Nsms; exact Hj].
    destruct Ssms' as (_ & -> & -> & _). reflexivity. }
  assert (Ncol : maps (cs_im2col st) * width (cs_im2col st) * height (cs_im2col st) = N).
  { destruct Sc as (_ & -> & -> & ->). unfold N, ow, oh. ring. }
  assert (Rawcol : forall tm j, tm < cv_kw c * cv_kh c * m -> j < N ->
    raw (cs_im2col st) (tm * N + j) = Some (col_value K geo img (j mod ow) ((j / ow) mod oh) (j / (ow * oh)) tm)).
  { intros tm j Ht Hj. rewrite <- Ncol. rewrite (contents_raw _ _ tm j Himg); [|destruct Sc as (-> & _); exact Ht|rewrite Ncol; exact Hj].
    destruct Sc as (_ & -> & -> & _). reflexivity. }
  assert (Nw : maps (cs_weights st) * width (cs_weights st) * height (cs_weights st) = kg).
  { destruct Sw as (_ & -> & -> & ->). unfold kg. ring. }
  assert (Raww : forall o k, o < cv_omaps c -> k < kg ->
    raw (cs_weights st) (o * kg + k) = Some (wt (k mod cv_kw c) ((k / cv_kw c) mod cv_kh c) (k / (cv_kw c * cv_kh c)) o)).
  { intros o k Ho Hk. rewrite <- Nw at 1. rewrite (contents_raw _ _ o k Cw); [|destruct Sw as (-> & _); exact Ho|lia].
    destruct Sw as (_ & -> & -> & _). reflexivity. }
  assert (Ndx : maps (cs_deltax st) * width (cs_deltax st) * height (cs_deltax st) = N).
  { destruct Sdx as (_ & -> & -> & ->). unfold N, ow, oh. ring. }
  assert (Ndw : maps (cs_weights_delta st) * width (cs_weights_delta st) * height (cs_weights_delta st) = kg).
  { destruct Swd as (_ & -> & -> & ->). unfold kg. ring. }
  set (Vx := fun tm j => nmul K (n1 K) (flat_col_delta c m wt dl (j mod ow) ((j / ow) mod oh) (j / (ow * oh)) tm)).
  set (Vw := fun o k => nmul K (n1 K) (nsum K N (fun j =>
        nmul K (dl (j mod ow) ((j / ow) mod oh) o (j / (ow * oh)))
               (col_value K geo img (j mod ow) ((j / ow) mod oh) (j / (ow * oh)) (o / og * kg + k))))).
  destruct (foldm_seq_inv (fun acc g => conv_group_bp K c st S backprop sms2 acc g)
    (fun g acc => (wf (fst acc) /\ same_shape (fst acc) (cs_deltax st) /\
        (backprop = true -> forall r j, r < g * kg -> j < N -> raw (fst acc) (r * N + j) = Some (Vx r j))) /\
       (wf (snd acc) /\ same_shape (snd acc) (cs_weights_delta st) /\
        forall r j, r < g * og -> j < kg -> raw (snd acc) (r * kg + j) = Some (Vw r j)))
    (cv_group c) 0 (cs_deltax st, cs_weights_delta st)) as ([dx dw] & Efold & (Wdx' & Sdx' & Hdx) & (Wdw' & Sdw' & Hdw)).
  { split; (split; [assumption|]; split; [apply same_shape_refl|]); [intros _|]; intros r j Hr; lia. }
  { intros g [dx dw] Hgl ((Wx & Sx & Hx) & (Wy & Sy & Hy)). cbn [fst snd] in *.
    unfold conv_group_bp. rewrite Rgeo. cbn [g_maps geo conv_geo]. fold ow. fold oh. fold N. fold og.
    rewrite G1, G2. rewrite (div_exact_mul g) by (auto; lia). fold og.
    assert (Hdx' : exists dx', (if backprop then
        gemm K true true false kg N og (n1 K) (cs_weights st) (g * og) kg sms2 (g * og) N (n0 K) dx (g * kg) N else Ok dx) = Ok dx' /\
        wf dx' /\ same_shape dx' (cs_deltax st) /\
        (backprop = true -> forall r j, r < Datatypes.S g * kg -> j < N -> raw dx' (r * N + j) = Some (Vx r j))).
    { destruct backprop; [|exists dx; repeat (split; [auto; fail|]); discriminate].
      destruct (gemm_block K true false kg N og (n1 K) (cs_weights st) (g * og) kg sms2 (g * og) N dx g Vx
        (fun k o => wt (k mod cv_kw c) ((k / cv_kw c) mod cv_kh c) (k / (cv_kw c * cv_kh c)) (g * og + o))
        (fun o j => dl (j mod ow) ((j / ow) mod oh) (g * og + o) (j / (ow * oh)))) as (dx' & E & Wd & Sd & Hd).
      - exact Wx.
      - destruct Sx as (_ & -> & -> & ->). exact Ndx.
      - destruct Sx as (-> & _), Sdx as (-> & _). rewrite <- G3. nia.
      - exact Hz0.
      - intros k o Hk Ho. rewrite Nw. replace (g * og * kg + (o * kg + k)) with ((g * og + o) * kg + k) by ring.
        apply Raww; [rewrite <- Eog; nia|exact Hk].
      - intros o j Ho Hj. rewrite Nsms. replace (g * og * N + (o * N + j)) with ((g * og + o) * N + j) by ring.
        apply Rawd; [rewrite <- Eog; nia|exact Hj].
      - intros k j Hk Hj. unfold Vx, flat_col_delta. fold mg. fold kg. fold og.
        assert (E1 : (g * kg + k) / kg = g) by (rewrite Nat.div_add_l, Nat.div_small by lia; lia).
        assert (E2 : (g * kg + k) mod kg = k) by (rewrite Nat.add_comm, Nat.mod_add, Nat.mod_small by lia; lia).
        rewrite E1, E2. reflexivity.
      - now apply Hx.
      - exists dx'. split; [exact E|]. split; [exact Wd|]. split; [eapply same_shape_trans; eauto|].
        intros _. replace (Datatypes.S g) with (g + 1) by lia. exact Hd. }
    destruct Hdx' as (dx' & Edx & Wd & Sd & Hd). rewrite Edx. cbn [bind].
    destruct (gemm_block K false true og kg N (n1 K) sms2 (g * og) N (cs_im2col st) (g * kg) N dw g Vw
        (fun o j => dl (j mod ow) ((j / ow) mod oh) (g * og + o) (j / (ow * oh)))
        (fun j k => col_value K geo img (j mod ow) ((j / ow) mod oh) (j / (ow * oh)) (g * kg + k))) as (dw' & E & We & Se & He).
    - exact Wy.
    - destruct Sy as (_ & -> & -> & ->). exact Ndw.
    - destruct Sy as (-> & _), Swd as (-> & _). rewrite <- Eog. nia.
    - exact Hz0.
    - intros o j Ho Hj. rewrite Nsms. replace (g * og * N + (o * N + j)) with ((g * og + o) * N + j) by ring.
      apply Rawd; [rewrite <- Eog; nia|exact Hj].
    - intros j k Hj Hk. rewrite Ncol. replace (g * kg * N + (k * N + j)) with ((g * kg + k) * N + j) by ring.
      apply Rawcol; [rewrite <- G3; nia|exact Hj].
    - intros o k Ho Hk. unfold Vw. assert (E1 : (g * og + o) / og = g) by (rewrite Nat.div_add_l, Nat.div_small by lia; lia).
      rewrite E1. reflexivity.
    - exact Hy.
    - rewrite E. cbn [bind]. exists (dx', dw'). split; [reflexivity|]. split; cbn [fst snd].
      + split; [exact Wd|]. split; [exact Sd|]. exact Hd.
      + split; [exact We|]. split; [eapply same_shape_trans; eauto|].
        replace (Datatypes.S g) with (g + 1) by lia. exact He. }
  rewrite Efold. cbn [bind]. cbn [fst snd] in *. change (0 + cv_group c) with (cv_group c) in *. rewrite Eog in Hdw. rewrite G3 in Hdx.
  assert (Hbd0 : stored false (cs_bias_delta st) 0 1 (cv_omaps c) 1 (fun i _ => match raw (cs_bias_delta st) i with Some v => v | None => n0 K end)).
  { intros i j Hi Hj. assert (j = 0) as -> by lia. cbn [Nat.mul Nat.add]. replace (i * 1 + 0) with i by lia.
    destruct (raw_lt (cs_bias_delta st) i Wbd) as [v ->]; [|reflexivity].
    rewrite (elements_dims _ Wbd). destruct Sbd as (-> & -> & -> & ->). lia. }
  assert (HA : stored false sms2 0 N (cv_omaps c) N (fun o j => dl (j mod ow) ((j / ow) mod oh) o (j / (ow * oh)))).
  { intros o j Ho Hj. cbn [Nat.mul Nat.add]. now apply Rawd. }
  assert (HX : stored false (cs_ones st) 0 1 N 1 (fun j _ => (fun _ : nat => n1 K) j)).
  { intros i k Hi Hk. assert (k = 0) as -> by lia. cbn [Nat.mul Nat.add]. replace (i * 1 + 0) with i by lia.
    destruct S1 as (SA & SB & SC & SD). apply (contents_raw _ _ 0 i C1); [lia|]. rewrite SB, SC, SD. fold ow oh N. lia. }
  destruct (gemv_spec K false (cv_omaps c) N (n1 K) (n0 K) sms2 0 N (cs_ones st) 0 1 (cs_bias_delta st) 0 1
    _ _ (fun i => match raw (cs_bias_delta st) i with Some v => v | None => n0 K end) Wbd Nat.lt_0_1 HA HX Hbd0)
    as (db & Edb & Wdb & Sdb & Hdb & _).
  rewrite Edb. cbn [bind].
  assert (Hdi : exists di, (if backprop then col2im K geo input_delta dx else Ok input_delta) = Ok di /\ wf di /\ same_shape di input_delta /\
    (backprop = false -> di = input_delta) /\
    (backprop = true -> contents di (fun x y mm s =>
      fold_left (nadd K) (col_readers geo (fun x y s tm => nmul K (n1 K) (flat_col_delta c m wt dl x y s tm)) x y mm s) (n0 K)))).
  { destruct backprop.
    2:{ exists input_delta. split; [reflexivity|]. split; [exact Hwi|]. split; [apply same_shape_refl|]. split; [reflexivity|discriminate]. }
    assert (Sdx2 : has_shape dx (col_maps geo) (o_width geo) (o_height geo) (g_samples geo)).
    { destruct Sdx' as (A1 & A2 & A3 & A4), Sdx as (B1 & B2 & B3 & B4). rewrite Row in B2. rewrite Roh in B3.
      unfold has_shape, col_maps, geo, conv_geo. cbn [g_kw g_kh g_maps g_samples].
      repeat split; [congruence|now rewrite A2|now rewrite A3|congruence]. }
    assert (Cdx : contents dx (fun x y s tm => nmul K (n1 K) (flat_col_delta c m wt dl x y s tm))).
    { pose proof (raw_contents dx Vx) as Hc.
      assert (EN : maps dx * width dx * height dx = N) by (destruct Sdx' as (_ & -> & -> & ->); exact Ndx).
      rewrite EN in Hc. assert (Hc' := Hc ltac:(intros s0 j Hs0 Hj; apply Hdx; auto; destruct Sdx' as (E0 & _), Sdx as (E1 & _); lia)).
      intros x y s tm Hv. rewrite (Hc' x y s tm Hv). f_equal. unfold Vx. destruct Hv as (Hx & Hy & Hs & Ht).
      destruct (encode_map (width dx) (height dx) s y x Hx Hy) as (D1 & D2 & D3).
      destruct Sdx' as (_ & A2 & A3 & _), Sdx as (_ & B2 & B3 & _). fold ow in B2. fold oh in B3. rewrite A2, A3, B2, B3 in *.
      rewrite D1, D2, D3. reflexivity. }
    destruct (col2im_spec K geo input_delta dx _ Rfit (Hsafe eq_refl) Hwi Wdx' Hsi Sdx2 Cdx) as (di & E & Wdi & Sdi & Cdi).
    exists di. split; [exact E|]. split; [exact Wdi|]. split; [exact Sdi|]. split; [discriminate|]. intros _. exact Cdi. }
  destruct Hdi as (di & Edi & Wdi & Sdi & Hdi1 & Hdi2). rewrite Edi. cbn [bind]. eexists. exists di. split; [reflexivity|].
  cbn [cs_geo cs_ow cs_oh cs_im2col cs_sms cs_sms2 cs_deltax cs_ones cs_weights cs_weights_delta cs_bias cs_bias_delta].
  assert (Sdw2 : has_shape dw (cv_omaps c) (cv_kw c) (cv_kh c) mg).
  { destruct Sdw' as (A1 & A2 & A3 & A4), Swd as (B1 & B2 & B3 & B4). unfold has_shape. rewrite A1, A2, A3, A4, B1, B2, B3, B4. auto. }
  assert (Sdb2 : has_shape db 1 (cv_omaps c) 1 1).
  { destruct Sdb as (A1 & A2 & A3 & A4), Sbd as (B1 & B2 & B3 & B4). unfold has_shape. rewrite A1, A2, A3, A4, B1, B2, B3, B4. auto. }
  split.
  { split; cbn [cs_geo cs_ow cs_oh cs_im2col cs_sms cs_sms2 cs_deltax cs_ones cs_weights cs_weights_delta cs_bias cs_bias_delta]; auto.
    split; [exact Wdx'|]. destruct Sdx' as (A1 & A2 & A3 & A4), Sdx as (B1 & B2 & B3 & B4). unfold has_shape. rewrite A1, A2, A3, A4, B1, B2, B3, B4. auto. }
  split.
  { pose proof (raw_contents dw Vw) as Hc.
    assert (EN : maps dw * width dw * height dw = kg) by (destruct Sdw2 as (_ & -> & -> & ->); unfold kg; ring).
    rewrite EN in Hc. assert (Hc' := Hc ltac:(intros s0 j Hs0 Hj; apply Hdw; auto; destruct Sdw2 as (E0 & _); lia)).
    intros kx ky mm o Hv. rewrite (Hc' kx ky mm o Hv). destruct Sdw2 as (_ & -> & -> & _). reflexivity. }
  split.
  { destruct Sdb2 as (B1 & B2 & B3 & B4). intros x y mm s (Hx & Hy & Hm & Hs). rewrite B1, B2, B3, B4 in *.
    assert (y = 0) as -> by lia. assert (mm = 0) as -> by lia. assert (s = 0) as -> by lia.
    rewrite at_pos_raw by (unfold valid_pos; rewrite B1, B2, B3, B4; auto).
    pose proof (Hdb x 0 Hx Nat.lt_0_1) as H. cbn [Nat.mul Nat.add] in H.
    replace (offset db x 0 0 0) with (x * 1 + 0) by (unfold offset; lia). rewrite H. f_equal. unfold scale_add. now rewrite Hz0. }
  split; [exact Wdi|]. split; [exact Sdi|]. split; [exact Hdi1|exact Hdi2].
Qed.
End LayerProofs.

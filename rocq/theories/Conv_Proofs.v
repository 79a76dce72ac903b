(** Proofs about patch extraction (IM2COL, COL2IM). *)
From Coq Require Import Ring_theory Ring.
From Verif Require Import Base BaseFacts LoopFacts Tensor_Model Tensor_Spec Tensor_Proofs Num Math_Model Math_Spec Math_Proofs.

(** * Exact sums *)

Section RingSums.
Context {D : Type}.
Variable K : num D.
Hypothesis HK : ring_laws K.
Add Ring DRing : (rl_ring K HK).
Notation "x +! y" := (nadd K x y) (at level 50, left associativity).
Notation "x *! y" := (nmul K x y) (at level 40, left associativity).

Lemma nsum_zero n : nsum K n (fun _ => n0 K) = n0 K.
Proof using HK. induction n as [|n IH]; [reflexivity|]. cbn [nsum]. rewrite IH. ring. Qed.

Lemma nsum_zero_ext n f : (forall i, i < n -> f i = n0 K) -> nsum K n f = n0 K.
Proof using HK. intros H. rewrite (nsum_ext K n f (fun _ => n0 K) H). apply nsum_zero. Qed.

Lemma nsum_add n f g : nsum K n (fun i => f i +! g i) = nsum K n f +! nsum K n g.
Proof using HK. induction n as [|n IH]; cbn [nsum]; [ring|]. rewrite IH. ring. Qed.

Lemma nsum_mul_l n c f : nsum K n (fun i => c *! f i) = c *! nsum K n f.
Proof using HK. induction n as [|n IH]; cbn [nsum]; [ring|]. rewrite IH. ring. Qed.

Lemma nsum_mul_r n c f : nsum K n (fun i => f i *! c) = nsum K n f *! c.
Proof using HK. induction n as [|n IH]; cbn [nsum]; [ring|]. rewrite IH. ring. Qed.

Lemma nsum_swap n m f : nsum K n (fun i => nsum K m (fun j => f i j)) = nsum K m (fun j => nsum K n (fun i => f i j)).
Proof using HK.
  induction n as [|n IH]; cbn [nsum]; [symmetry; now apply nsum_zero_ext|]. rewrite IH, <- nsum_add. reflexivity.
Qed.

Lemma nsum_single n k f : k < n -> (forall i, i < n -> i <> k -> f i = n0 K) -> nsum K n f = f k.
Proof using HK.
  induction n as [|n IH]; intros Hk H; [lia|]. cbn [nsum]. destruct (Nat.eq_dec k n) as [->|Hne].
  - rewrite nsum_zero_ext; [ring|]. intros i Hi. apply H; lia.
  - rewrite IH by (intros; try apply H; lia). rewrite (H n) by lia. ring.
Qed.

Lemma nsum_app n m f : nsum K (n + m) f = nsum K n f +! nsum K m (fun j => f (n + j)).
Proof using HK.
  induction m as [|m IH]; [rewrite Nat.add_0_r; cbn [nsum]; ring|]. rewrite Nat.add_succ_r. cbn [nsum]. rewrite IH. ring.
Qed.

(** A sum over mixed-radix indices is a nested sum. *)
Lemma nsum_mix n m f : nsum K (n * m) f = nsum K n (fun i => nsum K m (fun j => f (i * m + j))).
Proof using HK.
  induction n as [|n IH]; [reflexivity|]. rewrite Nat.mul_succ_l, nsum_app, IH. reflexivity.
Qed.

Lemma nsum_const n c : nsum K n (fun _ => c) = nsum K n (fun _ => n1 K) *! c.
Proof using HK. rewrite <- nsum_mul_r. apply nsum_ext. intros; ring. Qed.

Definition lsum (l : list D) : D := fold_left (nadd K) l (n0 K).

Lemma fold_nadd l a : fold_left (nadd K) l a = a +! lsum l.
Proof using HK.
  unfold lsum. revert a. induction l as [|x l IH]; intros a; cbn [fold_left]; [ring|].
  rewrite IH, (IH (n0 K +! x)). ring.
Qed.

Lemma lsum_app l1 l2 : lsum (l1 ++ l2) = lsum l1 +! lsum l2.
Proof using HK. unfold lsum at 1. rewrite fold_left_app. apply fold_nadd. Qed.

Lemma lsum_for n f : lsum (for_ n f) = nsum K n (fun i => lsum (f i)).
Proof using HK.
  unfold for_. induction n as [|n IH]; [reflexivity|]. rewrite seq_S, flat_map_app, lsum_app, IH.
  cbn [Nat.add flat_map]. rewrite app_nil_r. reflexivity.
Qed.

Lemma lsum_one x : lsum [x] = x.
Proof using HK. unfold lsum. cbn. ring. Qed.
End RingSums.

(** * Geometry *)

Lemma out_dim_positions pad size kernel stride : kernel <= size + 2 * pad -> 0 < stride ->
  out_dim pad size kernel stride = Z.of_nat (positions (size + 2 * pad) kernel stride).
Proof.
  intros Hk Hs. unfold out_dim, positions. destruct (Nat.ltb_spec (size + 2 * pad) kernel); [lia|].
  replace (2 * Z.of_nat pad + Z.of_nat size - Z.of_nat kernel)%Z with (Z.of_nat (size + 2 * pad - kernel)) by lia.
  rewrite Z.quot_div_nonneg by lia. rewrite <- Nat2Z.inj_div. lia.
Qed.

Lemma positions_fit n k stride i : 0 < stride -> i < positions n k stride <-> i * stride + k <= n.
Proof.
  intros Hs. unfold positions. destruct (Nat.ltb_spec n k); [split; nia|].
  split; intros H1.
  - assert (i <= (n - k) / stride) by lia. pose proof (Nat.mul_div_le (n - k) stride ltac:(lia)). nia.
  - assert (i <= (n - k) / stride); [|lia]. apply Nat.div_le_lower_bound; nia.
Qed.

Lemma col_width_ok g : geometry_ok g -> col_width g = Z.of_nat (o_width g).
Proof. intros (A & B & C & E). now apply out_dim_positions. Qed.
Lemma col_height_ok g : geometry_ok g -> col_height g = Z.of_nat (o_height g).
Proof. intros (A & B & C & E). now apply out_dim_positions. Qed.

(** Decoding a column map into kernel position and input map. *)
Lemma decode_map kw kh mm tm : tm < kw * kh * mm ->
  tm mod kw < kw /\ (tm / kw) mod kh < kh /\ tm / (kw * kh) < mm /\
  tm = (tm / (kw * kh) * kh + (tm / kw) mod kh) * kw + tm mod kw.
Proof.
  intros H. assert (kw <> 0) by (intros ->; lia). assert (kh <> 0) by (intros ->; lia).
  split; [now apply Nat.mod_upper_bound|]. split; [now apply Nat.mod_upper_bound|].
  split. { apply Nat.div_lt_upper_bound; nia. }
  pose proof (Nat.div_mod tm kw ltac:(auto)). rewrite <- Nat.div_div by auto.
  pose proof (Nat.div_mod (tm / kw) kh ltac:(auto)). nia.
Qed.

Lemma encode_map kw kh m ky kx : kx < kw -> ky < kh ->
  ((m * kh + ky) * kw + kx) mod kw = kx /\ (((m * kh + ky) * kw + kx) / kw) mod kh = ky /\
  ((m * kh + ky) * kw + kx) / (kw * kh) = m.
Proof.
  intros Hx Hy. assert (E1 : ((m * kh + ky) * kw + kx) / kw = m * kh + ky).
  { rewrite Nat.div_add_l by lia. rewrite Nat.div_small by lia. lia. }
  split; [|split].
  - rewrite Nat.add_comm, Nat.mod_add by lia. now apply Nat.mod_small.
  - rewrite E1, Nat.add_comm, Nat.mod_add by lia. now apply Nat.mod_small.
  - rewrite <- Nat.div_div, E1 by lia. rewrite Nat.div_add_l, Nat.div_small by lia. lia.
Qed.

Lemma encode_lt kw kh mm m ky kx : kx < kw -> ky < kh -> m < mm -> (m * kh + ky) * kw + kx < kw * kh * mm.
Proof. intros. assert (m * kh + ky < mm * kh) by (now apply mix_lt). nia. Qed.

(** Where a column element comes from. *)
Definition from_x (g : geometry) (kx ox : nat) : Z := (Z.of_nat (ox * g_sw g + kx) - Z.of_nat (g_pw g))%Z.
Definition from_y (g : geometry) (ky oy : nat) : Z := (Z.of_nat (oy * g_sh g + ky) - Z.of_nat (g_ph g))%Z.

Section Im2col.
Context {D : Type}.
Variable K : num D.

Lemma size_matches_ok g (t : tensor D) : geometry_ok g ->
  has_shape t (col_maps g) (o_width g) (o_height g) (g_samples g) -> size_matches g t = true.
Proof.
  intros Hg (A & B & C & E). unfold size_matches. rewrite (col_width_ok g Hg), (col_height_ok g Hg), A, B, C, E.
  apply Z.eqb_eq. lia.
Qed.

Lemma zero_stride_ok g : geometry_ok g -> zero_stride g = false.
Proof. intros (A & B & _). unfold zero_stride. destruct (Nat.eqb_spec (g_sw g) 0), (Nat.eqb_spec (g_sh g) 0); lia || reflexivity. Qed.

Lemma inside_spec i n : inside i n = true <-> (0 <= i < Z.of_nat n)%Z.
Proof. unfold inside. rewrite andb_true_iff, Z.leb_le, Z.ltb_lt. lia. Qed.

Lemma col_src_offset g (t : tensor D) tm oy ox s : width t = g_width g -> height t = g_height g ->
  inside (col_ix g tm ox) (g_width g) = true -> inside (col_iy g tm oy) (g_height g) = true ->
  offset t 0 0 0 s + Z.to_nat (col_src g tm oy ox) =
  offset t (Z.to_nat (col_ix g tm ox)) (Z.to_nat (col_iy g tm oy)) (col_imap g tm) s.
Proof.
  intros Hw Hh Hx Hy. apply inside_spec in Hx, Hy. unfold col_src, offset. rewrite Hw, Hh.
  set (ix := col_ix g tm ox) in *. set (iy := col_iy g tm oy) in *. clearbody ix iy.
  replace ix with (Z.of_nat (Z.to_nat ix)) at 1 by lia. replace iy with (Z.of_nat (Z.to_nat iy)) at 1 by lia.
  set (nx := Z.to_nat ix). set (ny := Z.to_nat iy). clearbody nx ny.
  rewrite <- !Nat2Z.inj_mul, <- !Nat2Z.inj_add, <- !Nat2Z.inj_mul, <- !Nat2Z.inj_add, Nat2Z.id. ring.
Qed.

Lemma col_dst_offset g (t : tensor D) tm s oy ox : geometry_ok g ->
  has_shape t (col_maps g) (o_width g) (o_height g) (g_samples g) ->
  offset t 0 0 0 tm + col_dst g s oy ox = offset t ox oy s tm.
Proof.
  intros Hg (A & B & C & E). unfold col_dst. rewrite (col_width_ok g Hg), (col_height_ok g Hg), !Nat2Z.id.
  unfold offset. rewrite B, C. ring.
Qed.

Definition col_value (g : geometry) (img : nat -> nat -> nat -> nat -> D) (ox oy s tm : nat) : D :=
  padded K (g_width g) (g_height g) img (col_ix g tm ox) (col_iy g tm oy) (col_imap g tm) s.

Lemma im2col_elt g (source : tensor D) img tm oy ox s : wf source ->
  has_shape source (g_samples g) (g_width g) (g_height g) (g_maps g) -> contents source img ->
  tm < col_maps g -> s < g_samples g ->
  inside (col_iy g tm oy) (g_height g) = true ->
  (if inside (col_ix g tm ox) (g_width g) then sample_elt source s (Z.to_nat (col_src g tm oy ox)) else Ok (n0 K)) =
  Ok (col_value g img ox oy s tm).
Proof.
  intros Hwf (A & B & C & E) Himg Htm Hs Hy. unfold col_value, padded.
  pose proof (proj1 (inside_spec _ _) Hy) as Hy'.
  destruct (inside (col_ix g tm ox) (g_width g)) eqn:Hx.
  - pose proof (proj1 (inside_spec _ _) Hx) as Hx'. destruct (decode_map _ _ _ _ Htm) as (_ & _ & Hm & _).
    assert (Hv : valid_pos source (Z.to_nat (col_ix g tm ox)) (Z.to_nat (col_iy g tm oy)) (col_imap g tm) s).
    { unfold valid_pos, col_imap. rewrite A, B, C, E. lia. }
    replace ((0 <=? col_ix g tm ox) && (col_ix g tm ox <? Z.of_nat (g_width g)) && (0 <=? col_iy g tm oy) &&
      (col_iy g tm oy <? Z.of_nat (g_height g)))%Z with true by (symmetry; rewrite !andb_true_iff, !Z.leb_le, !Z.ltb_lt; lia).
    apply sample_elt_raw. rewrite <- offset_sample, col_src_offset by auto.
    rewrite <- at_pos_raw by exact Hv. now apply Himg.
  - destruct ((0 <=? col_ix g tm ox) && (col_ix g tm ox <? Z.of_nat (g_width g)) && (0 <=? col_iy g tm oy) &&
      (col_iy g tm oy <? Z.of_nat (g_height g)))%Z eqn:Ec; [|reflexivity].
    rewrite !andb_true_iff, !Z.leb_le, !Z.ltb_lt in Ec. assert (inside (col_ix g tm ox) (g_width g) = true) by (apply inside_spec; lia).
    congruence.
Qed.

Lemma col_value_outside g img tm oy ox s : inside (col_iy g tm oy) (g_height g) = false -> col_value g img ox oy s tm = n0 K.
Proof.
  intros Hy. unfold col_value, padded.
  destruct ((0 <=? col_ix g tm ox) && (col_ix g tm ox <? Z.of_nat (g_width g)) && (0 <=? col_iy g tm oy) &&
      (col_iy g tm oy <? Z.of_nat (g_height g)))%Z eqn:Ec; [|reflexivity].
  rewrite !andb_true_iff, !Z.leb_le, !Z.ltb_lt in Ec. assert (inside (col_iy g tm oy) (g_height g) = true) by (apply inside_spec; lia).
  congruence.
Qed.

(** One iteration of the parallel loop, as plain stores. *)
Lemma im2col_sample_in g (source target : tensor D) img s a rv : geometry_ok g -> wf source ->
  has_shape source (g_samples g) (g_width g) (g_height g) (g_maps g) -> contents source img ->
  has_shape target (col_maps g) (o_width g) (o_height g) (g_samples g) -> s < g_samples g ->
  In (a, rv) (im2col_sample K g source target s) <->
  exists tm oy ox, tm < col_maps g /\ oy < o_height g /\ ox < o_width g /\ a = offset target ox oy s tm /\
    rv = Ok (col_value g img ox oy s tm).
Proof.
  intros Hg Hwf Hss Himg Hts Hs. unfold im2col_sample. rewrite (col_width_ok g Hg), (col_height_ok g Hg), !Nat2Z.id. split.
  - intros H. apply in_for in H as (tm & Htm & H). apply in_for in H as (oy & Hoy & H).
    exists tm, oy. destruct (inside (col_iy g tm oy) (g_height g)) eqn:Ey;
      apply in_for in H as (ox & Hox & [Eq|[]]); inversion Eq; subst; clear Eq; exists ox;
      rewrite (col_dst_offset g) by auto; repeat split; auto.
    + now apply im2col_elt.
    + f_equal. symmetry. now apply col_value_outside.
  - intros (tm & oy & ox & Htm & Hoy & Hox & -> & ->). apply in_for. exists tm. split; [exact Htm|].
    apply in_for. exists oy. split; [exact Hoy|]. destruct (inside (col_iy g tm oy) (g_height g)) eqn:Ey;
      apply in_for; exists ox; (split; [exact Hox|]); left; f_equal; try (now apply col_dst_offset).
    + now apply im2col_elt.
    + f_equal. symmetry. now apply col_value_outside.
Qed.

Lemma im2col_spec g (source target : tensor D) img : geometry_ok g -> wf source -> wf target ->
  has_shape source (g_samples g) (g_width g) (g_height g) (g_maps g) -> contents source img ->
  has_shape target (col_maps g) (o_width g) (o_height g) (g_samples g) ->
  exists target', im2col K g source target = Ok target' /\ wf target' /\ same_shape target' target /\
    contents target' (col_value g img).
Proof.
  intros Hg Hws Hwt Hss Himg Hts. unfold im2col. rewrite (zero_stride_ok g Hg), (size_matches_ok g target Hg Hts).
  pose proof Hts as (A & B & C & E).
  apply run_stores_fill; [exact Hwt| |].
  - intros a rv Ho. apply in_for in Ho as (s & Hs & Ho).
    apply (im2col_sample_in g source target img s a rv) in Ho; auto.
    destruct Ho as (tm & oy & ox & Htm & Hoy & Hox & -> & ->). exists ox, oy, s, tm.
    split; [|auto]. unfold valid_pos. rewrite A, B, C, E. auto.
  - intros x y m s (Hx & Hy & Hm & Hs). rewrite A, B, C, E in *. apply in_for. exists m. split; [exact Hm|].
    apply (im2col_sample_in g source target img m); auto. exists s, y, x. auto.
Qed.

Lemma col_value_encoded g img ox oy s m ky kx : kx < g_kw g -> ky < g_kh g ->
  col_value g img ox oy s ((m * g_kh g + ky) * g_kw g + kx) =
  padded K (g_width g) (g_height g) img (from_x g kx ox) (from_y g ky oy) m s.
Proof.
  intros Hx Hy. destruct (encode_map (g_kw g) (g_kh g) m ky kx Hx Hy) as (E1 & E2 & E3).
  unfold col_value, col_ix, col_iy, col_kx, col_ky, col_imap. rewrite E1, E2, E3. unfold from_x, from_y.
  f_equal; lia.
Qed.

(** ** COL2IM *)

Lemma set_sample_all (t : tensor D) v : wf t ->
  exists t', set_sample t None v = Ok t' /\ wf t' /\ same_shape t' t /\ contents t' (fun _ _ _ _ => v).
Proof.
  intros Hwf. unfold set_sample. apply run_stores_fill; [exact Hwf| |].
  - intros a rv Ho. apply in_for in Ho as (e & He & [Eq|[]]). inversion Eq; subst; clear Eq.
    rewrite offset_sample, <- elements_dims in He by exact Hwf. destruct Hwf as [Hel _]. rewrite Hel in He.
    destruct (offset_surj _ _ He) as (x & y & m & s & Hv & Ha). exists x, y, m, s. auto.
  - intros x y m s Hv. apply in_for. exists (offset t x y m s). split; [|now left].
    rewrite offset_sample, <- elements_dims by exact Hwf. destruct Hwf as [Hel _]. rewrite Hel. now apply offset_lt.
Qed.

Lemma col2im_test g tm oy ox : geometry_ok g -> col2im_safe g -> tm < col_maps g -> ox < o_width g ->
  inside (col_iy g tm oy) (g_height g) = true ->
  ((0 <=? col_ix g tm ox) && (col_iy g tm oy <? Z.of_nat (g_width g)))%Z = true /\
  inside (col_ix g tm ox) (g_width g) = true.
Proof.
  intros (A & B & C & E) (Hp & Hhw) Htm Hox Hy. apply inside_spec in Hy.
  destruct (decode_map _ _ _ _ Htm) as (Hkx & _). rewrite inside_spec, andb_true_iff, Z.leb_le, Z.ltb_lt.
  unfold o_width in Hox. apply (positions_fit _ _ _ _ A) in Hox. unfold col_ix, col_kx. rewrite Hp in *. lia.
Qed.

(** The column elements that were read from pixel (x, y) of map m, in loop order. *)
Definition col_readers (g : geometry) (col : nat -> nat -> nat -> nat -> D) (x y m s : nat) : list D :=
  for_ (col_maps g) (fun tm => for_ (o_height g) (fun oy => for_ (o_width g) (fun ox =>
    if ((col_ix g tm ox =? Z.of_nat x) && (col_iy g tm oy =? Z.of_nat y))%Z && (col_imap g tm =? m)
    then [col ox oy s tm] else []))).

Lemma col2im_spec g (source target : tensor D) col : geometry_ok g -> col2im_safe g -> wf source -> wf target ->
  has_shape source (g_samples g) (g_width g) (g_height g) (g_maps g) ->
  has_shape target (col_maps g) (o_width g) (o_height g) (g_samples g) -> contents target col ->
  exists source', col2im K g source target = Ok source' /\ wf source' /\ same_shape source' source /\
    contents source' (fun x y m s => fold_left (nadd K) (col_readers g col x y m s) (n0 K)).
Proof.
  intros Hg Hsafe Hws Hwt Hss Hts Hcol. unfold col2im.
  destruct (set_sample_all source (n0 K) Hws) as (c & Ec & Hwc & Hsc & Hcc). rewrite Ec. cbn [bind].
  rewrite (zero_stride_ok g Hg), (size_matches_ok g target Hg Hts).
  assert (Hcs : has_shape c (g_samples g) (g_width g) (g_height g) (g_maps g)).
  { destruct Hsc as (S1 & S2 & S3 & S4), Hss as (T1 & T2 & T3 & T4). repeat split; congruence. }
  pose proof Hcs as (A & B & C & E). pose proof Hts as (A' & B' & C' & E').
  set (rows := fun s => for_ (col_maps g) (fun tm => for_ (o_height g) (fun oy =>
     if inside (col_iy g tm oy) (g_height g) then
       for_ (o_width g) (fun ox => [(offset c (Z.to_nat (col_ix g tm ox)) (Z.to_nat (col_iy g tm oy)) (col_imap g tm) s,
                                     Ok (col ox oy s tm))]) else []))).
  assert (Eops : col2im_ops g c target = for_ (g_samples g) rows).
  { unfold col2im_ops, rows. rewrite (col_width_ok g Hg), (col_height_ok g Hg), !Nat2Z.id.
    apply for_ext. intros s Hs. apply for_ext. intros tm Htm. apply for_ext. intros oy Hoy.
    destruct (inside (col_iy g tm oy) (g_height g)) eqn:Ey; [|reflexivity].
    apply for_ext. intros ox Hox. destruct (col2im_test g tm oy ox Hg Hsafe Htm Hox Ey) as [-> Hin].
    rewrite col_src_offset by auto. f_equal. f_equal. apply sample_elt_raw.
    rewrite <- offset_sample, (col_dst_offset g target) by auto.
    assert (Hv : valid_pos target ox oy s tm) by (unfold valid_pos; rewrite A', B', C', E'; auto).
    rewrite <- at_pos_raw by exact Hv. now apply Hcol. }
  rewrite Eops.
  destruct (run_with_pos (nadd K) c (for_ (g_samples g) rows) (fun x y m s => col_readers g col x y m s) Hwc)
    as (c' & Er & Hwc' & Hsc' & Hat).
  - intros a rv Ho. apply in_for in Ho as (s & Hs & Ho). apply in_for in Ho as (tm & Htm & Ho).
    apply in_for in Ho as (oy & Hoy & Ho). destruct (inside (col_iy g tm oy) (g_height g)) eqn:Ey; [|destruct Ho].
    apply in_for in Ho as (ox & Hox & [Eq|[]]). inversion Eq; subst; clear Eq. split; [|eauto].
    destruct Hwc as [Hel _]. rewrite Hel. apply offset_lt. destruct (col2im_test g tm oy ox Hg Hsafe Htm Hox Ey) as [_ Hin].
    apply inside_spec in Hin, Ey. destruct (decode_map _ _ _ _ Htm) as (_ & _ & Hm & _).
    unfold valid_pos, col_imap. rewrite A, B, C, E. lia.
  - intros x y m s (Hx & Hy & Hm & Hs). rewrite vals_at_for.
    assert (Hzero : forall s' tm oy ox, s' < g_samples g -> tm < col_maps g -> ox < o_width g -> inside (col_iy g tm oy) (g_height g) = true ->
      (offset c (Z.to_nat (col_ix g tm ox)) (Z.to_nat (col_iy g tm oy)) (col_imap g tm) s' =? offset c x y m s) =
      ((col_ix g tm ox =? Z.of_nat x) && (col_iy g tm oy =? Z.of_nat y))%Z && (col_imap g tm =? m) && (s' =? s)).
    { intros s' tm oy ox Hs' Htm Hox Ey. destruct (col2im_test g tm oy ox Hg Hsafe Htm Hox Ey) as [_ Hin].
      apply inside_spec in Hin, Ey. destruct (decode_map _ _ _ _ Htm) as (_ & _ & Hmm & _).
      apply eq_true_iff_eq. rewrite Nat.eqb_eq, !andb_true_iff, !Z.eqb_eq, !Nat.eqb_eq. split.
      - intros Eo. apply offset_inj in Eo.
        + lia.
        + unfold valid_pos, col_imap. rewrite A, B, C, E. lia.
        + unfold valid_pos. rewrite A, B, C, E. rewrite A, B, C, E in *. auto.
      - intros [[[E1 E2] E3] E4]. rewrite E1, E2, E3, E4, !Nat2Z.id. reflexivity. }
    rewrite A in Hs. rewrite (for_single _ _ s Hs).
    + unfold rows, col_readers. rewrite vals_at_for. apply for_ext. intros tm Htm. rewrite vals_at_for. apply for_ext.
      intros oy Hoy. destruct (inside (col_iy g tm oy) (g_height g)) eqn:Ey.
      * rewrite vals_at_for. apply for_ext. intros ox Hox. rewrite vals_at_one, Hzero, Nat.eqb_refl, andb_true_r by auto. reflexivity.
      * cbn. symmetry. apply for_nil. intros ox Hox. destruct (Z.eqb_spec (col_iy g tm oy) (Z.of_nat y)) as [Eq|]; [|now rewrite andb_false_r].
        exfalso. assert (inside (col_iy g tm oy) (g_height g) = true); [|congruence]. apply inside_spec. lia.
    + intros s' Hs' Hne. unfold rows. rewrite vals_at_for. apply for_nil. intros tm Htm. rewrite vals_at_for. apply for_nil.
      intros oy Hoy. destruct (inside (col_iy g tm oy) (g_height g)) eqn:Ey; [|reflexivity].
      rewrite vals_at_for. apply for_nil. intros ox Hox. rewrite vals_at_one, Hzero by auto.
      destruct (Nat.eqb_spec s' s); [contradiction|]. now rewrite andb_false_r.
  - exists c'. split; [exact Er|]. split; [exact Hwc'|]. split; [eapply same_shape_trans; eauto|].
    intros x y m s Hv. apply (same_shape_valid _ _ _ _ _ _ Hsc') in Hv. rewrite (Hat x y m s Hv), (Hcc x y m s Hv). reflexivity.
Qed.

End Im2col.

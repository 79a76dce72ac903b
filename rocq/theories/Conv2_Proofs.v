(** Proofs about the remaining tensor operations, and the exact-arithmetic laws. *)
From Coq Require Import Ring_theory Ring.
From Verif Require Import Base BaseFacts LoopFacts Tensor_Model Tensor_Spec Tensor_Proofs Num Math_Model Math_Spec Math_Proofs Conv_Proofs.

Section Simple.
Context {D : Type}.
Variable K : num D.

Lemma sms_spec (source target : tensor D) f : wf source -> wf target ->
  has_shape source (maps target) (width target) (height target) (samples target) -> contents source f ->
  exists target', sms source target = Ok target' /\ wf target' /\ same_shape target' target /\
    contents target' (fun x y m s => f x y s m).
Proof.
  intros Hws Hwt (A & B & C & E) Hf. unfold sms.
  assert (Hval : forall x y m s, valid_pos target x y m s ->
    (l <- buffer source ;; load l (offset source 0 0 s m + (y * width target + x))) = Ok (f x y s m)).
  { intros x y m s (Hx & Hy & Hm & Hs). assert (Hv : valid_pos source x y s m) by (unfold valid_pos; rewrite A, B, C, E; auto).
    assert (Eo : offset source 0 0 s m + (y * width target + x) = offset source x y s m) by (unfold offset; rewrite B; ring).
    rewrite Eo. exact (contents_get _ _ _ _ _ _ Hf Hv). }
  assert (Hto : forall x y m s, offset target 0 0 m s + (y * width target + x) = offset target x y m s)
    by (intros; unfold offset; ring).
  apply run_stores_fill; [exact Hwt| |].
  - intros a rv Ho. apply in_for in Ho as (s & Hs & Ho). apply in_for in Ho as (m & Hm & Ho).
    apply in_for in Ho as (e & He & [Eq|[]]). rewrite Nat.mul_comm in He.
    destruct (mix_surj _ _ _ He) as (y & x & Hy & Hx & ->). inversion Eq; subst; clear Eq.
    exists x, y, m, s. assert (Hv : valid_pos target x y m s) by (unfold valid_pos; auto).
    split; [exact Hv|]. split; [apply Hto|]. now apply Hval.
  - intros x y m s Hv. pose proof Hv as (Hx & Hy & Hm & Hs). apply in_for. exists s. split; [exact Hs|].
    apply in_for. exists m. split; [exact Hm|]. apply in_for. exists (y * width target + x).
    split; [rewrite (Nat.mul_comm (width target)); now apply mix_lt|]. left. f_equal; [apply Hto|now apply Hval].
Qed.

(** The values of a region, row by row. *)
Definition region (rw rh : nat) (f : nat -> nat -> nat -> nat -> D) (tx ty m s : nat) : list D :=
  for_ rh (fun ry => for_ rw (fun rx => [f (rw * tx + rx) (rh * ty + ry) m s])).

Lemma foldm_add_list {A} (step : D -> A -> res D) (val : A -> D) l :
  (forall s a, In a l -> step s a = Ok (nadd K s (val a))) ->
  forall s0, foldm step l s0 = Ok (fold_left (nadd K) (map val l) s0).
Proof.
  induction l as [|x l IH]; intros H s0; [reflexivity|]. cbn [foldm map fold_left]. rewrite H by now left. cbn [bind].
  apply IH. intros s a Ha. apply H. now right.
Qed.

Lemma map_flat_map {A B C} (f : B -> C) (g : A -> list B) l : map f (flat_map g l) = flat_map (fun x => map f (g x)) l.
Proof. induction l as [|x l IH]; [reflexivity|]. cbn. now rewrite map_app, IH. Qed.

Lemma map_for {B C} (f : B -> C) n (g : nat -> list B) : map f (for_ n g) = for_ n (fun i => map f (g i)).
Proof. apply map_flat_map. Qed.

Lemma region_in rw rh w h x y rx ry : x < w -> y < h -> rx < rw -> ry < rh -> rw * x + rx < rw * w /\ rh * y + ry < rh * h.
Proof. intros. nia. Qed.

Lemma down_spec (source target : tensor D) rw rh factor f : wf source -> wf target ->
  has_shape source (samples target) (rw * width target) (rh * height target) (maps target) -> contents source f ->
  exists target', down K source target rw rh factor = Ok target' /\ wf target' /\ same_shape target' target /\
    contents target' (fun x y m s => nmul K (fold_left (nadd K) (region rw rh f x y m s) (n0 K)) factor).
Proof.
  intros Hws Hwt (A & B & C & E) Hf. unfold down.
  assert (Hval : forall x y m s, valid_pos target x y m s ->
    (v <- down_sum K source rw rh x y m s ;; Ok (nmul K v factor)) = Ok (nmul K (fold_left (nadd K) (region rw rh f x y m s) (n0 K)) factor)).
  { intros x y m s (Hx & Hy & Hm & Hs). unfold down_sum.
    rewrite (foldm_add_list _ (fun r => f (rw * x + snd r) (rh * y + fst r) m s)).
    - cbn [bind]. rewrite map_for. unfold region. f_equal. f_equal. f_equal. apply for_ext. intros ry _. now rewrite map_for.
    - intros v [ry rx] Hin. apply in_for in Hin as (ry' & Hry & Hin). apply in_for in Hin as (rx' & Hrx & [Eq|[]]).
      inversion Eq; subst; clear Eq. cbn [fst snd]. destruct (region_in rw rh _ _ x y rx ry Hx Hy Hrx Hry) as [H1 H2].
      rewrite (contents_get source f); [reflexivity|exact Hf|]. unfold valid_pos. rewrite A, B, C, E. auto. }
  apply run_stores_fill; [exact Hwt| |].
  - intros a rv Ho. apply in_for in Ho as (s & Hs & Ho). apply in_for in Ho as (m & Hm & Ho).
    apply in_for in Ho as (y & Hy & Ho). apply in_for in Ho as (x & Hx & [Eq|[]]). inversion Eq; subst; clear Eq.
    exists x, y, m, s. assert (Hv : valid_pos target x y m s) by (unfold valid_pos; auto). auto.
  - intros x y m s Hv. pose proof Hv as (Hx & Hy & Hm & Hs). apply in_for. exists s. split; [exact Hs|].
    apply in_for. exists m. split; [exact Hm|]. apply in_for. exists y. split; [exact Hy|].
    apply in_for. exists x. split; [exact Hx|]. left. f_equal. now apply Hval.
Qed.

Lemma up_spec (source target : tensor D) rw rh factor f : wf source -> wf target ->
  has_shape target (samples source) (rw * width source) (rh * height source) (maps source) -> contents source f ->
  exists target', up K source target rw rh factor = Ok target' /\ wf target' /\ same_shape target' target /\
    contents target' (fun x y m s => nmul K (f (x / rw) (y / rh) m s) factor).
Proof.
  intros Hws Hwt (A & B & C & E) Hf. unfold up.
  assert (Hval : forall x y m s, valid_pos source x y m s ->
    (v <- get source x y m s ;; Ok (nmul K v factor)) = Ok (nmul K (f x y m s) factor)).
  { intros x y m s Hv. rewrite (contents_get _ _ _ _ _ _ Hf Hv). reflexivity. }
  assert (Hdiv : forall r x i, i < r -> (r * x + i) / r = x).
  { intros r x i Hi. rewrite Nat.mul_comm, Nat.div_add_l, Nat.div_small by lia. lia. }
  apply run_stores_fill; [exact Hwt| |].
  - intros a rv Ho. apply in_for in Ho as (s & Hs & Ho). apply in_for in Ho as (m & Hm & Ho).
    apply in_for in Ho as (y & Hy & Ho). apply in_for in Ho as (x & Hx & Ho). apply in_for in Ho as (ry & Hry & Ho).
    apply in_for in Ho as (rx & Hrx & [Eq|[]]). inversion Eq; subst; clear Eq.
    exists (rw * x + rx), (rh * y + ry), m, s. destruct (region_in rw rh _ _ x y rx ry Hx Hy Hrx Hry) as [H1 H2].
    split; [unfold valid_pos; rewrite A, B, C, E; auto|]. split; [reflexivity|].
    rewrite !Hdiv by auto. apply Hval. unfold valid_pos; auto.
  - intros x y m s (Hx & Hy & Hm & Hs). rewrite A, B, C, E in *.
    assert (rw <> 0) by (intros ->; lia). assert (rh <> 0) by (intros ->; lia).
    assert (Hx' : x / rw < width source) by (apply Nat.div_lt_upper_bound; auto).
    assert (Hy' : y / rh < height source) by (apply Nat.div_lt_upper_bound; auto).
    apply in_for. exists s. split; [exact Hs|]. apply in_for. exists m. split; [exact Hm|].
    apply in_for. exists (y / rh). split; [exact Hy'|]. apply in_for. exists (x / rw). split; [exact Hx'|].
    apply in_for. exists (y mod rh). split; [now apply Nat.mod_upper_bound|].
    apply in_for. exists (x mod rw). split; [now apply Nat.mod_upper_bound|].
    left. rewrite <- !Nat.div_mod by auto. f_equal. apply Hval. unfold valid_pos; auto.
Qed.
End Simple.

Section Exact.
Context {D : Type}.
Variable K : num D.
Hypothesis HK : ring_laws K.
Add Ring DRing2 : (rl_ring K HK).
Notation "x +! y" := (nadd K x y) (at level 50, left associativity).
Notation "x *! y" := (nmul K x y) (at level 40, left associativity).

Lemma region_sum rw rh f x y m s :
  fold_left (nadd K) (region rw rh f x y m s) (n0 K) =
  nsum K rh (fun ry => nsum K rw (fun rx => f (rw * x + rx) (rh * y + ry) m s)).
Proof using HK.
  unfold region. change (fold_left (nadd K) ?l (n0 K)) with (lsum K l). rewrite (lsum_for K HK).
  apply nsum_ext. intros ry _. rewrite (lsum_for K HK). apply nsum_ext. intros rx _. apply (lsum_one K HK).
Qed.

(** A sum over an upscaled axis, grouped by regions. *)
Lemma nsum_regions n r f : nsum K (r * n) f = nsum K n (fun i => nsum K r (fun j => f (r * i + j))).
Proof using HK.
  rewrite Nat.mul_comm, (nsum_mix K HK). apply nsum_ext. intros i _. apply nsum_ext. intros j _. f_equal. lia.
Qed.

Lemma up_down_adjoint ss w h mm rw rh factor f g : 0 < rw -> 0 < rh ->
  dot K ss (rw * w) (rh * h) mm (fun x y m s => f (x / rw) (y / rh) m s *! factor) g =
  dot K ss w h mm f (fun x y m s => nsum K rh (fun ry => nsum K rw (fun rx => g (rw * x + rx) (rh * y + ry) m s)) *! factor).
Proof using HK.
  intros Hrw Hrh. unfold dot, tensor_sum. apply nsum_ext. intros s _. apply nsum_ext. intros m _.
  rewrite nsum_regions. apply nsum_ext. intros y _.
  transitivity (nsum K rh (fun ry => nsum K w (fun x => nsum K rw (fun rx => f x y m s *! factor *! g (rw * x + rx) (rh * y + ry) m s)))).
  - apply nsum_ext. intros ry Hry. rewrite nsum_regions. apply nsum_ext. intros x _. apply nsum_ext. intros rx Hrx.
    rewrite !(Nat.mul_comm _ x), !(Nat.mul_comm _ y), !Nat.div_add_l, !Nat.div_small, !Nat.add_0_r by lia. reflexivity.
  - rewrite (nsum_swap K HK). apply nsum_ext. intros x _.
    transitivity (f x y m s *! factor *! nsum K rh (fun ry => nsum K rw (fun rx => g (rw * x + rx) (rh * y + ry) m s))); [|ring].
    rewrite <- (nsum_mul_l K HK). apply nsum_ext. intros ry _. now rewrite <- (nsum_mul_l K HK).
Qed.

Lemma region_const rw rh (f : nat -> nat -> nat -> nat -> D) x y m s u c : 0 < rw -> 0 < rh ->
  nsum K rh (fun ry => nsum K rw (fun rx => f ((rw * x + rx) / rw) ((rh * y + ry) / rh) m s *! u)) *! c =
  f x y m s *! (nsum K (rh * rw) (fun _ => n1 K) *! u *! c).
Proof using HK.
  intros Hw Hh. rewrite (nsum_mix K HK).
  transitivity (nsum K rh (fun _ => nsum K rw (fun _ => n1 K) *! (f x y m s *! u)) *! c).
  - f_equal. apply nsum_ext. intros ry Hry. rewrite <- (nsum_const K HK). apply nsum_ext. intros rx Hrx.
    rewrite !(Nat.mul_comm _ x), !(Nat.mul_comm _ y), !Nat.div_add_l, !Nat.div_small, !Nat.add_0_r by lia. reflexivity.
  - rewrite (nsum_mul_r K HK). ring.
Qed.

(** ** COL2IM as nested sums *)

Lemma readers_sum g col x y m s :
  fold_left (nadd K) (col_readers g col x y m s) (n0 K) =
  nsum K (col_maps g) (fun tm => nsum K (o_height g) (fun oy => nsum K (o_width g) (fun ox =>
    if ((col_ix g tm ox =? Z.of_nat x) && (col_iy g tm oy =? Z.of_nat y))%Z && (col_imap g tm =? m)
    then col ox oy s tm else n0 K))).
Proof using HK.
  unfold col_readers. change (fold_left (nadd K) ?l (n0 K)) with (lsum K l). rewrite (lsum_for K HK).
  apply nsum_ext. intros tm _. rewrite (lsum_for K HK). apply nsum_ext. intros oy _. rewrite (lsum_for K HK).
  apply nsum_ext. intros ox _. destruct (((col_ix g tm ox =? Z.of_nat x) && (col_iy g tm oy =? Z.of_nat y))%Z && (col_imap g tm =? m)).
  - apply (lsum_one K HK).
  - reflexivity.
Qed.

(** Grouping the column maps by input map, kernel row and kernel column. *)
Lemma nsum_col_maps g f : nsum K (col_maps g) f =
  nsum K (g_maps g) (fun m => nsum K (g_kh g) (fun ky => nsum K (g_kw g) (fun kx => f ((m * g_kh g + ky) * g_kw g + kx)))).
Proof using HK.
  unfold col_maps. replace (g_kw g * g_kh g * g_maps g) with (g_maps g * g_kh g * g_kw g) by ring.
  rewrite (nsum_mix K HK (g_maps g * g_kh g) (g_kw g)), (nsum_mix K HK (g_maps g) (g_kh g)). reflexivity.
Qed.

Lemma readers_gradient g col x y m s : m < g_maps g ->
  fold_left (nadd K) (col_readers g col x y m s) (n0 K) = col_gradient K g col x y m s.
Proof using HK.
  intros Hm. rewrite readers_sum, nsum_col_maps, (nsum_single K HK _ m _ Hm).
  - unfold col_gradient. apply nsum_ext. intros ky Hky. apply nsum_ext. intros kx Hkx. apply nsum_ext. intros oy _.
    apply nsum_ext. intros ox _. destruct (encode_map (g_kw g) (g_kh g) m ky kx Hkx Hky) as (E1 & E2 & E3).
    unfold col_ix, col_iy, col_kx, col_ky, col_imap. rewrite E1, E2, E3, Nat.eqb_refl, andb_true_r.
    replace (Z.of_nat (ox * g_sw g) - Z.of_nat (g_pw g) + Z.of_nat kx =? Z.of_nat x)%Z with (ox * g_sw g + kx =? x + g_pw g)
      by (apply eq_true_iff_eq; rewrite Nat.eqb_eq, Z.eqb_eq; lia).
    replace (Z.of_nat (oy * g_sh g) - Z.of_nat (g_ph g) + Z.of_nat ky =? Z.of_nat y)%Z with (oy * g_sh g + ky =? y + g_ph g)
      by (apply eq_true_iff_eq; rewrite Nat.eqb_eq, Z.eqb_eq; lia).
    reflexivity.
  - intros m' Hm' Hne. apply (nsum_zero_ext K HK). intros ky Hky. apply (nsum_zero_ext K HK). intros kx Hkx.
    apply (nsum_zero_ext K HK). intros oy _. apply (nsum_zero_ext K HK). intros ox _.
    destruct (encode_map (g_kw g) (g_kh g) m' ky kx Hkx Hky) as (E1 & E2 & E3).
    unfold col_imap. rewrite E3. destruct (Nat.eqb_spec m' m); [contradiction|]. now rewrite andb_false_r.
Qed.

(** Picking one pixel of the image. *)
Lemma pick_pixel g img (tm ox oy s : nat) c : tm < col_maps g ->
  nsum K (g_maps g) (fun m => nsum K (g_height g) (fun y => nsum K (g_width g) (fun x =>
    img x y m s *! (if ((col_ix g tm ox =? Z.of_nat x) && (col_iy g tm oy =? Z.of_nat y))%Z && (col_imap g tm =? m) then c else n0 K)))) =
  c *! col_value K g img ox oy s tm.
Proof using HK.
  intros Htm. destruct (decode_map _ _ _ _ Htm) as (_ & _ & Hm & _). fold (col_imap g tm) in Hm.
  unfold col_value, padded.
  destruct ((0 <=? col_ix g tm ox) && (col_ix g tm ox <? Z.of_nat (g_width g)) && (0 <=? col_iy g tm oy) &&
      (col_iy g tm oy <? Z.of_nat (g_height g)))%Z eqn:Ec.
  - rewrite !andb_true_iff, !Z.leb_le, !Z.ltb_lt in Ec.
    rewrite (nsum_single K HK _ (col_imap g tm) _ Hm).
    + rewrite (nsum_single K HK _ (Z.to_nat (col_iy g tm oy))) by lia || (intros y Hy Hne; apply (nsum_zero_ext K HK); intros x Hx;
        destruct (Z.eqb_spec (col_iy g tm oy) (Z.of_nat y)); [lia|rewrite andb_false_r; cbn [andb]; ring]).
      rewrite (nsum_single K HK _ (Z.to_nat (col_ix g tm ox))) by lia || (intros x Hx Hne;
        destruct (Z.eqb_spec (col_ix g tm ox) (Z.of_nat x)); [lia|cbn [andb]; ring]).
      rewrite !Z2Nat.id, !Z.eqb_refl, Nat.eqb_refl by lia. cbn [andb]. ring.
    + intros m Hm' Hne. apply (nsum_zero_ext K HK); intros y Hy. apply (nsum_zero_ext K HK); intros x Hx.
      destruct (Nat.eqb_spec (col_imap g tm) m); [congruence|]. rewrite andb_false_r. ring.
  - transitivity (n0 K); [|ring].
    apply (nsum_zero_ext K HK); intros m Hm'. apply (nsum_zero_ext K HK); intros y Hy. apply (nsum_zero_ext K HK); intros x Hx.
    destruct (((col_ix g tm ox =? Z.of_nat x) && (col_iy g tm oy =? Z.of_nat y))%Z && (col_imap g tm =? m)) eqn:E; [|ring].
    exfalso. rewrite !andb_true_iff, !Z.eqb_eq in E.
    assert (H : ((0 <=? col_ix g tm ox) && (col_ix g tm ox <? Z.of_nat (g_width g)) && (0 <=? col_iy g tm oy) &&
      (col_iy g tm oy <? Z.of_nat (g_height g)))%Z = true) by (rewrite !andb_true_iff, !Z.leb_le, !Z.ltb_lt; lia).
    congruence.
Qed.

Lemma nsum_swap_out n a b c (f : nat -> nat -> nat -> nat -> D) :
  nsum K n (fun i => nsum K a (fun j => nsum K b (fun k => nsum K c (fun l => f i j k l)))) =
  nsum K a (fun j => nsum K b (fun k => nsum K c (fun l => nsum K n (fun i => f i j k l)))).
Proof using HK.
  rewrite (nsum_swap K HK). apply nsum_ext. intros j _. rewrite (nsum_swap K HK). apply nsum_ext. intros k _.
  now rewrite (nsum_swap K HK).
Qed.

Lemma col_adjoint g img col :
  dot K (col_maps g) (o_width g) (o_height g) (g_samples g) col (col_value K g img) =
  dot K (g_samples g) (g_width g) (g_height g) (g_maps g) img
      (fun x y m s => fold_left (nadd K) (col_readers g col x y m s) (n0 K)).
Proof using HK.
  unfold dot, tensor_sum. rewrite (nsum_swap K HK). apply nsum_ext. intros s _. symmetry.
  transitivity (nsum K (g_maps g) (fun m => nsum K (g_height g) (fun y => nsum K (g_width g) (fun x =>
    nsum K (col_maps g) (fun tm => nsum K (o_height g) (fun oy => nsum K (o_width g) (fun ox =>
      img x y m s *! (if ((col_ix g tm ox =? Z.of_nat x) && (col_iy g tm oy =? Z.of_nat y))%Z && (col_imap g tm =? m)
                      then col ox oy s tm else n0 K)))))))).
  { apply nsum_ext; intros m _. apply nsum_ext; intros y _. apply nsum_ext; intros x _. rewrite readers_sum, <- (nsum_mul_l K HK).
    apply nsum_ext; intros tm _. rewrite <- (nsum_mul_l K HK). apply nsum_ext; intros oy _. now rewrite <- (nsum_mul_l K HK). }
  rewrite <- nsum_swap_out. apply nsum_ext; intros tm Htm. rewrite <- nsum_swap_out. apply nsum_ext; intros oy _.
  rewrite <- nsum_swap_out. apply nsum_ext; intros ox _. now apply pick_pixel.
Qed.
End Exact.

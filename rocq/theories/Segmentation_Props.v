(** C53: cutting images into patches. *)
From Verif Require Import Base BaseFacts LoopFacts Float32 FloatOps Num Tensor_Model Tensor_Spec Tensor_Proofs Math_Model Math_Spec Math_Proofs DatasetInput_Proofs Segmentation_Model.
Local Open Scope nat_scope.

(** Position [p] of a row of [size] pixels, mirrored at the borders: the left border is the middle of
    pixel 0, the right border lies behind pixel size - 1. *)
Definition mirrored (size p q : Z) : Prop :=
  (0 <= q < size)%Z /\
  ((0 <= p < size)%Z /\ q = p \/ (p < 0)%Z /\ q = (- p)%Z \/ (size <= p)%Z /\ q = (2 * size - 1 - p)%Z).

Lemma mirror_mirrored size p : (- size < p <= 2 * size - 1)%Z -> mirrored size p (mirror size p).
Proof.
  intros Hp. unfold mirrored, mirror. destruct (Z.ltb_spec p 0); destruct (Z.leb_spec size (-p)); destruct (Z.leb_spec size p); lia.
Qed.
Lemma mirror_inside size p : (- (2 * size - 1) <= p <= 2 * size - 1)%Z -> (0 <= mirror size p < size)%Z.
Proof.
  intros Hp. unfold mirror. destruct (Z.ltb_spec p 0); destruct (Z.leb_spec size (-p)); destruct (Z.leb_spec size p); lia.
Qed.

Lemma get_int_ok t f x y m s : wf t -> contents t f -> (Z.of_nat (elements t) < 2 ^ 64)%Z -> m < maps t -> s < samples t ->
  (0 <= x < Z.of_nat (width t))%Z -> (0 <= y < Z.of_nat (height t))%Z -> get_int t x y m s = Ok (f (Z.to_nat x) (Z.to_nat y) m s).
Proof.
  intros Wt C He Hm Hs Hx Hy. assert (V : valid_pos t (Z.to_nat x) (Z.to_nat y) m s) by (unfold valid_pos; lia).
  pose proof (contents_get t f _ _ _ _ C V) as G. unfold get in G. unfold get_int. destruct (buffer t) as [l| |] eqn:Eb; try discriminate. cbn [bind] in G |- *.
  assert (El : length l = elements t) by (destruct Wt as [_ W]; unfold buffer in Eb; destruct (data t); [injection Eb as <-; tauto|discriminate]).
  pose proof (offset_lt t _ _ _ _ V) as Hlt. rewrite <- (proj1 Wt) in Hlt.
  assert (Ea : (Z.of_nat (offset t 0 0 m s) + y * Z.of_nat (width t) + x = Z.of_nat (offset t (Z.to_nat x) (Z.to_nat y) m s))%Z).
  { unfold offset. rewrite !Nat2Z.inj_add, !Nat2Z.inj_mul, !Z2Nat.id by lia. lia. }
  rewrite Ea, Z.mod_small by lia. rewrite Nat2Z.id, (proj2 (Z.ltb_lt _ _)) by lia. exact G.
Qed.

Lemma half_up (n : nat) : (0 <= Z.of_nat n / 2)%Z /\ (2 * (Z.of_nat n / 2) <= Z.of_nat n < 2 * (Z.of_nat n / 2) + 2)%Z.
Proof. pose proof (Z.div_mod (Z.of_nat n) 2). pose proof (Z.mod_pos_bound (Z.of_nat n) 2). split; [apply Z.div_pos; lia|lia]. Qed.

Lemma pixel_index w h e : e < w * h -> e mod w < w /\ e / w < h /\ e = w * (e / w) + e mod w.
Proof.
  intros He. assert (w <> 0) by nia. split; [now apply Nat.mod_upper_bound|]. split; [apply Nat.div_lt_upper_bound; lia|now apply Nat.div_mod].
Qed.
Lemma pixel_index_unique w px py : px < w -> (w * py + px) mod w = px /\ (w * py + px) / w = py.
Proof.
  intros Hp. split.
  - rewrite Nat.add_comm, Nat.mul_comm, Nat.mod_add by lia. now apply Nat.mod_small.
  - rewrite Nat.add_comm, Nat.mul_comm, Nat.div_add by lia. rewrite Nat.div_small by lia. lia.
Qed.

(** The element of the source that belongs to an offset in the patch of a pixel. *)
Definition patch_value (img : nat -> nat -> nat -> nat -> f32) (w h pw ph sample ipx ipy m element : nat) : f32 :=
  img (Z.to_nat (mirror (Z.of_nat w) (Z.of_nat (element mod w) + Z.of_nat ipx - Z.of_nat pw / 2)))
      (Z.to_nat (mirror (Z.of_nat h) (Z.of_nat (element / w) + Z.of_nat ipy - Z.of_nat ph / 2))) m sample.

Section Patches.
Variable junk : nat -> f32.

Lemma patches_spec pw ph (target source : tensor f32) img sample :
  wf target -> wf source -> contents source img -> sample < samples source -> (Z.of_nat (elements source) < 2 ^ 64)%Z ->
  0 < pw <= 2 * width source + 1 -> 0 < ph <= 2 * height source + 1 ->
  exists t', run_stores (resize junk target (width source * height source) pw ph (maps source))
      (patch_stores pw ph (resize junk target (width source * height source) pw ph (maps source)) source sample) = Ok t' /\
    wf t' /\ has_shape t' (width source * height source) pw ph (maps source) /\
    contents t' (patch_value img (width source) (height source) pw ph sample).
Proof.
  intros Wt Ws C Hs He Hpw Hph.
  assert (Hpos : 0 < width source /\ 0 < height source /\ 0 < maps source).
  { destruct Ws as [E W]. destruct (data source); [|lia]. destruct (width source), (height source), (maps source); lia. }
  set (t1 := resize junk target _ _ _ _). assert (W1 : wf t1) by (now apply wf_resize).
  destruct (resize_data junk target (width source * height source) pw ph (maps source)) as (S1 & S2 & S3 & S4 & _); [nia|]. fold t1 in S1, S2, S3, S4.
  assert (Val : forall px py ipy ipx m, px < width source -> py < height source -> ipy < ph -> ipx < pw -> m < maps source ->
     get_int source (mirror (Z.of_nat (width source)) (Z.of_nat px + Z.of_nat ipx - Z.of_nat pw / 2)) (mirror (Z.of_nat (height source)) (Z.of_nat py + Z.of_nat ipy - Z.of_nat ph / 2)) m sample =
     Ok (patch_value img (width source) (height source) pw ph sample ipx ipy m (width source * py + px))).
  { intros px py ipy ipx m Hx Hy Hiy Hix Hm. unfold patch_value. destruct (pixel_index_unique (width source) px py Hx) as [-> ->].
    pose proof (half_up pw). pose proof (half_up ph).
    apply (get_int_ok source img); auto; apply mirror_inside; lia. }
  destruct (run_stores_fill t1 (patch_stores pw ph t1 source sample) (patch_value img (width source) (height source) pw ph sample) W1) as (t' & E & W' & Sh & Ct).
  - intros a rv Hi. unfold patch_stores in Hi. apply in_for in Hi. destruct Hi as (px & Hx & Hi). apply in_for in Hi. destruct Hi as (py & Hy & Hi).
    apply in_for in Hi. destruct Hi as (ipy & Hiy & Hi). apply in_for in Hi. destruct Hi as (ipx & Hix & Hi). apply in_for in Hi. destruct Hi as (m & Hm & [[= <- <-]|[]]).
    exists ipx, ipy, m, (width source * py + px). split; [unfold valid_pos; nia|]. split; [reflexivity|]. apply Val; lia.
  - intros ipx ipy m s (H1 & H2 & H3 & H4). rewrite S1, S2, S3, S4 in *. destruct (pixel_index (width source) (height source) s H4) as (Hx & Hy & Es).
    unfold patch_stores. apply in_for. exists (s mod width source). split; [lia|]. apply in_for. exists (s / width source). split; [lia|].
    apply in_for. exists ipy. split; [lia|]. apply in_for. exists ipx. split; [lia|]. apply in_for. exists m. split; [lia|]. left. rewrite Val by lia. now rewrite <- Es.
  - exists t'. split; [exact E|]. split; [exact W'|]. split; [|exact Ct]. destruct Sh as (A1 & A2 & A3 & A4). unfold has_shape. rewrite A1, A2, A3, A4. auto.
Qed.

Lemma helper_spec pw ph (helper source : tensor f32) : wf helper -> 0 < width source * height source ->
  exists t', run_stores (resize junk helper (width source * height source) 2 1 1) (helper_stores pw ph source) = Ok t' /\
    wf t' /\ has_shape t' (width source * height source) 2 1 1 /\
    contents t' (fun x _ _ s => if x =? 0 then place (height source) ph (s / width source) else place (width source) pw (s mod width source)).
Proof.
  intros Wh Hpos. set (t1 := resize junk helper _ _ _ _). assert (W1 : wf t1) by (now apply wf_resize).
  destruct (resize_data junk helper (width source * height source) 2 1 1) as (S1 & S2 & S3 & S4 & _); [lia|]. fold t1 in S1, S2, S3, S4.
  assert (Off : forall x s, offset t1 x 0 0 s = 2 * s + x) by (intros x s; unfold offset; rewrite S2, S3, S4; lia).
  destruct (run_stores_fill t1 (helper_stores pw ph source)
    (fun x _ _ s => if x =? 0 then place (height source) ph (s / width source) else place (width source) pw (s mod width source)) W1) as (t' & E & W' & Sh & Ct).
  - intros a rv Hi. unfold helper_stores in Hi. apply in_for in Hi. destruct Hi as (px & Hx & Hi). apply in_for in Hi. destruct Hi as (py & Hy & Hi). cbn zeta in Hi.
    destruct (pixel_index_unique (width source) px py) as [E1 E2]; [lia|].
    destruct Hi as [[= <- <-]|[[= <- <-]|[]]].
    + exists 0, 0, 0, (width source * py + px). rewrite Off, E2. split; [unfold valid_pos; nia|]. split; [lia|reflexivity].
    + exists 1, 0, 0, (width source * py + px). rewrite Off, E1. split; [unfold valid_pos; nia|]. split; [lia|reflexivity].
  - intros x y m s (H1 & H2 & H3 & H4). rewrite S1, S2, S3, S4 in *. assert (y = 0) by lia. assert (m = 0) by lia. subst. rewrite Off.
    destruct (pixel_index (width source) (height source) s H4) as (Hx & Hy & Es).
    unfold helper_stores. apply in_for. exists (s mod width source). split; [lia|]. apply in_for. exists (s / width source). split; [lia|]. cbn zeta. rewrite <- Es.
    destruct x as [|[|]]; [left|right; left|lia]; cbn [Nat.eqb]; [f_equal; lia|reflexivity].
  - exists t'. split; [exact E|]. split; [exact W'|]. split; [|exact Ct]. destruct Sh as (A1 & A2 & A3 & A4). unfold has_shape. rewrite A1, A2, A3, A4. auto.
Qed.

(** Every patch element is the pixel at that offset from the centre of the patch, mirrored at the border. *)
Theorem C53_patches : forall pw ph (target helper source : tensor f32) img sample,
  wf target -> wf helper -> wf source -> contents source img -> sample < samples source -> (Z.of_nat (elements source) < 2 ^ 64)%Z ->
  0 < pw < 2 * width source -> 0 < ph < 2 * height source ->
  exists target' helper', extract_patches junk pw ph target helper source sample false = Ok (target', helper') /\
    wf target' /\ has_shape target' (width source * height source) pw ph (maps source) /\
    has_shape helper' (width source * height source) 2 1 1 /\
    forall px py ipx ipy m, px < width source -> py < height source -> ipx < pw -> ipy < ph -> m < maps source ->
      exists qx qy,
        mirrored (Z.of_nat (width source)) (Z.of_nat px + (Z.of_nat ipx - Z.of_nat pw / 2)) (Z.of_nat qx) /\
        mirrored (Z.of_nat (height source)) (Z.of_nat py + (Z.of_nat ipy - Z.of_nat ph / 2)) (Z.of_nat qy) /\
        at_pos target' ipx ipy m (width source * py + px) = Some (img qx qy m sample) /\
        at_pos helper' 0 0 0 (width source * py + px) = Some (place (height source) ph py) /\
        at_pos helper' 1 0 0 (width source * py + px) = Some (place (width source) pw px).
Proof.
  intros pw ph target helper source img sample Wt Wh Ws C Hs He Hpw Hph.
  assert (Hpos : 0 < width source * height source).
  { destruct Ws as [E W]. destruct (data source); [|lia]. destruct (width source), (height source), (maps source); lia. }
  destruct (patches_spec pw ph target source img sample Wt Ws C Hs He) as (t' & E & W' & Sh & Ct); [lia|lia|].
  destruct (helper_spec pw ph helper source Wh Hpos) as (h' & Eh & Wh' & Shh & Ch).
  exists t', h'. unfold extract_patches. cbn zeta. rewrite E. cbn [bind]. rewrite Eh. cbn [bind]. split; [reflexivity|]. split; [exact W'|]. split; [exact Sh|]. split; [exact Shh|].
  intros px py ipx ipy m Hx Hy Hix Hiy Hm. pose proof (half_up pw). pose proof (half_up ph).
  assert (Mx : mirrored (Z.of_nat (width source)) (Z.of_nat px + Z.of_nat ipx - Z.of_nat pw / 2) (mirror (Z.of_nat (width source)) (Z.of_nat px + Z.of_nat ipx - Z.of_nat pw / 2))) by (apply mirror_mirrored; lia).
  assert (My : mirrored (Z.of_nat (height source)) (Z.of_nat py + Z.of_nat ipy - Z.of_nat ph / 2) (mirror (Z.of_nat (height source)) (Z.of_nat py + Z.of_nat ipy - Z.of_nat ph / 2))) by (apply mirror_mirrored; lia).
  eexists (Z.to_nat _), (Z.to_nat _). rewrite !Z.add_sub_assoc. split; [rewrite Z2Nat.id; [exact Mx|destruct Mx; lia]|]. split; [rewrite Z2Nat.id; [exact My|destruct My; lia]|].
  destruct Sh as (A1 & A2 & A3 & A4). destruct Shh as (B1 & B2 & B3 & B4). destruct (pixel_index_unique (width source) px py Hx) as [E1 E2].
  rewrite Ct by (unfold valid_pos; nia). rewrite !Ch by (unfold valid_pos; nia). cbn [Nat.eqb]. unfold patch_value. rewrite E1, E2. auto.
Qed.

(** With the mean subtracted: every element of the patch minus the float mean of the patch, added up in
    memory order. *)
Definition patch_mean (v : nat -> nat -> nat -> f32) (pw ph maps : nat) : f32 :=
  fdiv (nsum f32_num (pw * ph * maps) (fun e => v (e mod pw) ((e / pw) mod ph) (e / (pw * ph)))) (f_of_Z (Z.of_nat (pw * ph * maps))).

Lemma raw_position (t : tensor f32) v s e : wf t -> contents t v -> s < samples t -> e < width t * height t * maps t ->
  raw t (s * (width t * height t * maps t) + e) = Some (v (e mod width t) ((e / width t) mod height t) (e / (width t * height t)) s) /\
  offset t (e mod width t) ((e / width t) mod height t) (e / (width t * height t)) s = s * (width t * height t * maps t) + e.
Proof.
  intros Wt C Hs He. assert (width t <> 0) by nia. assert (height t <> 0) by nia.
  assert (V : valid_pos t (e mod width t) ((e / width t) mod height t) (e / (width t * height t)) s).
  { repeat split; auto using Nat.mod_upper_bound. apply Nat.div_lt_upper_bound; nia. }
  assert (Eo : offset t (e mod width t) ((e / width t) mod height t) (e / (width t * height t)) s = s * (width t * height t * maps t) + e).
  { rewrite offset_mix, <- Nat.div_div by auto. pose proof (Nat.div_mod e (width t) ltac:(assumption)) as D1. pose proof (Nat.div_mod (e / width t) (height t) ltac:(assumption)) as D2.
    transitivity (s * (width t * height t * maps t) + (width t * (height t * (e / width t / height t) + (e / width t) mod height t) + e mod width t)); [ring|].
    rewrite <- D2, <- D1. reflexivity. }
  split; [|exact Eo]. rewrite <- Eo, <- at_pos_raw by exact V. now apply C.
Qed.

Lemma subtract_spec (t : tensor f32) v s : wf t -> contents t v -> s < samples t ->
  exists t', subtract_mean (width t * height t * maps t) t s = Ok t' /\ wf t' /\ same_shape t' t /\
    contents t' (fun x y m s' => if s' =? s then fsub (v x y m s') (patch_mean (fun x y m => v x y m s) (width t) (height t) (maps t)) else v x y m s').
Proof.
  intros Wt C Hs. unfold subtract_mean. set (eps := width t * height t * maps t).
  assert (Hl : forall e, e < eps -> (l <- buffer t ;; load l (s * eps + e)) = Ok (v (e mod width t) ((e / width t) mod height t) (e / (width t * height t)) s)).
  { intros e He. destruct (raw_position t v s e Wt C Hs He) as [R _]. unfold raw in R. unfold buffer. destruct (data t) as [l|]; [|discriminate]. cbn [bind]. now apply load_ok. }
  pose proof (foldm_nsum f32_num eps (fun sum e => v0 <- (l <- buffer t ;; load l (s * eps + e)) ;; Ok (fadd sum v0)) (fun e => v (e mod width t) ((e / width t) mod height t) (e / (width t * height t)) s)) as Fs.
  change (n0 f32_num) with f32_zero in Fs. rewrite Fs; clear Fs; [|intros sm i Hi; rewrite Hl by exact Hi; reflexivity]. cbn [bind].
  fold (patch_mean (fun x y m => v x y m s) (width t) (height t) (maps t)).
  change (fdiv (nsum f32_num eps (fun e => v (e mod width t) ((e / width t) mod height t) (e / (width t * height t)) s)) (f_of_Z (Z.of_nat eps)))
    with (patch_mean (fun x y m => v x y m s) (width t) (height t) (maps t)). set (mean := patch_mean _ _ _ _).
  destruct (run_with_raw fsub t (for_ eps (fun e => [(s * eps + e, Ok mean)])) Wt) as (t' & E & W' & Sh & Ee & R).
  { intros a rv Hi. apply in_for in Hi. destruct Hi as (e & He & [[= <- <-]|[]]). split; [|eauto]. rewrite (elements_dims t Wt). replace (maps t * width t * height t) with eps by (unfold eps; ring). nia. }
  exists t'. split; [exact E|]. split; [exact W'|]. split; [exact Sh|]. intros x y m s' Hv. assert (V : valid_pos t x y m s') by (now apply (same_shape_valid _ _ _ _ _ _ Sh)).
  rewrite at_pos_raw by exact Hv. rewrite R. destruct Sh as (A1 & A2 & A3 & A4). assert (Eo : offset t' x y m s' = offset t x y m s') by (unfold offset; now rewrite A2, A3, A4). rewrite Eo.
  rewrite <- at_pos_raw by exact V. rewrite (C x y m s' V). cbn [option_map]. f_equal. rewrite vals_at_for.
  assert (Es : offset t x y m s' = s' * eps + offset t x y m 0) by (unfold offset, eps; ring).
  assert (Hlt : offset t x y m 0 < eps). { destruct V as (V1 & V2 & V3 & _). rewrite offset_mix. unfold eps. cbn [Nat.mul Nat.add].
    assert (m * height t + y < maps t * height t) by nia. nia. }
  destruct (Nat.eqb_spec s' s) as [->|Ne].
  - rewrite (for_single _ eps (offset t x y m 0)); [|exact Hlt|].
    + rewrite vals_at_one, Es, Nat.eqb_refl. reflexivity.
    + intros i Hi Hn. rewrite vals_at_one. destruct (Nat.eqb_spec (s * eps + i) (offset t x y m s)); [lia|reflexivity].
  - rewrite for_nil; [reflexivity|]. intros i Hi. rewrite vals_at_one. destruct (Nat.eqb_spec (s * eps + i) (offset t x y m s')) as [E'|]; [|reflexivity].
    exfalso. rewrite Es in E'. apply Ne. symmetry. now apply (mix_inj s s' i (offset t x y m 0) eps).
Qed.

Theorem C53_mean : forall pw ph (target helper source : tensor f32) img sample,
  wf target -> wf helper -> wf source -> contents source img -> sample < samples source -> (Z.of_nat (elements source) < 2 ^ 64)%Z ->
  0 < pw <= 2 * width source + 1 -> 0 < ph <= 2 * height source + 1 ->
  exists plain with_mean helper', extract_patches junk pw ph target helper source sample false = Ok (plain, helper') /\
    extract_patches junk pw ph target helper source sample true = Ok (with_mean, helper') /\
    same_shape with_mean plain /\
    exists v, contents plain v /\
      contents with_mean (fun x y m s => fsub (v x y m s) (patch_mean (fun x y m => v x y m s) pw ph (maps source))).
Proof.
  intros pw ph target helper source img sample Wt Wh Ws C Hs He Hpw Hph.
  assert (Hpos : 0 < width source * height source).
  { destruct Ws as [E W]. destruct (data source); [|lia]. destruct (width source), (height source), (maps source); lia. }
  destruct (patches_spec pw ph target source img sample Wt Ws C Hs He Hpw Hph) as (t' & E & W' & Sh & Ct).
  destruct (helper_spec pw ph helper source Wh Hpos) as (h' & Eh & Wh' & Shh & Ch).
  set (v := patch_value img (width source) (height source) pw ph sample) in *. destruct Sh as (A1 & A2 & A3 & A4).
  destruct (foldm_seq_inv (subtract_mean (pw * ph * maps source)) (fun i t => wf t /\ same_shape t t' /\
     contents t (fun x y m s => if s <? i then fsub (v x y m s) (patch_mean (fun x y m => v x y m s) pw ph (maps source)) else v x y m s)) (samples t') 0 t') as (t2 & E2 & W2 & Sh2 & C2).
  - split; [exact W'|]. split; [apply same_shape_refl|]. exact Ct.
  - intros i t Hi (Wi & Si & Ci). destruct Si as (B1 & B2 & B3 & B4).
    destruct (subtract_spec t _ i Wi Ci) as (t2 & E2 & W2 & Sh2 & C2); [lia|]. rewrite B2, B3, B4, A2, A3, A4 in E2, C2. exists t2. split; [exact E2|]. split; [exact W2|].
    destruct Sh2 as (D1 & D2 & D3 & D4). split; [repeat split; congruence|]. intros x y m s Hv. rewrite (C2 x y m s Hv). f_equal.
    destruct (Nat.eqb_spec s i) as [->|Ne].
    + rewrite (proj2 (Nat.ltb_ge i i)), (proj2 (Nat.ltb_lt i (S i))) by lia. reflexivity.
    + destruct (Nat.ltb_spec s i), (Nat.ltb_spec s (S i)); try lia; reflexivity.
  - exists t', t2, h'. unfold extract_patches. cbn zeta. rewrite E. cbn [bind]. rewrite Eh. cbn [bind]. rewrite E2. cbn [bind].
    split; [reflexivity|]. split; [reflexivity|]. split; [exact Sh2|]. exists v. split; [exact Ct|]. intros x y m s Hv. rewrite (C2 x y m s Hv).
    destruct Hv as (_ & _ & _ & Hs4). destruct Sh2 as (D1 & _). rewrite D1 in Hs4. now rewrite (proj2 (Nat.ltb_lt s (0 + samples t'))) by lia.
Qed.

(** The labels: the label of a patch is that of the pixel one to the right of and below its centre
    (not beyond the border), and the weight is 0 for the ignored class. *)
Theorem C53_labels : forall pw ph (labels weight source : tensor f32) img sample ignore,
  wf labels -> wf weight -> wf source -> contents source img -> sample < samples source -> (Z.of_nat (elements source) < 2 ^ 64)%Z ->
  exists labels' weight', extract_labels junk pw ph labels weight source sample ignore = Ok (labels', weight') /\
    has_shape labels' (width source * height source) 1 1 1 /\ has_shape weight' (width source * height source) 1 1 1 /\
    forall px py, px < width source -> py < height source ->
      let label := img (Nat.min (px + 1) (width source - 1)) (Nat.min (py + 1) (height source - 1)) 0 sample in
      at_pos labels' 0 0 0 (width source * py + px) = Some label /\
      at_pos weight' 0 0 0 (width source * py + px) = Some (if (label =? ignore mod 2 ^ 32)%Z then f32_zero else f32_one).
Proof.
  intros pw ph labels weight source img sample ignore Wl Ww Ws C Hs He.
  assert (Hpos : 0 < width source * height source /\ 0 < maps source).
  { destruct Ws as [E W]. destruct (data source); [|lia]. destruct (width source), (height source), (maps source); lia. }
  set (lab := fun px py => img (Nat.min (px + 1) (width source - 1)) (Nat.min (py + 1) (height source - 1)) 0 sample).
  assert (L : forall px py, px < width source -> py < height source -> label_at pw ph source sample px py = Ok (lab px py)).
  { intros px py Hx Hy. unfold label_at.
    assert (M : forall size p half, p < size -> mirror (Z.of_nat size) (Z.of_nat p + (half + 1) - half) = Z.of_nat (Nat.min (p + 1) (size - 1))).
    { intros size p half Hp. unfold mirror. destruct (Z.ltb_spec (Z.of_nat p + (half + 1) - half) 0); [lia|]. destruct (Z.leb_spec (Z.of_nat size) (Z.of_nat p + (half + 1) - half)); lia. }
    rewrite !M by assumption. rewrite (get_int_ok source img) by (auto; lia). rewrite !Nat2Z.id. reflexivity. }
  assert (Fill : forall (t : tensor f32) (val : nat -> nat -> res f32) (f : nat -> nat -> f32), wf t ->
    (forall px py, px < width source -> py < height source -> val px py = Ok (f px py)) ->
    let t1 := resize junk t (width source * height source) 1 1 1 in
    exists t', run_stores t1 (for_ (width source) (fun px => for_ (height source) (fun py => [(offset t1 0 0 0 (width source * py + px), val px py)]))) = Ok t' /\
      has_shape t' (width source * height source) 1 1 1 /\
      forall px py, px < width source -> py < height source -> at_pos t' 0 0 0 (width source * py + px) = Some (f px py)).
  { intros t val f Wt Hv t1. assert (W1 : wf t1) by (now apply wf_resize).
    destruct (resize_data junk t (width source * height source) 1 1 1) as (S1 & S2 & S3 & S4 & _); [lia|]. fold t1 in S1, S2, S3, S4.
    destruct (run_stores_fill t1 (for_ (width source) (fun px => for_ (height source) (fun py => [(offset t1 0 0 0 (width source * py + px), val px py)])))
      (fun _ _ _ s => f (s mod width source) (s / width source)) W1) as (t' & E & W' & Sh & Ct).
    - intros a rv Hi. apply in_for in Hi. destruct Hi as (px & Hx & Hi). apply in_for in Hi. destruct Hi as (py & Hy & [[= <- <-]|[]]).
      exists 0, 0, 0, (width source * py + px). destruct (pixel_index_unique (width source) px py) as [-> ->]; [lia|]. split; [unfold valid_pos; nia|]. split; [reflexivity|]. apply Hv; lia.
    - intros x y m s (H1 & H2 & H3 & H4). rewrite S1, S2, S3, S4 in *. assert (x = 0) by lia. assert (y = 0) by lia. assert (m = 0) by lia. subst.
      destruct (pixel_index (width source) (height source) s H4) as (Hx & Hy & Es). apply in_for. exists (s mod width source). split; [lia|]. apply in_for. exists (s / width source). split; [lia|].
      left. rewrite Hv by lia. now rewrite <- Es.
    - exists t'. split; [exact E|]. destruct Sh as (A1 & A2 & A3 & A4). split; [unfold has_shape; rewrite A1, A2, A3, A4; auto|].
      intros px py Hx Hy. rewrite Ct by (unfold valid_pos; rewrite A1, A2, A3, A4, S1, S2, S3, S4; nia). destruct (pixel_index_unique (width source) px py Hx) as [-> ->]. reflexivity. }
  destruct (Fill labels (label_at pw ph source sample) lab Wl L) as (l' & El & Shl & Hl).
  destruct (Fill weight (fun px py => v <- label_at pw ph source sample px py ;; Ok (if (v =? ignore mod 2 ^ 32)%Z then f32_zero else f32_one))
    (fun px py => if (lab px py =? ignore mod 2 ^ 32)%Z then f32_zero else f32_one) Ww) as (w' & Ew & Shw & Hw).
  { intros px py Hx Hy. now rewrite L. }
  exists l', w'. unfold extract_labels. cbn zeta. rewrite El. cbn [bind]. rewrite Ew. cbn [bind]. split; [reflexivity|]. split; [exact Shl|]. split; [exact Shw|].
  intros px py Hx Hy. cbn zeta. split; [now apply Hl|now apply Hw].
Qed.
End Patches.

(** A 3 x 2 image and patches of 3 x 3 pixels. *)
Definition ex_image : tensor f32 := mkTensor 1 3 2 1 6 (Some [10; 11; 12; 20; 21; 22]%Z).
Example C53_witness : wf ex_image /\
  exists t h, extract_patches (fun _ => 0%Z) 3 3 empty_tensor empty_tensor ex_image 0 false = Ok (t, h) /\
    firstn 18 (match data t with Some l => l | None => [] end) =
      [21; 20; 21; 11; 10; 11; 21; 20; 21;  20; 21; 22; 10; 11; 12; 20; 21; 22]%Z.
Proof.
  split; [split; [reflexivity|cbn; lia]|]. eexists _, _. split; [vm_compute; reflexivity|]. vm_compute. reflexivity.
Qed.

(** A larger patch reads outside the image. *)
Theorem C53_large_patch_refuted : exists t : tensor f32, wf t /\ width t = 1 /\ height t = 1 /\
  extract_patches (fun _ => 0%Z) 4 1 empty_tensor empty_tensor t 0 false = UB.
Proof. exists (mkTensor 1 1 1 1 1 (Some [7%Z])). split; [split; [reflexivity|cbn; lia]|]. split; [reflexivity|]. split; [reflexivity|]. vm_compute. reflexivity. Qed.

(** The label is not the one of the centre of the patch. *)
Theorem C53_label_centre_refuted : exists l w, extract_labels (fun _ => 0%Z) 3 3 empty_tensor empty_tensor ex_image 0 0 = Ok (l, w) /\
  at_pos l 0 0 0 0 = Some 21%Z /\ at_pos ex_image 0 0 0 0 = Some 10%Z.
Proof. eexists _, _. split; [vm_compute; reflexivity|]. split; vm_compute; reflexivity. Qed.

Print Assumptions C53_patches.
Print Assumptions C53_mean.
Print Assumptions C53_labels.
Print Assumptions C53_large_patch_refuted.
Print Assumptions C53_label_centre_refuted.

(** Proofs about the dataset input layer. *)
From Coq Require Import Permutation.
From Verif Require Import Base BaseFacts Tensor_Model Tensor_Spec Tensor_Proofs DatasetInput_Model DatasetInput_Spec.

(** ** Loops *)

Lemma foldm_seq_inv {S} (f : S -> nat -> res S) (P : nat -> S -> Prop) n : forall a s,
  P a s -> (forall i s, a <= i < a + n -> P i s -> exists s', f s i = Ok s' /\ P (Datatypes.S i) s') ->
  exists s', foldm f (seq a n) s = Ok s' /\ P (a + n) s'.
Proof.
  induction n as [|n IH]; intros a s H0 Hs; simpl.
  - exists s. rewrite Nat.add_0_r. auto.
  - destruct (Hs a s) as (s1 & -> & H1); [lia|auto|]. simpl.
    destruct (IH (Datatypes.S a) s1) as (s2 & -> & H2); auto.
    { intros i t Hi. apply Hs. lia. }
    exists s2. split; auto. now replace (a + Datatypes.S n) with (Datatypes.S a + n) by lia.
Qed.

Lemma foldm_map {A B S} (f : S -> B -> res S) (h : A -> B) l : forall s, foldm f (map h l) s = foldm (fun s a => f s (h a)) l s.
Proof. induction l as [|a l IH]; intros s; simpl; auto. destruct (f s (h a)); simpl; auto. Qed.

Definition ceil_div (n d : nat) : nat := (n + d - 1) / d.

Lemma ceil_div_step n d : 0 < d -> 0 < n -> ceil_div n d = S (ceil_div (n - d) d).
Proof.
  intros Hd Hn. unfold ceil_div. destruct (Nat.le_gt_cases n d).
  - replace (n - d) with 0 by lia. rewrite (Nat.div_small (0 + d - 1)) by lia.
    replace (n + d - 1) with (1 * d + (n - 1)) by lia. rewrite Nat.div_add_l by lia. rewrite Nat.div_small; lia.
  - replace (n + d - 1) with (1 * d + (n - d + d - 1)) by lia. rewrite Nat.div_add_l by lia. lia.
Qed.

Lemma steps_spec d : 0 < d -> forall fuel a b, b - a <= fuel ->
  steps fuel a b d = map (fun i => a + d * i) (seq 0 (ceil_div (b - a) d)).
Proof.
  intros Hd. induction fuel as [|f IH]; intros a b Hf; cbn [steps].
  - replace (b - a) with 0 by lia. unfold ceil_div. rewrite Nat.div_small by lia. reflexivity.
  - destruct (Nat.ltb_spec a b) as [H|H].
    + rewrite IH by lia. rewrite (ceil_div_step (b - a)) by lia. replace (b - (a + d)) with (b - a - d) by lia.
      cbn [seq map]. f_equal; [lia|]. rewrite <- seq_shift, map_map. apply map_ext. intros i. lia.
    + replace (b - a) with 0 by lia. unfold ceil_div. rewrite Nat.div_small by lia. reflexivity.
Qed.

Lemma lt_ceil_div n d i : 0 < d -> i < ceil_div n d <-> d * i < n.
Proof.
  intros Hd. unfold ceil_div. split; intros H.
  - assert (S i <= (n + d - 1) / d) by lia.
    pose proof (Nat.mul_div_le (n + d - 1) d ltac:(lia)). nia.
  - apply Nat.div_le_lower_bound; lia.
Qed.

(** ** Loss sampling *)
Section Sampling.
Variable D : Type.
Variable zero : D.
Variable gtb : D -> D -> bool.
Variable G : Type.
Variable uniform : G -> D * G.

Lemma advanced_S k : forall g, advanced uniform (S k) g = snd (uniform (advanced uniform k g)).
Proof. induction k as [|k IH]; intros g; auto. cbn [advanced] in *. now rewrite <- IH. Qed.

(** The number of the block of a pixel. *)
Definition block_of (w : nat) (x y : nat) : nat := y / 12 * ceil_div w 12 + x / 12.

Lemma zero_block_spec w slot i j :
  wf w -> slot < samples w -> 12 * i < width w -> 12 * j < height w ->
  exists w', run_stores w (zero_block zero w slot (12 * i) (12 * j)) = Ok w' /\ wf w' /\ same_shape w' w /\
    forall x y m s, valid_pos w x y m s ->
      at_pos w' x y m s = if (m =? 0) && (s =? slot) && (x / 12 =? i) && (y / 12 =? j) then Some zero else at_pos w x y m s.
Proof.
  intros Hwf Hs Hi Hj.
  destruct (run_stores_frame w (zero_block zero w slot (12 * i) (12 * j))
    (fun x y m s => if (m =? 0) && (s =? slot) && (x / 12 =? i) && (y / 12 =? j) then Some zero else None))
    as (w' & Hr & Hwf' & Hsh & Hat); auto.
  - intros a rv Hin. unfold zero_block in Hin.
    apply in_for_from in Hin as (y & Hy & Hin). apply in_for_from in Hin as (x & Hx & [E|[]]). inversion E; subst; clear E.
    unfold block_size in *.
    assert (Hm : 0 < maps w).
    { destruct Hwf as [He Hd]. destruct (data w); [|lia]. destruct (maps w); [|lia]. rewrite Nat.mul_0_r in He. simpl in He. lia. }
    exists x, y, 0, slot, zero. split; [repeat split; auto; lia|]. split; auto. split; auto.
    rewrite !Nat.eqb_refl. cbn [andb].
    rewrite <- (Nat.div_unique x 12 i (x - 12 * i)) by lia.
    rewrite <- (Nat.div_unique y 12 j (y - 12 * j)) by lia.
    now rewrite !Nat.eqb_refl.
  - intros x y m s v Hv E.
    destruct (Nat.eqb_spec m 0); [|discriminate]. destruct (Nat.eqb_spec s slot); [|discriminate].
    destruct (Nat.eqb_spec (x / 12) i); [|discriminate]. destruct (Nat.eqb_spec (y / 12) j); [|discriminate].
    cbn [andb] in E. inversion E; subst. destruct Hv as (Hx & Hy & _).
    pose proof (Nat.div_mod x 12 ltac:(lia)). pose proof (Nat.mod_upper_bound x 12 ltac:(lia)).
    pose proof (Nat.div_mod y 12 ltac:(lia)). pose proof (Nat.mod_upper_bound y 12 ltac:(lia)).
    apply in_for_from. exists y. unfold block_size. split; [lia|].
    apply in_for_from. exists x. split; [lia|]. left. reflexivity.
  - exists w'. split; auto. split; auto. split; auto. intros x y m s Hv. rewrite (Hat _ _ _ _ Hv).
    destruct (_ && _); reflexivity.
Qed.

Section Inv.
Variable p : D.
Variable slot : nat.
Variable w0 : tensor D.
Variable g0 : G.

Definition inv (k : nat) (st : tensor D * G) : Prop :=
  let '(w, g) := st in
  g = advanced uniform k g0 /\ wf w /\ same_shape w w0 /\
  forall x y m s, valid_pos w0 x y m s ->
    at_pos w x y m s = if (m =? 0) && (s =? slot) && (block_of (width w0) x y <? k) && gtb (random uniform (block_of (width w0) x y) g0) p
                       then Some zero else at_pos w0 x y m s.

Lemma block_step i j st :
  slot < samples w0 -> i < ceil_div (width w0) 12 -> j < ceil_div (height w0) 12 ->
  inv (j * ceil_div (width w0) 12 + i) st ->
  exists st', sample_block zero gtb uniform p slot (12 * j) st (12 * i) = Ok st' /\ inv (S (j * ceil_div (width w0) 12 + i)) st'.
Proof.
  intros Hs Hi Hj. destruct st as [w g]. intros (Hg & Hwf & Hsh & Hat).
  set (nb := ceil_div (width w0) 12) in *. set (k := j * nb + i) in *.
  assert (Hblk : forall x y m s, valid_pos w0 x y m s -> (block_of (width w0) x y =? k) = (x / 12 =? i) && (y / 12 =? j)).
  { intros x y m s (Hx & Hy & _). unfold block_of. fold nb.
    assert (x / 12 < nb).
    { apply lt_ceil_div; [lia|]. pose proof (Nat.mul_div_le x 12 ltac:(lia)). lia. }
    destruct (Nat.eqb_spec (x / 12) i); destruct (Nat.eqb_spec (y / 12) j); cbn [andb]; subst k.
    - apply Nat.eqb_eq. subst. lia.
    - apply Nat.eqb_neq. subst i. intros E. apply n. assert (y / 12 * nb = j * nb) as E' by lia. apply Nat.mul_cancel_r in E'; lia.
    - apply Nat.eqb_neq. intros E. subst j. lia.
    - apply Nat.eqb_neq. intros E. destruct (Nat.lt_trichotomy (y / 12) j) as [L|[L|L]]; nia. }
  assert (Hr : random uniform k g0 = fst (uniform g)) by (unfold random; now rewrite Hg).
  unfold sample_block. destruct (uniform g) as [u g'] eqn:Eu. cbn [fst] in Hr.
  assert (Hg' : g' = advanced uniform (S k) g0) by (rewrite advanced_S, <- Hg, Eu; reflexivity).
  apply lt_ceil_div in Hj; [|lia].
  assert (Hi' : 12 * i < width w0) by (apply lt_ceil_div in Hi; lia).
  destruct Hsh as (S1 & S2 & S3 & S4).
  destruct (gtb u p) eqn:Ep.
  - destruct (zero_block_spec w slot i j) as (w' & Hrun & Hwf' & (T1 & T2 & T3 & T4) & Hat'); auto; try lia.
    rewrite Hrun. cbn [bind]. eexists; split; [reflexivity|]. cbn [inv]. split; auto. split; auto.
    split; [repeat split; congruence|]. intros x y m s Hv.
    rewrite Hat' by (unfold valid_pos in *; rewrite S1, S2, S3, S4; auto). rewrite Hat by auto.
    specialize (Hblk _ _ _ _ Hv).
    destruct ((m =? 0) && (s =? slot)) eqn:Ems; cbn [andb]; auto.
    destruct (Nat.eqb_spec (block_of (width w0) x y) k) as [E|E].
    + rewrite <- Hblk. rewrite E, Hr, Ep. replace (k <? S k) with true; auto. symmetry. apply Nat.ltb_lt. lia.
    + rewrite <- Hblk. destruct (Nat.ltb_spec (block_of (width w0) x y) k); destruct (Nat.ltb_spec (block_of (width w0) x y) (S k)); auto; lia.
  - eexists; split; [reflexivity|]. cbn [inv]. split; auto. split; auto.
    split; [repeat split; auto|]. intros x y m s Hv. rewrite Hat by auto. 
    destruct ((m =? 0) && (s =? slot)) eqn:Ems; cbn [andb]; auto.
    destruct (Nat.ltb_spec (block_of (width w0) x y) k); destruct (Nat.ltb_spec (block_of (width w0) x y) (S k)); auto; try lia.
    assert (block_of (width w0) x y = k) as -> by lia. rewrite Hr, Ep. reflexivity.
Qed.
End Inv.

Lemma loss_sampling_spec p slot w g :
  wf w -> slot < samples w ->
  exists w', loss_sampling zero gtb uniform p slot w g = Ok (w', advanced uniform (ceil_div (height w) 12 * ceil_div (width w) 12) g) /\
    wf w' /\ same_shape w' w /\
    forall x y m s, valid_pos w x y m s ->
      at_pos w' x y m s = if (m =? 0) && (s =? slot) && gtb (random uniform (block_of (width w) x y) g) p then Some zero else at_pos w x y m s.
Proof.
  intros Hwf Hs. unfold loss_sampling, block_size.
  rewrite (steps_spec 12 ltac:(lia) (width w)) by lia. rewrite (steps_spec 12 ltac:(lia) (height w)) by lia.
  rewrite !Nat.sub_0_r. rewrite foldm_map.
  set (nb := ceil_div (width w) 12).
  destruct (foldm_seq_inv (fun s a => foldm (sample_block zero gtb uniform p slot (0 + 12 * a)) (map (fun i => 0 + 12 * i) (seq 0 nb)) s)
             (fun j st => inv p slot w g (j * nb) st) (ceil_div (height w) 12) 0 (w, g)) as ([w' g'] & Hr & Hi).
  - cbn [inv]. split; auto. split; auto. split; [apply same_shape_refl|]. intros x y m s Hv.
    rewrite andb_false_r. reflexivity.
  - intros j st Hj Hst. rewrite foldm_map.
    destruct (foldm_seq_inv (fun s a => sample_block zero gtb uniform p slot (0 + 12 * j) s (0 + 12 * a))
               (fun i st => inv p slot w g (j * nb + i) st) nb 0 st) as (st' & Hr & Hi).
    + now rewrite Nat.add_0_r.
    + intros i st1 Hi Hst1. rewrite !Nat.add_0_l.
      destruct (block_step p slot w g i j st1) as (st2 & -> & H2); auto; try lia.
      exists st2. split; auto. fold nb in H2. now rewrite Nat.add_succ_r.
    + exists st'. split; auto. now replace (S j * nb) with (j * nb + (0 + nb)) by lia.
  - rewrite Hr. rewrite Nat.add_0_l in Hi. destruct Hi as (Hg & Hwf' & Hsh & Hat).
    exists w'. rewrite Hg. split; [reflexivity|]. split; auto. split; auto. intros x y m s Hv. rewrite Hat by auto.
    assert (block_of (width w) x y <? ceil_div (height w) 12 * nb = true) as ->; [|now rewrite andb_true_r].
    apply Nat.ltb_lt. destruct Hv as (Hx & Hy & _). unfold block_of. fold nb.
    assert (x / 12 < nb) by (apply lt_ceil_div; [lia|]; pose proof (Nat.mul_div_le x 12 ltac:(lia)); lia).
    assert (y / 12 < ceil_div (height w) 12) by (apply lt_ceil_div; [lia|]; pose proof (Nat.mul_div_le y 12 ltac:(lia)); lia).
    nia.
Qed.
End Sampling.

(** ** Groups of draws *)
Lemma group_concat {A} n (full : list (list A)) tl k :
  (forall c, In c full -> length c = n) -> length tl < n \/ (tl = [] /\ n = 0) ->
  group n k (concat full ++ tl) = nth k full (if k =? length full then tl else []).
Proof.
  intros Hl Ht. revert k. induction full as [|c full IH]; intros k; cbn [concat app length].
  - unfold group. destruct k; cbn [nth Nat.eqb].
    + cbn [Nat.mul skipn]. apply firstn_all2. destruct Ht as [Ht|[-> ?]]; [lia|simpl; lia].
    + rewrite skipn_all2; [now destruct n|]. destruct Ht as [Ht|[-> ?]]; [nia|simpl; lia].
  - unfold group in *. destruct k as [|k].
    + cbn [Nat.mul skipn nth]. rewrite <- app_assoc, firstn_app, firstn_all2.
      * rewrite (Hl c) by now left. rewrite Nat.sub_diag. simpl. apply app_nil_r.
      * rewrite (Hl c) by now left. lia.
    + cbn [nth Nat.eqb]. rewrite <- IH by (intros; apply Hl; now right).
      rewrite <- app_assoc, skipn_app. rewrite (Hl c) by now left.
      rewrite (skipn_all2 c) by (rewrite (Hl c) by (now left); lia). cbn [app].
      f_equal. f_equal. lia.
Qed.

(** ** Draws *)
Section Draws.
Variable D : Type.
Variable zero : D.
Variable gtb : D -> D -> bool.
Variable G : Type.
Variable shuffle : G -> list nat -> list nat * G.
Variable uniform : G -> D * G.
Variable training_sample testing_sample : outputs D -> nat -> nat -> res (outputs D * bool).
Hypothesis shuffle_perm : forall g l, Permutation l (fst (shuffle g l)).

Local Notation feed_slot := (feed_slot zero gtb shuffle uniform training_sample testing_sample).
Local Notation feed_forward := (feed_forward zero gtb shuffle uniform training_sample testing_sample).
Local Notation history := (history zero gtb shuffle uniform training_sample testing_sample).
Local Notation perform := (perform zero gtb shuffle uniform training_sample testing_sample).
Local Notation loads := (loads zero training_sample testing_sample).

(** Fields that no call changes. *)
Definition fixed (l : layer D G) := (fcn l, batch_size l, elements_training l, elements_testing l, loss_sampling_p l).

(** What one slot does to the draws and the layer. *)
Lemma feed_slot_inv l o ds slot l' o' ds' :
  feed_slot (l, o, ds) slot = Ok (l', o', ds') ->
  exists l1 e f g, select shuffle l = Ok (l1, e, f) /\ l' = with_generator l1 g /\
    ds' = ds ++ [mkDraw slot (testing l) e f] /\ (testing l = true -> l' = l1).
Proof using.
  intros H. unfold DatasetInput_Model.feed_slot in H.
  destruct (select shuffle l) as [[[l1 e] f]| |] eqn:Es; cbn [bind] in H; try discriminate.
  assert (Ht : testing l1 = testing l).
  { unfold select in Es. destruct (testing l) eqn:Et.
    - destruct (_ <=? _); inversion Es; subst; auto.
    - destruct (load _ _); cbn [bind] in Es; try discriminate.
      destruct (_ <=? _); [destruct (shuffle _ _)|]; inversion Es; subst; auto. }
  rewrite Ht in H.
  destruct (if testing l then _ else _) as [[o1 [|]]| |]; cbn [bind negb] in H; try discriminate.
  set (fin := fun o2 : outputs D => if f then w <- clear (o_weight o2) zero (Some slot) ;; Ok (with_weight o2 w) else Ok o2) in *.
  destruct (testing l) eqn:Et; cbn [negb andb] in H.
  - cbn [bind] in H. change (if f then _ else _) with (fin o1) in H.
    destruct (fin o1) as [o3| |]; cbn [bind] in H; try discriminate. inversion H; subst.
    exists l', e, f, (generator l'). split; auto. split; [destruct l'; reflexivity|]. auto.
  - destruct (negb f && fcn l1); cbn [bind] in H.
    + destruct (loss_sampling _ _ _ _ _ _ _) as [[w g]| |]; cbn [bind] in H; try discriminate.
      change (if f then _ else _) with (fin (with_weight o1 w)) in H.
      destruct (fin _) as [o3| |]; cbn [bind] in H; try discriminate. inversion H; subst.
      exists l1, e, f, g. split; auto. split; auto. split; auto. discriminate.
    + change (if f then _ else _) with (fin o1) in H.
      destruct (fin o1) as [o3| |]; cbn [bind] in H; try discriminate. inversion H; subst.
      exists l', e, f, (generator l'). split; auto. split; [destruct l'; reflexivity|]. split; auto.
Qed.

(** *** Training *)
Section Train.
Variable n : nat.

Definition passes_inv (st : layer D G * outputs D * list draw) : Prop :=
  let '(l, o, ds) := st in
  Permutation (seq 0 n) (perm l) /\ (current_element l < n \/ current_element l = 0) /\
  exists full, (forall c, In c full -> Permutation (seq 0 n) c) /\
    training_draws ds = concat full ++ firstn (current_element l) (perm l).

Lemma training_draws_app a b : training_draws (a ++ b) = training_draws a ++ training_draws b.
Proof using. unfold training_draws. now rewrite filter_app, map_app. Qed.

Lemma firstn_S_nth {A} (l : list A) k x : nth_error l k = Some x -> firstn (S k) l = firstn k l ++ [x].
Proof using.
  revert k; induction l as [|a l IH]; intros [|k] H; simpl in *; try discriminate.
  - now inversion H.
  - f_equal. auto.
Qed.

Lemma slot_passes st slot st' : passes_inv st -> feed_slot st slot = Ok st' -> passes_inv st'.
Proof using shuffle_perm.
  destruct st as [[l o] ds], st' as [[l' o'] ds']. intros (Hp & Hc & full & Hf & Hd) H.
  apply feed_slot_inv in H as (l1 & e & f & g & Hs & -> & -> & _).
  cbn [passes_inv with_generator perm current_element]. rewrite training_draws_app, Hd.
  unfold select in Hs. destruct (testing l) eqn:Et.
  - unfold training_draws at 1. cbn [filter d_testing negb map]. rewrite app_nil_r.
    destruct (elements_testing l <=? current_element_testing l); inversion Hs; subst; clear Hs; cbn [perm current_element];
    split; auto; split; auto; exists full; auto.
  - destruct (load (perm l) (current_element l)) as [e0| |] eqn:El; cbn [bind] in Hs; try discriminate.
    apply load_inv in El. assert (Hlt : current_element l < length (perm l)) by (apply nth_error_Some; congruence).
    assert (Hlen : length (perm l) = n) by (rewrite <- (Permutation_length Hp); apply seq_length).
    destruct (Nat.leb_spec (length (perm l)) (S (current_element l))) as [Hle|Hle].
    + destruct (shuffle (generator l) (perm l)) as [p' g'] eqn:Esh. inversion Hs; subst; clear Hs.
      cbn [perm current_element]. pose proof (shuffle_perm (generator l) (perm l)) as Hsp. rewrite Esh in Hsp. cbn [fst] in Hsp.
      split; [now transitivity (perm l)|]. split; [auto|].
      exists (full ++ [perm l]). split.
      { intros c [Hin|[<-|[]]]%in_app_or; auto. }
      rewrite concat_app. cbn [concat firstn]. rewrite !app_nil_r, <- app_assoc. f_equal.
      unfold training_draws. cbn. rewrite <- (firstn_S_nth _ _ _ El). apply firstn_all2. lia.
    + inversion Hs; subst; clear Hs. cbn [perm current_element]. split; auto. split; [lia|].
      exists full. split; auto. rewrite <- app_assoc. f_equal. unfold training_draws. cbn [filter map d_testing negb d_element].
      now rewrite (firstn_S_nth _ _ _ El).
Qed.

Lemma foldm_passes slots : forall st st', passes_inv st -> foldm feed_slot slots st = Ok st' -> passes_inv st'.
Proof using shuffle_perm.
  induction slots as [|s slots IH]; intros st st' Hi H; cbn [foldm] in H; [inversion H; now subst|].
  destruct (feed_slot st s) as [st1| |] eqn:E; cbn [bind] in H; try discriminate. eauto using slot_passes.
Qed.

Lemma history_passes cs : forall st st', passes_inv st -> history cs st = Ok st' -> passes_inv st'.
Proof using shuffle_perm.
  induction cs as [|c cs IH]; intros st st' Hi H; unfold DatasetInput_Spec.history in *; cbn [foldm] in H; [inversion H; now subst|].
  destruct (perform st c) as [st1| |] eqn:E; cbn [bind] in H; try discriminate.
  apply (IH st1); auto. destruct st as [[l o] ds]. destruct c as [t|]; cbn [DatasetInput_Spec.perform] in E.
  - inversion E; subst. exact Hi.
  - unfold DatasetInput_Model.feed_forward in E. eapply foldm_passes; eauto.
Qed.

Lemma new_passes is_fcn b nt p seed o : passes_inv (new_layer shuffle is_fcn b n nt p seed, o, []).
Proof using shuffle_perm.
  unfold new_layer. pose proof (shuffle_perm seed (seq 0 n)) as H. destruct (shuffle seed (seq 0 n)) as [p0 g]. cbn [fst] in H.
  cbn [passes_inv perm current_element]. split; auto. split; auto. exists []. split; [intros c []|reflexivity].
Qed.

Lemma passes_groups l o ds : passes_inv (l, o, ds) ->
  (forall k, S k * n <= length (training_draws ds) -> Permutation (seq 0 n) (group n k (training_draws ds))) /\
  (forall k, NoDup (group n k (training_draws ds))) /\
  (forall e, In e (training_draws ds) -> e < n).
Proof using.
  intros (Hp & Hc & full & Hf & Hd).
  assert (Hlen : forall c, In c full -> length c = n) by (intros c Hin; rewrite <- (Permutation_length (Hf c Hin)); apply seq_length).
  assert (Hpl : length (perm l) = n) by (rewrite <- (Permutation_length Hp); apply seq_length).
  assert (Htl : length (firstn (current_element l) (perm l)) < n \/ (firstn (current_element l) (perm l) = [] /\ n = 0)).
  { rewrite firstn_length, Hpl. destruct Hc as [Hc|Hc]; [lia|]. rewrite Hc. destruct (Nat.eq_dec n 0); [right; split; auto|left; lia]. }
  assert (Hcl : length (concat full) = length full * n).
  { clear - Hlen. induction full as [|c f IH]; auto. cbn [concat length]. rewrite app_length, IH, (Hlen c); [lia|now left|intros; apply Hlen; now right]. }
  assert (Hnd : forall c, Permutation (seq 0 n) c -> NoDup c) by (intros c Hc'; eapply Permutation_NoDup; [exact Hc'|apply seq_NoDup]).
  assert (Hpart : NoDup (firstn (current_element l) (perm l))).
  { pose proof (Hnd _ Hp) as N. rewrite <- (firstn_skipn (current_element l) (perm l)) in N.
    clear - N. revert N. generalize (firstn (current_element l) (perm l)) (skipn (current_element l) (perm l)).
    induction l0 as [|a l0 IH]; intros l1 N; [constructor|]. inversion N; subst. constructor; [|eauto]. intros Hin. apply H1. apply in_or_app; auto. }
  rewrite Hd. split; [|split].
  - intros k Hk. rewrite group_concat by auto. rewrite app_length, Hcl, firstn_length, Hpl in Hk.
    destruct (Nat.eq_dec n 0) as [->|Hn].
    { match goal with |- Permutation _ ?c => assert (length c = 0) as E end.
      { destruct (Nat.lt_ge_cases k (length full)).
        - apply Hlen, nth_In; auto.
        - rewrite nth_overflow by auto. destruct (_ =? _); auto. destruct Htl as [?|[-> _]]; [lia|auto]. }
      match goal with |- Permutation _ ?c => destruct c; [constructor|discriminate] end. }
    apply Hf, nth_In. destruct Hc; [|nia]. assert (Nat.min (current_element l) n < n) by lia. nia.
  - intros k. rewrite group_concat by auto. destruct (Nat.lt_ge_cases k (length full)) as [H|H].
    + apply Hnd, Hf, nth_In; auto.
    + rewrite nth_overflow by auto. destruct (_ =? _); [exact Hpart|constructor].
  - intros e [Hin|Hin]%in_app_or.
    + apply in_concat in Hin as (c & Hc' & He). apply (Permutation_in _ (Permutation_sym (Hf c Hc'))) in He. apply in_seq in He. lia.
    + assert (In e (perm l)) as He. { rewrite <- (firstn_skipn (current_element l) (perm l)). apply in_or_app; auto. }
      apply (Permutation_in _ (Permutation_sym Hp)) in He. apply in_seq in He. lia.
Qed.
End Train.

(** *** Testing *)

(** The j-th draw of a test run. *)
Definition test_draw (b nt j : nat) : draw := mkDraw (j mod b) true (if j <? nt then j else 0) (nt <=? j).

Lemma test_slots l o ds slots : forall l' o' ds',
  testing l = true -> foldm feed_slot slots (l, o, ds) = Ok (l', o', ds') ->
  testing l' = true /\ fixed l' = fixed l /\ perm l' = perm l /\ current_element l' = current_element l /\ generator l' = generator l /\
  (forall j, current_element_testing l = Nat.min j (elements_testing l) ->
     current_element_testing l' = Nat.min (j + length slots) (elements_testing l) /\
     ds' = ds ++ map (fun '(i, s) => mkDraw s true (if j + i <? elements_testing l then j + i else 0) (elements_testing l <=? j + i))
                     (combine (seq 0 (length slots)) slots)).
Proof using.
  revert l o ds. induction slots as [|s slots IH]; intros l o ds l' o' ds' Ht H.
  - inversion H; subst. repeat (split; auto). + cbn [length]. now rewrite Nat.add_0_r. + cbn. now rewrite app_nil_r.
  - cbn [foldm] in H. destruct (feed_slot (l, o, ds) s) as [[[l1 o1] ds1]| |] eqn:E; cbn [bind] in H; try discriminate.
    apply feed_slot_inv in E as (l2 & e & f & g & Hs & El1 & -> & Hl1). rewrite (Hl1 Ht) in *. clear El1 Hl1 g l1. rename l2 into l1.
    unfold select in Hs. rewrite Ht in Hs.
    assert (Hl1 : testing l1 = true /\ fixed l1 = fixed l /\ perm l1 = perm l /\ current_element l1 = current_element l /\ generator l1 = generator l).
    { destruct (_ <=? _); inversion Hs; subst; auto. }
    destruct Hl1 as (T1 & F1 & P1 & C1 & G1).
    assert (En : elements_testing l1 = elements_testing l) by (unfold fixed in F1; congruence).
    destruct (IH _ _ _ _ _ _ T1 H) as (T2 & F2 & P2 & C2 & G2 & HJ).
    split; [auto|]. split; [congruence|]. split; [congruence|]. split; [congruence|]. split; [congruence|].
    intros j Hj.
    assert (H1 : current_element_testing l1 = Nat.min (S j) (elements_testing l) /\
                 e = (if j <? elements_testing l then j else 0) /\ f = (elements_testing l <=? j)).
    { destruct (Nat.leb_spec (elements_testing l) (current_element_testing l)) as [L|L]; inversion Hs; subst; clear Hs.
      - split; [lia|]. destruct (Nat.ltb_spec j (elements_testing l1)); [lia|]. split; auto. symmetry. apply Nat.leb_le. lia.
      - cbn [current_element_testing elements_testing]. split; [lia|]. destruct (Nat.ltb_spec j (elements_testing l)); [|lia]. split; [lia|]. symmetry. apply Nat.leb_gt. lia. }
    destruct H1 as (H1 & He & Hf). rewrite En in HJ. destruct (HJ (S j) H1) as (HJ1 & HJ2).
    cbn [length]. split; [rewrite HJ1; f_equal; lia|].
    rewrite HJ2. cbn [seq combine map]. rewrite <- app_assoc. cbn [app]. f_equal. rewrite Nat.add_0_r, Ht, <- He, <- Hf. f_equal.
    rewrite <- (seq_shift (length slots) 0).
    clear. generalize (seq 0 (length slots)). induction slots as [|s slots IH]; intros [|i li]; cbn [map combine]; auto.
    f_equal; auto. now replace (j + S i) with (S j + i) by lia.
Qed.

Lemma test_batch l o ds l' o' ds' j b :
  testing l = true -> batch_size l = b -> feed_forward (l, o, ds) = Ok (l', o', ds') ->
  current_element_testing l = Nat.min (j * b) (elements_testing l) ->
  testing l' = true /\ fixed l' = fixed l /\ perm l' = perm l /\ current_element l' = current_element l /\ generator l' = generator l /\
  current_element_testing l' = Nat.min (S j * b) (elements_testing l) /\
  ds' = ds ++ map (test_draw b (elements_testing l)) (seq (j * b) b).
Proof using.
  intros Ht Hb H Hj. unfold DatasetInput_Model.feed_forward in H. rewrite Hb in H.
  apply test_slots in H as (T & F & P & C & Gn & HJ); auto.
  destruct (HJ (j * b) Hj) as (H1 & H2). rewrite seq_length in *.
  split; [exact T|]. split; [exact F|]. split; [exact P|]. split; [exact C|]. split; [exact Gn|]. split; [rewrite H1; f_equal; lia|]. rewrite H2. f_equal. unfold test_draw.
  clear. apply list_ext. intros i. rewrite !nth_error_map.
  destruct (Nat.lt_ge_cases i b) as [L|L].
  - assert (E : nth_error (combine (seq 0 b) (seq 0 b)) i = Some (i, i)).
    { assert (Hn : nth_error (seq 0 b) i = Some i).
      { rewrite (nth_error_nth' _ 0) by (now rewrite seq_length). now rewrite seq_nth. }
      revert Hn. generalize (seq 0 b). intros s. revert i L. enough (forall (s : list nat) i x, nth_error s i = Some x -> nth_error (combine s s) i = Some (x, x)) by eauto.
      clear. induction s as [|a s IH]; intros [|i] x H; cbn in *; try discriminate; [now inversion H|auto]. }
    rewrite E. rewrite (nth_error_nth' _ 0) by (now rewrite seq_length). rewrite seq_nth by auto. cbn [option_map]. f_equal. f_equal.
    rewrite Nat.add_comm, Nat.mod_add, Nat.mod_small by lia. reflexivity.
  - rewrite (proj2 (nth_error_None _ i)); [|rewrite combine_length, seq_length; lia].
    rewrite (proj2 (nth_error_None _ i)); [reflexivity|rewrite seq_length; lia].
Qed.

(** Calls that stay in testing mode. *)
Definition stays_testing (c : call) : Prop := c <> SetTesting false.
Definition feeds (cs : list call) : nat := length (filter (fun c => match c with Feed => true | _ => false end) cs).

Lemma test_run cs : forall l o ds l' o' ds' j b,
  testing l = true -> batch_size l = b -> (forall c, In c cs -> stays_testing c) ->
  current_element_testing l = Nat.min (j * b) (elements_testing l) ->
  history cs (l, o, ds) = Ok (l', o', ds') ->
  testing l' = true /\ fixed l' = fixed l /\ perm l' = perm l /\ current_element l' = current_element l /\ generator l' = generator l /\
  ds' = ds ++ map (test_draw b (elements_testing l)) (seq (j * b) (feeds cs * b)).
Proof using.
  induction cs as [|c cs IH]; intros l o ds l' o' ds' j b Ht Hb Hc Hj H; unfold DatasetInput_Spec.history in *; cbn [foldm] in H.
  - inversion H; subst. repeat (split; auto). cbn. now rewrite app_nil_r.
  - destruct c as [t|]; cbn [DatasetInput_Spec.perform] in H.
    + destruct t; [|exfalso; apply (Hc (SetTesting false)); [now left|reflexivity]].
      cbn [bind] in H. replace (set_testing_mode l true) with l in H.
      2: { unfold set_testing_mode. rewrite Ht. cbn. destruct l; cbn in *; now subst. }
      unfold feeds. cbn [filter]. fold (feeds cs). apply (IH _ _ _ _ _ _ j b) in H; auto. intros c Hin. apply Hc. now right.
    + destruct (feed_forward (l, o, ds)) as [[[l1 o1] ds1]| |] eqn:E; cbn [bind] in H; try discriminate.
      apply (test_batch _ _ _ _ _ _ j b) in E as (T1 & F1 & P1 & C1 & G1 & J1 & ->); auto.
      assert (Eb : batch_size l1 = b) by (unfold fixed in F1; congruence).
      assert (En : elements_testing l1 = elements_testing l) by (unfold fixed in F1; congruence).
      rewrite <- En in J1. apply (IH _ _ _ _ _ _ (S j) b) in H as (T2 & F2 & P2 & C2 & G2 & ->); auto; [|intros c Hin; apply Hc; now right].
      rewrite En in *. repeat (split; [congruence|]). unfold feeds. cbn [filter length].
      rewrite <- app_assoc. f_equal. rewrite <- map_app. f_equal. rewrite (Nat.mul_succ_l (length _)), (Nat.add_comm _ b), seq_app. f_equal. f_equal. lia.
Qed.

(** *** Contents *)
Section Contents.
Variable o0 : outputs D.
Variable b nt nn : nat.
Hypothesis enough : b <= samples (o_weight o0).
Hypothesis train_ok : provides training_sample o0 b nn.
Hypothesis test_ok : provides testing_sample o0 b nt.

Definition live (st : layer D G * outputs D * list draw) : Prop :=
  let '(l, o, ds) := st in
  shaped_like o0 o /\ batch_size l = b /\ elements_testing l = nt /\ Permutation (seq 0 nn) (perm l) /\ current_element l < nn /\ (testing l = true -> 0 < nt).

Lemma shaped_weight o w : shaped_like o0 o -> wf w -> same_shape w (o_weight o) -> shaped_like o0 (with_weight o w).
Proof using. intros (A & B & C & H & Hs) Hw S. split; [exact A|]. split; [exact B|]. split; [exact C|]. split; [exact Hw|]. eapply same_shape_trans; eauto. Qed.

Lemma slot_live l o ds slot :
  live (l, o, ds) -> slot < b ->
  exists l' o' d, feed_slot (l, o, ds) slot = Ok (l', o', ds ++ [d]) /\ live (l', o', ds ++ [d]) /\ d_slot d = slot /\ d_testing d = testing l /\
    testing l' = testing l /\ fcn l' = fcn l /\ loads (fcn l) o [d] o'.
Proof using shuffle_perm enough train_ok test_ok.
  intros (Hsh & Hb & Hnt & Hp & Hc & Ht) Hslot.
  assert (Hpl : length (perm l) = nn) by (rewrite <- (Permutation_length Hp); apply seq_length).
  assert (Hsel : exists l1 e f, select shuffle l = Ok (l1, e, f) /\ e < (if testing l then nt else nn) /\ testing l1 = testing l /\ fcn l1 = fcn l /\
     batch_size l1 = b /\ elements_testing l1 = nt /\ Permutation (seq 0 nn) (perm l1) /\ current_element l1 < nn /\ (testing l = false -> f = false)).
  { unfold select. destruct (testing l) eqn:Et.
    - destruct (Nat.leb_spec (elements_testing l) (current_element_testing l)).
      + exists l, 0, true. repeat (split; auto).
      + eexists _, _, _. split; [reflexivity|]. cbn [testing fcn batch_size elements_testing perm current_element]. repeat (split; auto). lia.
    - destruct (nth_error (perm l) (current_element l)) as [e|] eqn:En.
      2: { apply nth_error_None in En. lia. }
      unfold load. rewrite En. cbn [bind].
      assert (He : e < nn). { apply nth_error_In in En. apply (Permutation_in _ (Permutation_sym Hp)) in En. apply in_seq in En. lia. }
      destruct (Nat.leb_spec (length (perm l)) (S (current_element l))).
      + pose proof (shuffle_perm (generator l) (perm l)) as Hsp. destruct (shuffle (generator l) (perm l)) as [p' g'].
        eexists _, _, _. split; [reflexivity|]. cbn [testing fcn batch_size elements_testing perm current_element]. repeat (split; auto).
        * now transitivity (perm l). * lia.
      + eexists _, _, _. split; [reflexivity|]. cbn [testing fcn batch_size elements_testing perm current_element]. repeat (split; auto). lia. }
  destruct Hsel as (l1 & e & f & Hsel & He & T1 & F1 & B1 & N1 & P1 & C1 & Hf).
  unfold DatasetInput_Model.feed_slot. rewrite Hsel. cbn [bind]. rewrite T1.
  assert (Hload : exists o1, (if testing l then testing_sample o slot e else training_sample o slot e) = Ok (o1, true) /\ shaped_like o0 o1).
  { destruct (testing l); auto. }
  destruct Hload as (o1 & Hload & Hsh1). rewrite Hload. cbn [bind negb].
  pose proof Hsh1 as (_ & _ & _ & Hww & Hws).
  assert (Hslot1 : slot < samples (o_weight o1)) by (destruct Hws as (-> & _); lia).
  destruct (testing l) eqn:Et; cbn [negb andb bind].
  - destruct f; cbn [bind].
    + destruct (clear_sample_spec (o_weight o1) zero slot) as (w & Hcl & Hwf & Hsw & Hat); auto.
      rewrite Hcl. cbn [bind]. exists l1, (with_weight o1 w), (mkDraw slot true e true).
      split; [reflexivity|]. split; [|split; [auto|split; [auto|split; [congruence|split; [auto|]]]]].
      * cbn [live]. split; [now apply shaped_weight|]. repeat (split; auto).
      * eapply loads_cons; cbn [d_testing d_no_weight d_slot d_element]; [exact Hload| |constructor]. split; auto.
    + exists l1, o1, (mkDraw slot true e false).
      split; [reflexivity|]. split; [|split; [auto|split; [auto|split; [congruence|split; [auto|]]]]].
      * cbn [live]. repeat (split; auto).
      * assert (Ew : with_weight o1 (o_weight o1) = o1) by (destruct o1; reflexivity).
        eapply loads_cons with (o1 := o1) (w := o_weight o1); cbn [d_testing d_no_weight d_slot d_element negb andb]; [exact Hload|reflexivity|rewrite Ew; constructor].
  - rewrite (Hf eq_refl). cbn [negb andb]. rewrite F1. destruct (fcn l) eqn:Ef; cbn [bind].
    + destruct (loss_sampling_spec D zero gtb G uniform (loss_sampling_p l1) slot (o_weight o1) (generator l1)) as (w & Hls & Hwf & Hsw & Hat); auto.
      rewrite Hls. cbn [bind]. eexists _, (with_weight o1 w), (mkDraw slot false e false).
      split; [reflexivity|]. cbn [with_generator testing fcn]. split; [|split; [auto|split; [auto|split; [congruence|split; [auto|]]]]].
      * cbn [live with_generator batch_size elements_testing perm current_element testing]. split; [now apply shaped_weight|]. repeat (split; auto). rewrite T1. discriminate.
      * eapply loads_cons; cbn [d_testing d_no_weight d_slot d_element negb andb]; [exact Hload| |constructor].
        split; [auto|]. split; [auto|]. intros x y m s Hv. rewrite (Hat _ _ _ _ Hv).
        destruct (Nat.eqb_spec m 0); destruct (Nat.eqb_spec s slot); cbn [andb]; auto.
        destruct (gtb _ _); auto.
    + exists l1, o1, (mkDraw slot false e false).
      split; [reflexivity|]. split; [|split; [auto|split; [auto|split; [congruence|split; [auto|]]]]].
      * cbn [live]. repeat (split; auto). rewrite T1. discriminate.
      * assert (Ew : with_weight o1 (o_weight o1) = o1) by (destruct o1; reflexivity).
        eapply loads_cons with (o1 := o1) (w := o_weight o1); cbn [d_testing d_no_weight d_slot d_element negb andb]; [exact Hload|reflexivity|rewrite Ew; constructor].
Qed.

Lemma loads_app is_fcn a1 o1 o2 o3 a2 : loads is_fcn o1 a1 o2 -> loads is_fcn o2 a2 o3 -> loads is_fcn o1 (a1 ++ a2) o3.
Proof using. induction 1; intros; cbn [app]; auto. eapply loads_cons; eauto. Qed.

Lemma slots_live slots : forall l o ds,
  live (l, o, ds) -> (forall s, In s slots -> s < b) ->
  exists l' o' new, foldm feed_slot slots (l, o, ds) = Ok (l', o', ds ++ new) /\ live (l', o', ds ++ new) /\ map d_slot new = slots /\
    (forall d, In d new -> d_testing d = testing l) /\ testing l' = testing l /\ fcn l' = fcn l /\ loads (fcn l) o new o'.
Proof using shuffle_perm enough train_ok test_ok.
  induction slots as [|s slots IH]; intros l o ds Hl Hs; cbn [foldm].
  - exists l, o, []. rewrite app_nil_r. split; [reflexivity|]. split; [auto|]. split; [reflexivity|]. split; [intros d []|]. split; [auto|]. split; [auto|]. constructor.
  - destruct (slot_live l o ds s Hl) as (l1 & o1 & d & -> & Hl1 & Hd & Hdt & T1 & F1 & L1); [apply Hs; now left|]. cbn [bind].
    destruct (IH l1 o1 (ds ++ [d]) Hl1) as (l2 & o2 & new & -> & Hl2 & Hn & Hnt' & T2 & F2 & L2); [intros; apply Hs; now right|].
    exists l2, o2, (d :: new). rewrite <- app_assoc in *. cbn [app] in *. split; [reflexivity|]. split; [auto|].
    split; [cbn [map]; congruence|]. split; [intros d' [<-|Hin]; [auto|rewrite <- T1; auto]|]. split; [congruence|]. split; [congruence|].
    change (d :: new) with ([d] ++ new). eapply loads_app; [exact L1|]. now rewrite <- F1.
Qed.

Lemma history_live cs : forall l o ds,
  live (l, o, ds) -> (In (SetTesting true) cs -> 0 < nt) ->
  exists l' o' new, history cs (l, o, ds) = Ok (l', o', ds ++ new) /\ live (l', o', ds ++ new) /\ fcn l' = fcn l /\
    loads (fcn l) o new o' /\ map d_slot new = concat (repeat (seq 0 b) (feeds cs)).
Proof using shuffle_perm enough train_ok test_ok.
  induction cs as [|c cs IH]; intros l o ds Hl Hc; unfold DatasetInput_Spec.history in *; cbn [foldm].
  - exists l, o, []. rewrite app_nil_r. repeat (split; auto). all: try constructor; apply Hl.
  - destruct c as [t|]; cbn [DatasetInput_Spec.perform].
    + cbn [bind]. destruct (IH (set_testing_mode l t) o ds) as (l2 & o2 & new & -> & Hl2 & F2 & L2 & M2).
      * destruct Hl as (A & B & C & E & F & H). cbn [live set_testing_mode batch_size elements_testing perm current_element testing].
        repeat (split; auto). intros ->. apply Hc. now left.
      * intros Hin. apply Hc. now right.
      * exists l2, o2, new. repeat (split; auto).
    + destruct l as [a1 a2 a3 a4 a5 a6 a7 a8 a9 a10] eqn:El. rewrite <- El in *.
      destruct (slots_live (seq 0 (batch_size l)) l o ds Hl) as (l1 & o1 & new1 & E1 & Hl1 & M1 & _ & _ & F1 & L1).
      { destruct Hl as (_ & -> & _). intros s Hin%in_seq. lia. }
      unfold DatasetInput_Model.feed_forward. rewrite E1. cbn [bind].
      destruct (IH l1 o1 (ds ++ new1) Hl1) as (l2 & o2 & new2 & -> & Hl2 & F2 & L2 & M2); [intros Hin; apply Hc; now right|].
      exists l2, o2, (new1 ++ new2). rewrite app_assoc. split; [reflexivity|]. split; [auto|]. split; [congruence|].
      split; [eapply loads_app; [exact L1|now rewrite <- F1]|]. rewrite map_app, M1, M2. unfold feeds. cbn [filter length repeat concat].
      destruct Hl as (_ & -> & _). reflexivity.
Qed.
End Contents.
End Draws.

(** ** Fillers *)
Section Filler.
Variable D : Type.
Variable zero : D.
Variable training_sample testing_sample : outputs D -> nat -> nat -> res (outputs D * bool).
Variable o0 : outputs D.

Lemma valid_pos_like (t u : tensor D) x y m s : same_shape t u -> valid_pos u x y m s -> valid_pos t x y m s.
Proof using. intros (A & B & C & E) (?&?&?&?). unfold valid_pos. rewrite A, B, C, E. auto. Qed.

Hypothesis train_local : weight_local training_sample o0.
Hypothesis test_local : weight_local testing_sample o0.

(** Weights of slots that are not loaded stay, fillers end with zero weights. *)
Lemma loads_weights is_fcn o ds o' :
  loads zero training_sample testing_sample is_fcn o ds o' -> shaped_like o0 o -> NoDup (map d_slot ds) ->
  (forall x y m s, valid_pos (o_weight o0) x y m s -> ~ In s (map d_slot ds) -> at_pos (o_weight o') x y m s = at_pos (o_weight o) x y m s) /\
  (forall d x y m, In d ds -> d_no_weight d = true -> valid_pos (o_weight o0) x y m (d_slot d) -> at_pos (o_weight o') x y m (d_slot d) = Some zero) /\
  shaped_like o0 o'.
Proof using train_local test_local.
  induction 1 as [o|o d ds o1 w o3 Hl Hw Hrest IH]; intros Hsh Hnd.
  - repeat split; auto; try apply Hsh. intros d x y m [].
  - cbn [map] in Hnd. inversion Hnd as [|a l Hni Hnd']; subst.
    assert (H1 : shaped_like o0 o1 /\ forall x y m s, valid_pos (o_weight o0) x y m s -> s <> d_slot d -> at_pos (o_weight o1) x y m s = at_pos (o_weight o) x y m s).
    { destruct (d_testing d); eauto. }
    destruct H1 as (Hsh1 & Hloc).
    pose proof Hsh1 as (A1 & A2 & A3 & A4 & A5).
    assert (Hww : wf w /\ same_shape w (o_weight o1) /\
              (forall x y m s, valid_pos (o_weight o0) x y m s -> s <> d_slot d -> at_pos w x y m s = at_pos (o_weight o1) x y m s) /\
              (d_no_weight d = true -> forall x y m, valid_pos (o_weight o0) x y m (d_slot d) -> at_pos w x y m (d_slot d) = Some zero)).
    { destruct (d_no_weight d).
      - destruct Hw as (W1 & W2 & W3). split; auto. split; auto. split.
        + intros x y m s Hv Hs. rewrite W3 by (eapply valid_pos_like; eauto). destruct (Nat.eqb_spec s (d_slot d)); [contradiction|auto].
        + intros _ x y m Hv. rewrite W3 by (eapply valid_pos_like; eauto). now rewrite Nat.eqb_refl.
      - destruct (negb (d_testing d) && is_fcn).
        + destruct Hw as (W1 & W2 & W3). split; auto. split; auto. split; [|discriminate].
          intros x y m s Hv Hs. destruct (W3 x y m s) as [E|(E & _)]; [eapply valid_pos_like; eauto|auto|contradiction].
        + subst w. split; auto. split; [apply same_shape_refl|]. split; [auto|discriminate]. }
    destruct Hww as (W1 & W2 & W3 & W4).
    destruct IH as (I1 & I2 & I3); auto.
    { split; [exact A1|]. split; [exact A2|]. split; [exact A3|]. split; [exact W1|]. cbn [with_weight o_weight]. eapply same_shape_trans; eauto. }
    cbn [with_weight o_weight] in I1.
    split; [|split; [|exact I3]].
    + intros x y m s Hv Hni'. cbn [map In] in Hni'. rewrite I1 by tauto. rewrite W3 by (auto; intros ->; tauto). apply Hloc; auto.
    + intros d' x y m [<-|Hin] Hn Hv; [|eauto]. rewrite I1 by auto. auto.
Qed.
End Filler.

(** C54: gradient checking. *)
From Coq Require Import ZArith Bool Lia Reals Lra Floats.SpecFloat.
From Flocq Require Import Core.Core.
From Verif Require Import Base BaseFacts Float32 FloatOps Float64 Float64_Flocq Gradient_Model.
From Verif Require Kitti_Props.
Local Open Scope nat_scope.

(** * Specification *)
(** The weights a test with stride [n] looks at: every n-th one of every tensor of a gradient safe layer. *)
Definition tested (unsafe : list bool) (ps : list (list f32)) (n : nat) (pe : nat * nat) : Prop :=
  nth_error unsafe (fst pe) = Some false /\ (exists l, nth_error ps (fst pe) = Some l /\ snd pe < length l) /\ exists k, snd pe = k * n.
(** The parameters with one weight replaced. *)
Definition poke (ps : list (list f32)) (p e : nat) (v : f32) : list (list f32) := upd ps p (upd (nth p ps []) e v).
(** The ratio of the numeric derivative of [L] for a weight (central difference of width 0.01, in doubles)
    to the gradient. *)
Definition ratio_of (L : list (list f32) -> f32) (gradients ps : list (list f32)) (pe : nat * nat) : double :=
  let '(p, e) := pe in
  let old := d_of_f (nth e (nth p ps []) f32_zero) in
  let up := d_of_f (L (poke ps p e (f_of_d (dadd old d_0005)))) in
  let down := d_of_f (L (poke ps p e (f_of_d (dsub old d_0005)))) in
  ddiv (ddiv (dsub up down) (dmul d_2 d_0005)) (d_of_f (nth e (nth p gradients []) f32_zero)).
Definition verdict_eqb (a b : verdict) : bool :=
  match a, b with Okay, Okay | Tolerable, Tolerable | Failed, Failed => true | _, _ => false end.
Definition how_many (f : nat * nat -> verdict) (v : verdict) (l : list (nat * nat)) : nat := length (filter (fun pe => verdict_eqb (f pe) v) l).

(** * Lists *)
Lemma upd_same {D} (l : list D) w x : nth_error l w = Some x -> upd l w x = l.
Proof. revert w. induction l as [|y l IH]; intros [|w] H; cbn in *; try discriminate; [congruence|]. f_equal. now apply IH. Qed.
Lemma upd_upd {D} (l : list D) w x y : upd (upd l w x) w y = upd l w y.
Proof. revert w. induction l as [|z l IH]; intros [|w]; cbn; congruence. Qed.
Lemma store_lt {D} (l : list D) a v : a < length l -> store l a v = Ok (upd l a v).
Proof. unfold store. now intros H%Nat.ltb_lt; rewrite H. Qed.
Lemma nth_nth_error {D} (l : list D) n x d : nth_error l n = Some x -> nth n l d = x.
Proof. apply nth_error_nth. Qed.

Lemma weight_ok ps p e l : nth_error ps p = Some l -> e < length l -> weight ps p e = Ok (nth e (nth p ps []) f32_zero).
Proof.
  intros H1 H2. unfold weight. rewrite (load_ok _ _ _ H1). cbn [bind]. rewrite (nth_error_nth _ _ _ H1).
  destruct (nth_error_lt l H2) as [v Hv]. now rewrite (load_ok _ _ _ Hv), (nth_error_nth _ _ _ Hv).
Qed.
Lemma set_weight_ok ps p e v l : nth_error ps p = Some l -> e < length l -> set_weight ps p e v = Ok (poke ps p e v).
Proof.
  intros H1 H2. unfold set_weight, poke. rewrite (load_ok _ _ _ H1). cbn [bind]. rewrite store_lt by exact H2. cbn [bind].
  rewrite (nth_error_nth _ _ _ H1). apply store_lt. apply nth_error_Some. congruence.
Qed.
Lemma poke_has ps p e v l : nth_error ps p = Some l -> nth_error (poke ps p e v) p = Some (upd l e v).
Proof. intros H. unfold poke. rewrite (nth_error_nth _ _ _ H). apply nth_error_upd_eq. apply nth_error_Some. congruence. Qed.
Lemma poke_poke ps p e u v l : nth_error ps p = Some l -> poke (poke ps p e u) p e v = poke ps p e v.
Proof.
  intros H. unfold poke at 1. rewrite (nth_error_nth _ _ _ (poke_has ps p e u l H)). unfold poke. rewrite upd_upd, (nth_error_nth _ _ _ H). now rewrite upd_upd.
Qed.
Lemma poke_back ps p e l : nth_error ps p = Some l -> e < length l -> poke ps p e (nth e (nth p ps []) f32_zero) = ps.
Proof.
  intros H1 H2. unfold poke. rewrite (nth_error_nth _ _ _ H1). destruct (nth_error_lt l H2) as [v Hv]. rewrite (nth_error_nth _ _ _ Hv).
  rewrite (upd_same l e v Hv). now apply upd_same.
Qed.

(** * The loop over the weights *)
Lemma indices_spec fuel : forall elements stride e k, (0 < stride)%Z -> (0 <= e)%Z -> (elements + stride <= 2 ^ 32)%Z -> (e = k * stride)%Z -> (0 <= k)%Z -> (elements - e <= Z.of_nat fuel)%Z ->
  exists l, indices fuel elements stride e = Some l /\ NoDup l /\
    forall i, In i l <-> (e <= Z.of_nat i < elements)%Z /\ exists j, (k <= j)%Z /\ Z.of_nat i = (j * stride)%Z.
Proof.
  induction fuel as [|fuel IH]; intros elements stride e k Hs He Hw Ek Hk Hf; cbn [indices].
  - destruct (Z.ltb_spec e elements); [lia|]. exists []. split; [reflexivity|]. split; [constructor|]. cbn. split; [tauto|lia].
  - destruct (Z.ltb_spec e elements) as [Lt|Ge].
    + rewrite Z.mod_small by lia.
      destruct (IH elements stride (e + stride)%Z (k + 1)%Z) as (l & El & Nd & Sp); [lia|lia|lia|lia|lia|lia|].
      rewrite El. cbn [option_map]. eexists. split; [reflexivity|]. split.
      * constructor; [|exact Nd]. rewrite Sp. lia.
      * intros i. cbn [In]. rewrite Sp. split.
        -- intros [<- |((A & B) & j & C & D)].
           ++ rewrite Z2Nat.id by lia. split; [lia|]. exists k. lia.
           ++ split; [lia|]. exists j. lia.
        -- intros ((A & B) & j & C & D). destruct (Z.eq_dec j k) as [-> |Hj]; [left; lia|right]. split; [nia|]. exists j. lia.
    + exists []. split; [reflexivity|]. split; [constructor|]. cbn. split; [tauto|lia].
Qed.

Lemma nodup_app {A} (a b : list A) : NoDup a -> NoDup b -> (forall x, In x a -> ~ In x b) -> NoDup (a ++ b).
Proof.
  induction 1 as [|x a Hx Ha IH]; intros Hb Hd; [exact Hb|]. cbn. constructor.
  - rewrite in_app_iff. intros [H|H]; [tauto|]. now apply (Hd x (or_introl eq_refl)).
  - apply IH; auto. intros y Hy. apply Hd. now right.
Qed.
Lemma plan_spec fuel n : forall unsafe ps p0, 0 < n -> (forall l, In l ps -> (Z.of_nat (length l) + Z.of_nat n <= 2 ^ 32)%Z /\ length l <= fuel) ->
  exists todo, plan fuel (Z.of_nat n) p0 unsafe ps = Some todo /\
    NoDup (flat_map (fun pi => map (pair (fst pi)) (snd pi)) todo) /\
    (forall pe, In pe (flat_map (fun pi => map (pair (fst pi)) (snd pi)) todo) <-> p0 <= fst pe /\ tested unsafe ps n (fst pe - p0, snd pe)).
Proof.
  intros unsafe. induction unsafe as [|u us IH]; intros ps p0 Hn Hl.
  - exists []. split; [now destruct ps|]. split; [constructor|]. intros pe. cbn. split; [tauto|]. intros (_ & H & _). cbn in H. destruct (fst pe - p0); discriminate.
  - destruct ps as [|l ps].
    + exists []. split; [now destruct u|]. split; [constructor|]. intros pe. cbn. split; [tauto|]. intros (_ & _ & (l & H & _) & _). cbn in H. destruct (fst pe - p0); discriminate.
    + destruct (IH ps (S p0) Hn) as (todo & E & Nd & Sp); [intros l' Hl'; apply Hl; now right|].
      assert (Step : forall pe, S p0 <= fst pe -> (tested (u :: us) (l :: ps) n (fst pe - p0, snd pe) <-> tested us ps n (fst pe - S p0, snd pe))).
      { intros pe Hp. unfold tested. cbn [fst snd]. replace (fst pe - p0) with (S (fst pe - S p0)) by lia. reflexivity. }
      destruct u; cbn [plan].
      * exists todo. split; [exact E|]. split; [exact Nd|]. intros pe. rewrite Sp. split.
        -- intros [H1 H2]. split; [lia|]. now apply Step.
        -- intros [H1 H2]. destruct (Nat.eq_dec (fst pe) p0) as [Eq|Ne].
           ++ destruct H2 as (H2 & _). cbn [fst] in H2. rewrite Eq, Nat.sub_diag in H2. discriminate.
           ++ split; [lia|]. apply Step; [lia|exact H2].
      * destruct (Hl l (or_introl eq_refl)) as [Hw Hf].
        destruct (indices_spec fuel (Z.of_nat (length l)) (Z.of_nat n) 0 0) as (is & Ei & Ni & Si); [lia..|].
        rewrite Ei, E. eexists. split; [reflexivity|]. cbn [flat_map fst snd]. split.
        -- apply nodup_app; [apply FinFun.Injective_map_NoDup; [intros a b H; congruence|exact Ni]|exact Nd|].
           intros x Hx Hy. apply in_map_iff in Hx. destruct Hx as (i & <- & _). apply Sp in Hy. cbn in Hy. lia.
        -- intros pe. rewrite in_app_iff, in_map_iff, Sp. split.
           ++ intros [(i & <- & Hi)|[H1 H2]].
              ** apply Si in Hi. destruct Hi as ((A & B) & j & C & D). cbn [fst snd]. split; [lia|]. rewrite Nat.sub_diag. split; [reflexivity|].
                 split; [exists l; split; [reflexivity|cbn [snd]; lia]|]. exists (Z.to_nat j). cbn [snd]. apply Nat2Z.inj. rewrite Nat2Z.inj_mul, Z2Nat.id by lia. exact D.
              ** split; [lia|]. now apply Step.
           ++ intros [H1 H2]. destruct (Nat.eq_dec (fst pe) p0) as [Eq|Ne].
              ** left. destruct H2 as (_ & (l' & Hl' & Hlt) & k & Hk). cbn [fst snd] in *. rewrite Eq, Nat.sub_diag in Hl'. cbn in Hl'. injection Hl' as <-.
                 exists (snd pe). split; [rewrite <- Eq; now destruct pe|]. apply Si. split; [lia|]. exists (Z.of_nat k). split; [lia|]. rewrite Hk. apply Nat2Z.inj_mul.
              ** right. split; [lia|]. apply Step; [lia|exact H2].
Qed.

(** * The test *)
Section Test.
Variable W : Type.
Variable forward : W -> list (list f32) -> W.
Variable backward : W -> list (list f32) -> W * list (list f32).
Variable loss : W -> f32.
Notation testing := (Gradient_Model.testing W).
Notation test_weight := (Gradient_Model.test_weight W forward loss).
Notation test_tensor := (Gradient_Model.test_tensor W forward loss).
Notation test_gradient := (Gradient_Model.test_gradient W forward backward loss).

Definition same_sizes (gradients ps : list (list f32)) : Prop := map (@length f32) gradients = map (@length f32) ps.
Lemma same_sizes_nth gradients ps p l : same_sizes gradients ps -> nth_error ps p = Some l -> exists g, nth_error gradients p = Some g /\ length g = length l.
Proof.
  intros H E. assert (E' : nth_error (map (@length f32) gradients) p = Some (length l)) by (rewrite H; now apply map_nth_error).
  destruct (nth_error gradients p) as [g|] eqn:Eg; [|now rewrite nth_error_map, Eg in E'].
  rewrite nth_error_map, Eg in E'. cbn in E'. injection E' as E'. eauto.
Qed.

Definition balanced (c : counts) : Prop := c_okay c + c_tolerable c + c_failed c = c_total c.

Lemma test_weight_spec gradients ps p e l (t : testing) : same_sizes gradients ps -> nth_error ps p = Some l -> e < length l -> t_params t = ps ->
  exists w v, test_weight gradients p t e = Ok (mkTesting ps w (count v (t_counts t))) /\
    (forall L, (forall w qs, loss (forward w qs) = L qs) -> v = judge (ratio_of L gradients ps (p, e))).
Proof.
  intros Hg Hp He Ht. unfold Gradient_Model.test_weight. rewrite Ht. rewrite (weight_ok ps p e l) by auto. cbn [bind].
  rewrite (set_weight_ok ps p e _ l) by auto. cbn [bind].
  rewrite (set_weight_ok (poke ps p e _) p e _ (upd l e (f_of_d (dadd (d_of_f (nth e (nth p ps []) f32_zero)) d_0005)))); [|now apply poke_has|now rewrite upd_length].
  cbn [bind]. rewrite (poke_poke ps p e _ _ l Hp).
  destruct (same_sizes_nth _ _ _ _ Hg Hp) as (g & Eg & Lg). rewrite (weight_ok gradients p e g) by (auto; lia). cbn [bind].
  rewrite (set_weight_ok (poke ps p e _) p e _ (upd l e (f_of_d (dsub (d_of_f (nth e (nth p ps []) f32_zero)) d_0005)))); [|now apply poke_has|now rewrite upd_length].
  cbn [bind]. rewrite (poke_poke ps p e _ _ l Hp), (poke_back ps p e l Hp He). eexists _, _. split; [reflexivity|].
  intros L HL. unfold ratio_of. rewrite !HL. reflexivity.
Qed.

(** The counts after some more verdicts. *)
Definition counted (c : counts) (vs : list verdict) : counts := fold_left (fun c v => count v c) vs c.
Lemma test_weights_spec gradients ps p l is : forall t : testing, same_sizes gradients ps -> nth_error ps p = Some l -> (forall e, In e is -> e < length l) -> t_params t = ps ->
  exists w vs, foldm (test_weight gradients p) is t = Ok (mkTesting ps w (counted (t_counts t) vs)) /\ length vs = length is /\
    (forall L, (forall w qs, loss (forward w qs) = L qs) -> vs = map (fun e => judge (ratio_of L gradients ps (p, e))) is).
Proof.
  induction is as [|e is IH]; intros t Hg Hp Hi Ht; cbn [foldm].
  - exists (t_world t), []. split; [destruct t; cbn in *; now subst|]. auto.
  - destruct (test_weight_spec gradients ps p e l t Hg Hp (Hi e (or_introl eq_refl)) Ht) as (w & v & -> & Hv). cbn [bind].
    destruct (IH (mkTesting ps w (count v (t_counts t))) Hg Hp (fun e' H => Hi e' (or_intror H)) eq_refl) as (w' & vs & -> & Hl & Hvs).
    exists w', (v :: vs). split; [reflexivity|]. split; [cbn; congruence|]. intros L HL. cbn [map]. now rewrite (Hv L HL), (Hvs L HL).
Qed.

Definition count_of (v : verdict) (vs : list verdict) : nat := length (filter (fun u => verdict_eqb u v) vs).
Lemma counted_fields c vs : counted c vs = mkCounts (c_okay c + count_of Okay vs) (c_tolerable c + count_of Tolerable vs) (c_failed c + count_of Failed vs) (c_total c + length vs).
Proof.
  revert c. induction vs as [|v vs IH]; intros c.
  - cbn. rewrite !Nat.add_0_r. now destruct c.
  - cbn [counted fold_left]. fold (counted (count v c) vs). rewrite IH. unfold count_of. destruct v; cbn; f_equal; lia.
Qed.
Lemma count_of_app v a b : count_of v (a ++ b) = count_of v a + count_of v b.
Proof. unfold count_of. now rewrite filter_app, app_length. Qed.
Lemma add_counted g vs : add_counts g (counted no_counts vs) = counted g vs.
Proof. rewrite !counted_fields. unfold add_counts. cbn. reflexivity. Qed.
Lemma counted_app c a b : counted c (a ++ b) = counted (counted c a) b.
Proof. unfold counted. apply fold_left_app. Qed.

Definition pairs (todo : list (nat * list nat)) : list (nat * nat) := flat_map (fun pi => map (pair (fst pi)) (snd pi)) todo.
Lemma test_tensors_spec gradients ps todo : forall t : testing, same_sizes gradients ps ->
  (forall pe, In pe (pairs todo) -> exists l, nth_error ps (fst pe) = Some l /\ snd pe < length l) -> t_params t = ps ->
  exists w vs, foldm (test_tensor gradients) todo t = Ok (mkTesting ps w (counted (t_counts t) vs)) /\ length vs = length (pairs todo) /\
    (forall L, (forall w qs, loss (forward w qs) = L qs) -> vs = map (fun pe => judge (ratio_of L gradients ps pe)) (pairs todo)).
Proof.
  induction todo as [|(p, is) todo IH]; intros t Hg Hi Ht; cbn [foldm].
  - exists (t_world t), []. split; [destruct t; cbn in *; now subst|]. auto.
  - assert (Hh : exists w vs, test_tensor gradients t (p, is) = Ok (mkTesting ps w (counted (t_counts t) vs)) /\ length vs = length is /\
              (forall L, (forall w qs, loss (forward w qs) = L qs) -> vs = map (fun e => judge (ratio_of L gradients ps (p, e))) is)).
    { unfold Gradient_Model.test_tensor. cbn [fst snd]. destruct is as [|i is].
      - exists (t_world t), []. split; [|auto]. cbn [foldm bind]. unfold add_counts, no_counts, counted. cbn. rewrite !Nat.add_0_r, Ht. now destruct (t_counts t).
      - destruct (Hi (p, i)) as (l & Hl & _); [left; reflexivity|]. cbn [fst] in Hl.
        destruct (test_weights_spec gradients ps p l (i :: is) (mkTesting (t_params t) (t_world t) no_counts) Hg Hl) as (w & vs & E & El & Ev); [|exact Ht|].
        + intros e He. destruct (Hi (p, e)) as (l' & Hl' & He'); [|cbn in *; congruence].
          unfold pairs. cbn [flat_map fst snd]. apply in_app_iff. left. now apply in_map.
        + rewrite E. cbn [bind t_params t_world t_counts]. rewrite add_counted. exists w, vs. auto. }
    destruct Hh as (w & vs & -> & Hl & Hv). cbn [bind].
    destruct (IH (mkTesting ps w (counted (t_counts t) vs)) Hg) as (w' & vs' & -> & Hl' & Hv'); [|reflexivity|].
    { intros pe Hpe. apply Hi. unfold pairs. cbn [flat_map]. apply in_app_iff. now right. }
    exists w', (vs ++ vs'). cbn [t_counts]. rewrite counted_app. split; [reflexivity|]. unfold pairs. cbn [flat_map fst snd]. split.
    + rewrite !app_length, map_length. unfold pairs in Hl'. lia.
    + intros L HL. rewrite map_app, (Hv L HL), (Hv' L HL), map_map. reflexivity.
Qed.

(** What a gradient check does to the network and what it counts, for every network (the passes may have any
    effect on the world they run in): every parameter has its old value, the tested weights are every n-th one
    of each tensor, each is counted once, and the check is fatal exactly when a failure was counted and
    [fatal_fail] is set. *)
Theorem C54_parameters fuel unsafe skip fatal_fail w ps :
  let n := S skip in
  same_sizes (snd (backward (forward w ps) ps)) ps ->
  (forall l, In l ps -> (Z.of_nat (length l) + Z.of_nat n <= 2 ^ 32)%Z /\ length l <= fuel) -> (Z.of_nat n < 2 ^ 32)%Z ->
  exists w' c, test_gradient fuel unsafe (Z.of_nat skip) fatal_fail w ps = Some (Ok (mkTesting ps w' c, (0 <? c_failed c) && fatal_fail)) /\
    c_okay c + c_tolerable c + c_failed c = c_total c /\
    exists which, NoDup which /\ (forall pe, In pe which <-> tested unsafe ps n pe) /\ c_total c = length which.
Proof.
  intros n Hg Hl Hn. unfold Gradient_Model.test_gradient. destruct (backward (forward w ps) ps) as [w2 gradients] eqn:Eb. cbn [snd] in Hg.
  replace (stride_of (Z.of_nat skip)) with (Z.of_nat n) by (unfold stride_of, n; rewrite Z.mod_small; lia).
  destruct (plan_spec fuel n unsafe ps 0 ltac:(unfold n; lia) Hl) as (todo & -> & Nd & Sp).
  assert (Sp' : forall pe, In pe (pairs todo) <-> tested unsafe ps n pe).
  { intros [p e]. unfold pairs. rewrite Sp. cbn [fst snd]. rewrite Nat.sub_0_r. intuition lia. }
  destruct (test_tensors_spec gradients ps todo (mkTesting ps w2 no_counts) Hg) as (w' & vs & -> & Hlen & _); [|reflexivity|].
  { intros pe Hpe. apply Sp' in Hpe. exact (proj1 (proj2 Hpe)). }
  cbn [bind]. eexists w', _. split; [reflexivity|]. cbn [t_counts]. rewrite counted_fields. cbn. split.
  - clear. induction vs as [|v vs IH]; [reflexivity|]. unfold count_of in *. destruct v; cbn; lia.
  - exists (pairs todo). auto.
Qed.

(** When the loss is a function [L] of the parameters (constant input, no random masks), the counts are the numbers
    of tested weights whose ratio of numeric derivative to gradient falls in each class. *)
Theorem C54_counts fuel unsafe skip fatal_fail w ps L :
  let n := S skip in let gradients := snd (backward (forward w ps) ps) in
  same_sizes gradients ps -> (forall w qs, loss (forward w qs) = L qs) ->
  (forall l, In l ps -> (Z.of_nat (length l) + Z.of_nat n <= 2 ^ 32)%Z /\ length l <= fuel) -> (Z.of_nat n < 2 ^ 32)%Z ->
  exists w' c b which, test_gradient fuel unsafe (Z.of_nat skip) fatal_fail w ps = Some (Ok (mkTesting ps w' c, b)) /\
    NoDup which /\ (forall pe, In pe which <-> tested unsafe ps n pe) /\
    let f := fun pe => judge (ratio_of L gradients ps pe) in
    c_okay c = how_many f Okay which /\ c_tolerable c = how_many f Tolerable which /\ c_failed c = how_many f Failed which /\
    (b = true <-> fatal_fail = true /\ exists pe, tested unsafe ps n pe /\ f pe = Failed).
Proof.
  intros n gradients Hg HL Hl Hn. unfold Gradient_Model.test_gradient. destruct (backward (forward w ps) ps) as [w2 gr] eqn:Eb. cbn [snd] in gradients. subst gradients.
  replace (stride_of (Z.of_nat skip)) with (Z.of_nat n) by (unfold stride_of, n; rewrite Z.mod_small; lia).
  destruct (plan_spec fuel n unsafe ps 0 ltac:(unfold n; lia) Hl) as (todo & -> & Nd & Sp).
  assert (Sp' : forall pe, In pe (pairs todo) <-> tested unsafe ps n pe).
  { intros [p e]. unfold pairs. rewrite Sp. cbn [fst snd]. rewrite Nat.sub_0_r. intuition lia. }
  destruct (test_tensors_spec gr ps todo (mkTesting ps w2 no_counts) Hg) as (w' & vs & -> & Hlen & Hv); [|reflexivity|].
  { intros pe Hpe. apply Sp' in Hpe. exact (proj1 (proj2 Hpe)). }
  cbn [bind]. eexists w', _, _, (pairs todo). split; [reflexivity|]. split; [exact Nd|]. split; [exact Sp'|].
  cbn [t_counts]. rewrite counted_fields. cbn [c_okay c_tolerable c_failed no_counts Nat.add].
  specialize (Hv L HL). subst vs. set (f := fun pe => judge (ratio_of L gr ps pe)).
  assert (C : forall v l, count_of v (map f l) = how_many f v l).
  { intros v l. unfold count_of, how_many. induction l as [|a l IH]; [reflexivity|]. cbn [map filter]. destruct (verdict_eqb (f a) v); cbn; now rewrite IH. }
  rewrite !C. split; [reflexivity|]. split; [reflexivity|]. split; [reflexivity|]. split.
  - intros [H1 H2]%andb_true_iff. split; [exact H2|]. apply Nat.ltb_lt in H1. unfold how_many in H1.
    destruct (filter (fun pe => verdict_eqb (f pe) Failed) (pairs todo)) as [|pe rest] eqn:E; [cbn in H1; lia|].
    assert (I : In pe (pe :: rest)) by now left. rewrite <- E in I. apply filter_In in I. destruct I as [I1 I2].
    exists pe. split; [now apply Sp'|]. fold (f pe). fold (f pe) in I2. now destruct (f pe).
  - intros [-> (pe & I & F)]. rewrite andb_true_r. apply Nat.ltb_lt. unfold how_many.
    assert (I' : In pe (filter (fun pe => verdict_eqb (f pe) Failed) (pairs todo))).
    { apply filter_In. split; [now apply Sp'|]. fold (f pe) in F. now rewrite F. }
    destruct (filter _ _); [easy|cbn; lia].
Qed.

(** * One layer *)
(** DoGradientTest of one tensor: the tensor has its old values afterwards, and the answer is yes exactly when all
    elements are okay or more than 85 percent of them are.  [okay] is the number of elements that are. *)
Definition element_ok (epsilon : f32) (L : list (list f32) -> f32) (delta data : list f32) (e : nat) : bool :=
  let old := nth e data f32_zero in
  let numeric := f_of_d (ddiv (d_of_f (fsub (L [upd data e (fadd old epsilon)]) (L [upd data e (fsub old epsilon)]))) (dmul d_2 (d_of_f epsilon))) in
  let ratio := d_of_f (fdiv numeric (nth e delta f32_zero)) in
  negb (SFltb d_12 ratio || SFltb ratio d_08).
Notation test_element := (Gradient_Model.test_element W forward loss).
Notation do_gradient_test := (Gradient_Model.do_gradient_test W forward backward loss).

Lemma test_element_spec epsilon delta data w okay e : length delta = length data -> e < length data ->
  exists w' b, test_element epsilon delta (data, w, okay) e = Ok (data, w', if b : bool then S okay else okay) /\
    (forall L, (forall w qs, loss (forward w qs) = L qs) -> b = element_ok epsilon L delta data e).
Proof.
  intros Hd He. unfold Gradient_Model.test_element. destruct (nth_error_lt data He) as [v Hv]. destruct (nth_error_lt delta (a := e)) as [g Hg]; [lia|].
  rewrite (load_ok _ _ _ Hv). cbn [bind]. rewrite (load_ok _ _ _ Hg). cbn [bind]. rewrite store_lt by exact He. cbn [bind].
  rewrite store_lt by now rewrite upd_length. cbn [bind]. rewrite upd_upd. rewrite store_lt by now rewrite upd_length. cbn [bind].
  rewrite upd_upd, (upd_same _ _ _ Hv). eexists _, (negb _). split.
  - rewrite if_negb. reflexivity.
  - intros L HL. unfold element_ok. rewrite (nth_error_nth _ _ _ Hv), (nth_error_nth _ _ _ Hg), !HL. reflexivity.
Qed.
Lemma test_elements_spec epsilon delta data is : forall w okay, length delta = length data -> (forall e, In e is -> e < length data) ->
  exists w' k, foldm (test_element epsilon delta) is (data, w, okay) = Ok (data, w', okay + k) /\ k <= length is /\
    (forall L, (forall w qs, loss (forward w qs) = L qs) -> k = length (filter (element_ok epsilon L delta data) is)).
Proof.
  induction is as [|e is IH]; intros w okay Hd Hi; cbn [foldm].
  - exists w, 0. rewrite Nat.add_0_r. auto.
  - destruct (test_element_spec epsilon delta data w okay e Hd (Hi e (or_introl eq_refl))) as (w1 & b & -> & Hb). cbn [bind].
    destruct (IH w1 (if b then S okay else okay) Hd (fun x H => Hi x (or_intror H))) as (w' & k & -> & Hk & Hf).
    exists w', ((if b then 1 else 0) + k). split; [do 2 f_equal; destruct b; lia|]. split; [cbn; destruct b; lia|].
    intros L HL. cbn [filter]. rewrite (Hf L HL). rewrite <- (Hb L HL). now destruct b.
Qed.

Lemma rate_spec okay n : (okay <= n) -> 0 < n -> (Z.of_nat n < 2 ^ 32)%Z ->
  SFltb d_085 (ddiv (d_of_Z (Z.of_nat okay)) (d_of_Z (Z.of_nat n))) = (17 * n <? 20 * okay).
Proof.
  intros Ho Hn Hs.
  assert (Z53 : forall k, (0 <= k < 2 ^ 32)%Z -> rep64 (d_of_Z k) (IZR k)).
  { intros k Hk. rewrite <- (rnd64_int k) by lia. apply rep64_Z. rewrite (rnd64_int k) by lia. rewrite Rabs_right by (apply Rle_ge, IZR_le; lia).
    apply Rlt_trans with (bpow radix2 128); [|apply bpow_lt; lia]. apply big_bpow, IZR_le. apply Z.le_trans with (2 ^ 32)%Z; [lia|now vm_compute]. }
  set (r := (IZR (Z.of_nat okay) / IZR (Z.of_nat n))%R).
  assert (N0 : (0 < IZR (Z.of_nat n))%R) by (apply IZR_lt; lia).
  assert (Rr : (0 <= r <= 1)%R).
  { split; [apply Rmult_le_pos; [apply IZR_le; lia|apply Rlt_le, Rinv_0_lt_compat, N0]|].
    apply Rmult_le_reg_r with (IZR (Z.of_nat n)); [exact N0|]. unfold r, Rdiv. rewrite Rmult_assoc, Rinv_l, Rmult_1_r, Rmult_1_l by lra. apply IZR_le. lia. }
  assert (D := rep64_div _ _ _ _ (Z53 (Z.of_nat okay) ltac:(lia)) (Z53 (Z.of_nat n) ltac:(lia)) ltac:(lra) (proj1 (Kitti_Props.small r ltac:(lra)))).
  set (c := (IZR 7656119366529843 * bpow radix2 (-53))%R).
  assert (C : rep64 d_085 c) by (apply (Kitti_Props.rep64_finite false 7656119366529843 (-53)); reflexivity).
  rewrite (rep64_ltb _ _ _ _ C D).
  assert (Cb : (c <= 17 / 20 <= c + / 9007199254740992)%R) by (unfold c; cbn; lra).
  destruct (Nat.ltb_spec (17 * n) (20 * okay)) as [L|L].
  - apply Rlt_bool_true. set (c' := (IZR 7656119366529844 * bpow radix2 (-53))%R). apply Rlt_le_trans with c'; [unfold c, c'; cbn; lra|].
    unfold c'. rewrite <- (rnd64_dyadic 7656119366529844 (-53)) by lia. apply rnd64_le.
    apply Rmult_le_reg_r with (IZR (Z.of_nat n)); [exact N0|]. unfold r, Rdiv. rewrite (Rmult_assoc (IZR (Z.of_nat okay))), Rinv_l, Rmult_1_r by lra.
    apply Rmult_le_reg_r with 9007199254740992%R; [lra|]. replace (IZR 7656119366529844 * bpow radix2 (-53) * IZR (Z.of_nat n) * 9007199254740992)%R with (IZR 7656119366529844 * IZR (Z.of_nat n))%R by (cbn; field).
    rewrite <- !mult_IZR. apply IZR_le. nia.
  - apply Rlt_bool_false. apply Rle_trans with (rnd64 (17 / 20)).
    + apply rnd64_le. apply Rmult_le_reg_r with (IZR (Z.of_nat n)); [exact N0|]. unfold r, Rdiv. rewrite (Rmult_assoc (IZR (Z.of_nat okay))), Rinv_l, Rmult_1_r by lra.
      apply Rmult_le_reg_l with 20%R; [lra|]. replace (20 * (17 * / 20 * IZR (Z.of_nat n)))%R with (17 * IZR (Z.of_nat n))%R by field.
      rewrite <- !mult_IZR. apply IZR_le. lia.
    + assert (E : rep64 (ddiv (d_of_Z 17) (d_of_Z 20)) (rnd64 (17 / 20))) by (apply rep64_div; [now apply Z53|now apply Z53|lra|apply Kitti_Props.small; lra]).
      replace (ddiv (d_of_Z 17) (d_of_Z 20)) with d_085 in E by (vm_compute; reflexivity).
      destruct C as (b & Eb & Fb & Vb), E as (b' & Eb' & Fb' & Vb'). rewrite Eb in Eb'. apply BinarySingleNaN.B2SF_inj in Eb'. subst b'. lra.
Qed.

Theorem C54_layer unsafe write_deltas epsilon w data :
  (forall w, exists delta rest, snd (backward w [data]) = delta :: rest /\ length delta = length data) -> (Z.of_nat (length data) < 2 ^ 32)%Z ->
  exists answer, do_gradient_test unsafe write_deltas epsilon w data = Ok (answer, data) /\
    (unsafe = true -> answer = true) /\
    (forall L delta, (forall w qs, loss (forward w qs) = L qs) -> unsafe = false -> nth_error (snd (backward (write_deltas (forward w [data])) [data])) 0 = Some delta ->
       let okay := length (filter (element_ok epsilon L delta data) (seq 0 (length data))) in
       answer = true <-> okay = length data \/ 85 * length data < 100 * okay).
Proof.
  intros Hb Hn. unfold Gradient_Model.do_gradient_test. destruct unsafe; [exists true; repeat split; auto; intros; congruence|].
  destruct (Hb (write_deltas (forward w [data]))) as (delta & rest & Ed & Ld).
  destruct (backward (write_deltas (forward w [data])) [data]) as [w2 gradients]. cbn [snd] in *. subst gradients. cbn [load nth_error bind].
  destruct (test_elements_spec epsilon delta data (seq 0 (length data)) w2 0 Ld) as (w' & k & -> & Hk & Hf); [intros e He; apply in_seq in He; lia|].
  cbn [bind Nat.add]. rewrite seq_length in Hk. eexists. split; [reflexivity|]. split; [discriminate|].
  intros L delta' HL _ E. cbn [nth_error] in E. injection E as <-. cbv zeta. rewrite <- (Hf L HL).
  destruct (Nat.eqb_spec k (length data)) as [->|Hne]; [tauto|]. rewrite rate_spec by lia. rewrite Nat.ltb_lt. lia.
Qed.
End Test.

(** * Verdicts *)
(** For a finite ratio [r] the classes are those of the log messages: within 2 percent, within 20 percent, beyond
    (the bounds are the doubles nearest to 1.02, 0.98, 1.2 and 0.8). *)
Definition about (d : double) (v : R) : Prop := exists r, rep64 d r /\ (v - / 10 ^ 15 <= r <= v + / 10 ^ 15)%R.
Theorem C54_verdict : exists u2 l2 u20 l20, about u2 (102 / 100) /\ about l2 (98 / 100) /\ about u20 (12 / 10) /\ about l20 (8 / 10) /\
  forall x r ru2 rl2 ru20 rl20, rep64 x r -> rep64 u2 ru2 -> rep64 l2 rl2 -> rep64 u20 ru20 -> rep64 l20 rl20 ->
    (judge x = Okay <-> (rl2 <= r <= ru2)%R) /\
    (judge x = Tolerable <-> (rl20 <= r < rl2 \/ ru2 < r <= ru20)%R) /\
    (judge x = Failed <-> (r < rl20 \/ ru20 < r)%R).
Proof.
  exists d_102, d_098, d_12, d_08.
  assert (K : forall m e v (H : SpecFloat.bounded 53 1024 m e = true), (v - / 10 ^ 15 <= IZR (Z.pos m) * bpow radix2 e <= v + / 10 ^ 15)%R -> about (S754_finite false m e) v).
  { intros m e v H B. eexists. split; [apply (Kitti_Props.rep64_finite false m e H)|exact B]. }
  assert (A1 : about d_102 (102 / 100)) by (apply K; [reflexivity|cbn; lra]). assert (A2 : about d_098 (98 / 100)) by (apply K; [reflexivity|cbn; lra]).
  assert (A3 : about d_12 (12 / 10)) by (apply K; [reflexivity|cbn; lra]). assert (A4 : about d_08 (8 / 10)) by (apply K; [reflexivity|cbn; lra]).
  split; [exact A1|]. split; [exact A2|]. split; [exact A3|]. split; [exact A4|].
  assert (U : forall d a b, rep64 d a -> rep64 d b -> a = b).
  { intros d a b (x & E & _ & <-) (y & E' & _ & <-). rewrite E in E'. apply BinarySingleNaN.B2SF_inj in E'. now subst. }
  intros x r ru2 rl2 ru20 rl20 Hx H1 H2 H3 H4.
  destruct A1 as (a1 & R1 & B1), A2 as (a2 & R2 & B2), A3 as (a3 & R3 & B3), A4 as (a4 & R4 & B4).
  rewrite (U _ _ _ R1 H1) in B1. rewrite (U _ _ _ R2 H2) in B2. rewrite (U _ _ _ R3 H3) in B3. rewrite (U _ _ _ R4 H4) in B4.
  unfold judge. rewrite (rep64_ltb _ _ _ _ H1 Hx), (rep64_ltb _ _ _ _ Hx H2), (rep64_ltb _ _ _ _ H3 Hx), (rep64_ltb _ _ _ _ Hx H4).
  assert (T : (/ 10 ^ 15 < / 1000)%R) by (apply Rinv_lt_contravar; lra).
  destruct (Rlt_bool_spec ru2 r), (Rlt_bool_spec r rl2), (Rlt_bool_spec ru20 r), (Rlt_bool_spec r rl20); cbn [orb];
    repeat split; intros; try discriminate; try reflexivity; try lra.
Qed.

(** * Findings *)
(** The step and the factor in the difference quotient are 0.005 and 2. *)
Theorem C54_quotient : about d_0005 (5 / 1000) /\ rep64 d_2 2.
Proof.
  split.
  - exists (IZR (Z.pos 5764607523034235) * bpow radix2 (-60))%R. split; [apply (Kitti_Props.rep64_finite false 5764607523034235 (-60)); reflexivity|]. cbn. lra.
  - replace 2%R with (IZR (Z.pos 4503599627370496) * bpow radix2 (-51))%R by (cbn; lra). apply (Kitti_Props.rep64_finite false 4503599627370496 (-51)). reflexivity.
Qed.
(** A ratio that is not a number (a gradient that is NaN, or 0/0) counts as okay: a network whose gradients are all
    NaN passes the check. *)
Theorem C54_nan_refuted : exists (L : list (list f32) -> f32) gradients ps, same_sizes gradients ps /\
  (forall g, In g gradients -> Forall (fun a => sf_of_bits a = S754_nan) g) /\
  exists t, test_gradient unit (fun _ _ => tt) (fun _ _ => (tt, gradients)) (fun _ => L ps) 10 [false] 0 true tt ps = Some (Ok (t, false)) /\
    c_total (t_counts t) = 2 /\ c_okay (t_counts t) = 2.
Proof.
  exists (fun _ => f32_one), [[2143289344; 2143289344]%Z], [[f32_one; f32_one]]. split; [reflexivity|]. split.
  - intros g [<-|[]]. repeat constructor.
  - eexists. vm_compute. repeat split.
Qed.
(** With skip_weights = 2^32 - 1 the stride is 0 and the check never ends. *)
Theorem C54_stride_refuted fuel w0 (ps : list (list f32)) : (exists l rest, ps = l :: rest /\ l <> []) ->
  test_gradient unit (fun _ _ => tt) (fun _ _ => (tt, ps)) (fun _ => f32_one) fuel [false] (2 ^ 32 - 1) true w0 ps = None.
Proof.
  intros (l & rest & -> & Hl). unfold test_gradient. cbn [plan]. change (stride_of (2 ^ 32 - 1)) with 0%Z.
  replace (indices fuel (Z.of_nat (length l)) 0 0) with (@None (list nat)); [reflexivity|]. symmetry.
  assert (H : (0 <? Z.of_nat (length l))%Z = true) by (apply Z.ltb_lt; destruct l; [congruence|cbn; lia]).
  induction fuel as [|fuel IH]; cbn [indices]; rewrite H; [reflexivity|]. change ((0 + 0) mod 2 ^ 32)%Z with 0%Z. now rewrite IH.
Qed.

Print Assumptions C54_parameters.
Print Assumptions C54_counts.
Print Assumptions C54_layer.
Print Assumptions C54_verdict.
Print Assumptions C54_quotient.
Print Assumptions C54_nan_refuted.
Print Assumptions C54_stride_refuted.

(** A network with loss a^2 + b at a single parameter tensor [a; b] = [1; 3] and gradients [2; 2.2], the second one being wrong. *)
Definition square (ps : list (list f32)) : f32 := match ps with [a; b] :: _ => fadd (fmul a a) b | _ => f32_zero end.
Definition ex_forward (_ : f32) (ps : list (list f32)) : f32 := square ps.
Definition ex_backward (w : f32) (ps : list (list f32)) : f32 * list (list f32) := (w, [[1073741824; 1074580685]%Z]).
Example C54_ex : exists w c, test_gradient f32 ex_forward ex_backward (fun w => w) 5 [false] 0 true f32_zero [[f32_one; 1077936128%Z]] =
    Some (Ok (mkTesting [[f32_one; 1077936128%Z]] w c, true)) /\ c = mkCounts 1 0 1 2.
Proof. eexists _, _. vm_compute. split; reflexivity. Qed.
Example C54_ex_meets : same_sizes (snd (ex_backward (ex_forward f32_zero [[f32_one; 1077936128%Z]]) [[f32_one; 1077936128%Z]])) [[f32_one; 1077936128%Z]] /\
  (forall w qs, ex_forward w qs = square qs).
Proof. split; reflexivity. Qed.

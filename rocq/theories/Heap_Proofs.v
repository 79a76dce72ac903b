(** The ownership invariant of [Heap_Model]. *)
From Verif Require Import Base BaseFacts Heap_Model Heap_Spec.
From Verif Require Tensor_Model.

Section Proofs.
Variable D : Type.
Variable junk : nat -> D.
Variable page_size datum_size : nat.
Notation state := (Heap_Model.state D).
Notation block := (Heap_Model.block D).
Notation delete_if_possible := (Heap_Model.delete_if_possible page_size datum_size).
Notation resize := (Heap_Model.resize junk page_size datum_size).
Notation map_file := (Heap_Model.map_file page_size datum_size).
Notation step := (Heap_Model.step junk page_size datum_size).

Definition at_ (ts : list (option handle)) (i : nat) (h : handle) : Prop := nth_error ts i = Some (Some h).

(** A handle that fits the blocks. *)
Definition fits (bs : list block) (h : handle) : Prop :=
  match h_ptr h with
  | None => h = empty_handle
  | Some a => exists b, nth_error bs a = Some b /\ length (b_data b) = h_elements h /\
      h_elements h = h_samples h * h_maps h * h_width h * h_height h /\ 0 < h_elements h /\
      if h_shadow h then h_mapped h = false /\ h_original h = None
      else b_live b = true /\
           if h_mapped h then b_origin b = FromMmap /\ h_original h = Some a
           else b_origin b = FromNew /\ h_original h = None
  end.
Definition own (ts : list (option handle)) (i a : nat) : Prop := exists h, at_ ts i h /\ h_ptr h = Some a /\ h_shadow h = false.

(** [ps] are live blocks that are owned by no tensor: in the hands of the running function. *)
Record inv (ts : list (option handle)) (bs : list block) (rel : list nat) (ps : list nat) : Prop := mkInv {
  i_fits : forall i h, at_ ts i h -> fits bs h;
  i_unique : forall i j a, own ts i a -> own ts j a -> i = j;
  i_owned : forall a b, nth_error bs a = Some b -> b_live b = true -> In a ps \/ exists i, own ts i a;
  i_pending : forall a, In a ps -> (exists b, nth_error bs a = Some b /\ b_live b = true) /\ (forall i, ~ own ts i a);
  i_nodup : NoDup ps;
  i_released : forall a, In a rel <-> exists b, nth_error bs a = Some b /\ b_live b = false;
  i_once : NoDup rel }.

Lemma at_upd ts i x j h : nth_error ts i <> None -> (at_ (upd ts i x) j h <-> (i = j /\ x = Some h) \/ (i <> j /\ at_ ts j h)).
Proof.
  intros H. apply nth_error_Some in H. unfold at_. rewrite nth_error_upd. destruct (Nat.eqb_spec i j) as [->|N].
  - apply Nat.ltb_lt in H. rewrite H. split; [intros E; left; split; congruence|intros [[_ ->]|[? _]]; congruence].
  - split; [auto|intros [[? _]|[_ ?]]; [congruence|assumption]].
Qed.
Lemma own_upd_none ts i j a : nth_error ts i <> None -> own (upd ts i None) j a -> own ts j a /\ i <> j.
Proof. intros H (h & A & B). apply at_upd in A; [|exact H]. destruct A as [[_ A]|[A1 A2]]; [discriminate|]. split; [exists h; auto|exact A1]. Qed.

(** Taking the tensor away from its place. *)
Lemma inv_take_owner ts bs rel ps i h a : inv ts bs rel ps -> at_ ts i h -> h_ptr h = Some a -> h_shadow h = false -> inv (upd ts i None) bs rel (a :: ps).
Proof.
  intros I A P S. assert (N : nth_error ts i <> None) by (rewrite A; discriminate). assert (O : own ts i a) by (exists h; auto).
  destruct I as [I1 I2 I3 I4 I5 I6 I7]. split; auto.
  - intros j h' A'. apply at_upd in A'; [|exact N]. destruct A' as [[_ ?]|[_ A']]; [discriminate|eauto].
  - intros j k c Oj Ok_. apply own_upd_none in Oj, Ok_; auto. destruct Oj, Ok_. eauto.
  - intros c b Hb L. destruct (I3 c b Hb L) as [?|[j Oj]]; [left; now right|]. destruct (Nat.eq_dec i j) as [<-|Hn].
    + left. left. destruct O as (h1 & A1 & P1 & _), Oj as (h2 & A2 & P2 & _). unfold at_ in *. congruence.
    + right. exists j. destruct Oj as (h' & A' & R). exists h'. split; [apply at_upd; auto|exact R].
  - intros c [<-|Hc].
    + split.
      * specialize (I1 i h A). unfold fits in I1. rewrite P, S in I1. destruct I1 as (b & Hb & _ & _ & _ & L & _). eauto.
      * intros j Oj. apply own_upd_none in Oj; [|exact N]. destruct Oj as [Oj Hn]. eauto.
    + destruct (I4 c Hc) as [X Y]. split; [exact X|]. intros j Oj. apply own_upd_none in Oj; [|exact N]. exact (Y j (proj1 Oj)).
  - constructor; [|exact I5]. intros Hc. exact (proj2 (I4 a Hc) i O).
Qed.
Lemma inv_take_other ts bs rel ps i h : inv ts bs rel ps -> at_ ts i h -> (h_ptr h = None \/ h_shadow h = true) -> inv (upd ts i None) bs rel ps.
Proof.
  intros I A P. assert (N : nth_error ts i <> None) by (rewrite A; discriminate). assert (O : forall a, ~ own ts i a).
  { intros a (h' & A' & P' & S'). unfold at_ in *. assert (h = h') by congruence. subst h'. destruct P; congruence. }
  destruct I as [I1 I2 I3 I4 I5 I6 I7]. split; auto.
  - intros j h' A'. apply at_upd in A'; [|exact N]. destruct A' as [[_ ?]|[_ A']]; [discriminate|eauto].
  - intros j k c Oj Ok_. apply own_upd_none in Oj, Ok_; auto. destruct Oj, Ok_. eauto.
  - intros c b Hb L. destruct (I3 c b Hb L) as [?|[j Oj]]; [auto|]. right. exists j. destruct (Nat.eq_dec i j) as [<-|Hn]; [now destruct (O c)|].
    destruct Oj as (h' & A' & R). exists h'. split; [apply at_upd; auto|exact R].
  - intros c Hc. destruct (I4 c Hc) as [X Y]. split; [exact X|]. intros j Oj. apply own_upd_none in Oj; [|exact N]. exact (Y j (proj1 Oj)).
Qed.

(** Filling an empty place. *)
Lemma inv_fill_owner ts bs rel ps i h a : inv ts bs rel (a :: ps) -> nth_error ts i = Some None -> h_ptr h = Some a -> h_shadow h = false -> fits bs h -> inv (upd ts i (Some h)) bs rel ps.
Proof.
  intros I A P S F. assert (N : nth_error ts i <> None) by (rewrite A; discriminate).
  destruct I as [I1 I2 I3 I4 I5 I6 I7]. inversion I5 as [|x xs Nx Nd]; subst.
  assert (K : forall j c, own (upd ts i (Some h)) j c <-> (j = i /\ c = a) \/ (j <> i /\ own ts j c)).
  { intros j c. unfold own. split.
    - intros (h' & A' & P' & S'). apply at_upd in A'; [|exact N]. destruct A' as [[-> E]|[E A']]; [left; split; congruence|right; split; eauto].
    - intros [[-> ->]|[E (h' & A' & R)]]; [exists h; split; [apply at_upd; auto|auto]|exists h'; split; [apply at_upd; auto|exact R]]. }
  split; auto.
  - intros j h' A'. apply at_upd in A'; [|exact N]. destruct A' as [[_ E]|[_ A']]; [congruence|eauto].
  - intros j k c Oj Ok_. apply K in Oj, Ok_. destruct Oj as [[-> ->]|[E1 O1]], Ok_ as [[-> E2]|[E2 O2]]; auto.
    + now destruct (proj2 (I4 a (or_introl eq_refl)) k).
    + subst c. now destruct (proj2 (I4 a (or_introl eq_refl)) j).
    + eauto.
  - intros c b Hb L. destruct (I3 c b Hb L) as [[<-|?]|[j Oj]]; [right; exists i; apply K; auto|auto|]. right. exists j. apply K. right. split; [|exact Oj].
    intros ->. destruct Oj as (h' & A' & _). unfold at_ in A'. congruence.
  - intros c Hc. destruct (I4 c (or_intror Hc)) as [X Y]. split; [exact X|]. intros j Oj. apply K in Oj. destruct Oj as [[-> ->]|[_ Oj]]; [tauto|exact (Y j Oj)].
Qed.
Lemma inv_fill_other ts bs rel ps i h : inv ts bs rel ps -> nth_error ts i = Some None -> (h_ptr h = None \/ h_shadow h = true) -> fits bs h -> inv (upd ts i (Some h)) bs rel ps.
Proof.
  intros I A P F. assert (N : nth_error ts i <> None) by (rewrite A; discriminate).
  destruct I as [I1 I2 I3 I4 I5 I6 I7].
  assert (K : forall j c, own (upd ts i (Some h)) j c <-> own ts j c).
  { intros j c. unfold own. split.
    - intros (h' & A' & P' & S'). apply at_upd in A'; [|exact N]. destruct A' as [[-> E]|[E A']]; [assert (h = h') by congruence; subst; destruct P; congruence|eauto].
    - intros (h' & A' & R). exists h'. split; [apply at_upd; auto|exact R]. right. split; [intros ->; unfold at_ in A'; congruence|exact A']. }
  split; auto.
  - intros j h' A'. apply at_upd in A'; [|exact N]. destruct A' as [[_ E]|[_ A']]; [congruence|eauto].
  - intros j k c Oj Ok_. apply K in Oj, Ok_. eauto.
  - intros c b Hb L. destruct (I3 c b Hb L) as [?|[j Oj]]; [auto|]. right. exists j. now apply K.
  - intros c Hc. destruct (I4 c Hc) as [X Y]. split; [exact X|]. intros j Oj. apply K in Oj. exact (Y j Oj).
Qed.
Lemma inv_extend ts bs rel ps : inv ts bs rel ps -> inv (ts ++ [None]) bs rel ps.
Proof.
  intros [I1 I2 I3 I4 I5 I6 I7].
  assert (K : forall j h, at_ (ts ++ [None]) j h <-> at_ ts j h).
  { intros j h. unfold at_. destruct (Nat.lt_ge_cases j (length ts)) as [L|L].
    - now rewrite nth_error_app1.
    - rewrite nth_error_app2 by exact L. split; intros H.
      + destruct (j - length ts) as [|[|?]]; cbn in H; discriminate.
      + apply nth_error_None in L. congruence. }
  assert (K' : forall j a, own (ts ++ [None]) j a <-> own ts j a) by (intros j a; unfold own; split; intros (h & A & R); exists h; split; auto; now apply K).
  split; auto.
  - intros i h A. apply K in A. eauto.
  - intros i j a A B. apply K' in A, B. eauto.
  - intros a b Hb L. destruct (I3 a b Hb L) as [?|[i O]]; [auto|right; exists i; now apply K'].
  - intros a Ha. destruct (I4 a Ha) as [X Y]. split; [exact X|]. intros i O. apply K' in O. exact (Y i O).
Qed.

(** Allocation, release and change of contents. *)
Lemma fits_blocks bs bs' h : fits bs h ->
  (forall a b, h_ptr h = Some a -> nth_error bs a = Some b -> exists b', nth_error bs' a = Some b' /\ length (b_data b') = length (b_data b) /\ b_origin b' = b_origin b /\ (h_shadow h = false -> b_live b' = b_live b)) ->
  fits bs' h.
Proof.
  unfold fits. destruct (h_ptr h) as [a|]; [|auto]. intros (b & Hb & L & E & Z & R) H. destruct (H a b eq_refl Hb) as (b' & Hb' & L' & O' & V').
  exists b'. split; [exact Hb'|]. split; [congruence|]. split; [exact E|]. split; [exact Z|]. destruct (h_shadow h); [exact R|].
  rewrite V', O' by reflexivity. exact R.
Qed.
Lemma inv_alloc ts bs rel ps b : inv ts bs rel ps -> b_live b = true -> inv ts (bs ++ [b]) rel (length bs :: ps).
Proof.
  intros [I1 I2 I3 I4 I5 I6 I7] L.
  assert (Old : forall a c, nth_error bs a = Some c -> nth_error (bs ++ [b]) a = Some c) by (intros a c H; rewrite nth_error_app1; [exact H|apply nth_error_Some; congruence]).
  assert (New : nth_error (bs ++ [b]) (length bs) = Some b) by (rewrite nth_error_app2, Nat.sub_diag by lia; reflexivity).
  assert (Inv : forall a c, nth_error (bs ++ [b]) a = Some c -> nth_error bs a = Some c \/ (a = length bs /\ c = b)).
  { intros a c H. destruct (Nat.lt_ge_cases a (length bs)) as [X|X]; [left; now rewrite nth_error_app1 in H|].
    rewrite nth_error_app2 in H by exact X. destruct (a - length bs) as [|[|?]] eqn:E; cbn in H; try discriminate. right. split; [lia|congruence]. }
  assert (Fresh : forall i, ~ own ts i (length bs)).
  { intros i (h & A & P & S). specialize (I1 i h A). unfold fits in I1. rewrite P in I1. destruct I1 as (c & Hc & _). apply (@f_equal _ _ (fun o => match o with None => true | _ => false end)) in Hc.
    replace (nth_error bs (length bs)) with (@None block) in Hc by (symmetry; now apply nth_error_None). discriminate. }
  split; auto.
  - intros i h A. apply fits_blocks with bs; [eauto|]. intros a c _ Hc. exists c. auto.
  - intros a c Hc Lc. destruct (Inv a c Hc) as [H|[-> _]]; [|left; now left]. destruct (I3 a c H Lc); [left; now right|auto].
  - intros a [<-|Ha].
    + split; [eauto|exact Fresh].
    + destruct (I4 a Ha) as [(c & Hc & Lc) Y]. split; [eauto|exact Y].
  - constructor; [|exact I5]. intros H. destruct (I4 _ H) as [(c & Hc & _) _]. assert (length bs < length bs) by (apply nth_error_Some; congruence). lia.
  - intros a. rewrite I6. split; intros (c & Hc & Lc); [eauto|]. destruct (Inv a c Hc) as [H|[-> ->]]; [eauto|congruence].
Qed.
Lemma inv_release ts bs rel ps a b b' : inv ts bs rel (a :: ps) -> nth_error bs a = Some b -> length (b_data b') = length (b_data b) -> b_origin b' = b_origin b -> b_live b' = false ->
  inv ts (upd bs a b') (a :: rel) ps.
Proof.
  intros [I1 I2 I3 I4 I5 I6 I7] Hb L O V. inversion I5 as [|x xs Nx Nd]; subst. destruct (I4 a (or_introl eq_refl)) as [(b0 & Hb0 & Lb) Fr].
  assert (b0 = b) by congruence; subst b0. assert (Ha : a < length bs) by (apply nth_error_Some; congruence).
  assert (New : nth_error (upd bs a b') a = Some b') by now apply nth_error_upd_eq.
  assert (Old : forall c, c <> a -> nth_error (upd bs a b') c = nth_error bs c) by (intros c Hc; apply nth_error_upd_neq; auto).
  split; auto.
  - intros i h A. apply fits_blocks with bs; [eauto|]. intros c d P Hc. destruct (Nat.eq_dec c a) as [->|N].
    + exists b'. assert (d = b) by congruence; subst d. repeat split; auto. intros S. destruct (Fr i). exists h. auto.
    + exists d. rewrite Old by exact N. auto.
  - intros c d Hc Ld. destruct (Nat.eq_dec c a) as [->|N]; [congruence|]. rewrite Old in Hc by exact N. destruct (I3 c d Hc Ld) as [[?|?]|?]; [congruence|auto|auto].
  - intros c Hc. assert (N : c <> a) by congruence. destruct (I4 c (or_intror Hc)) as [X Y]. rewrite Old by exact N. auto.
  - intros c. cbn [In]. rewrite I6. destruct (Nat.eq_dec c a) as [->|N].
    + split; [intros _; eauto|auto].
    + rewrite Old by exact N. split; [intros [?|?]; [congruence|auto]|auto].
  - constructor; [|exact I7]. rewrite I6. intros (c & Hc & Lc). congruence.
Qed.
Lemma inv_contents ts bs rel ps a b l : inv ts bs rel ps -> nth_error bs a = Some b -> length l = length (b_data b) ->
  inv ts (upd bs a (mkBlock (b_origin b) (b_live b) (b_pages b) l)) rel ps.
Proof.
  intros [I1 I2 I3 I4 I5 I6 I7] Hb L. assert (Ha : a < length bs) by (apply nth_error_Some; congruence).
  set (b' := mkBlock (b_origin b) (b_live b) (b_pages b) l).
  assert (New : nth_error (upd bs a b') a = Some b') by now apply nth_error_upd_eq.
  assert (Old : forall c, c <> a -> nth_error (upd bs a b') c = nth_error bs c) by (intros c Hc; apply nth_error_upd_neq; auto).
  split; auto.
  - intros i h A. apply fits_blocks with bs; [eauto|]. intros c d P Hc. destruct (Nat.eq_dec c a) as [->|N].
    + exists b'. assert (d = b) by congruence; subst d. auto.
    + exists d. rewrite Old by exact N. auto.
  - intros c d Hc Ld. destruct (Nat.eq_dec c a) as [->|N]; [|rewrite Old in Hc by exact N; eauto].
    rewrite New in Hc. injection Hc as <-. eapply I3; eauto.
  - intros c Hc. destruct (I4 c Hc) as [(d & Hd & Ld) Y]. split; [|exact Y]. destruct (Nat.eq_dec c a) as [->|N]; [|rewrite Old by exact N; eauto].
    exists b'. split; [exact New|]. assert (d = b) by congruence; subst d. exact Ld.
  - intros c. rewrite I6. destruct (Nat.eq_dec c a) as [->|N]; [|now rewrite Old by exact N]. rewrite New, Hb. split; intros (d & E & Ld); injection E as <-; eauto.
Qed.

(** A handle with another shape of the same size. *)
Lemma inv_shape ts bs rel ps i h s w d m : inv ts bs rel ps -> at_ ts i h -> h_ptr h <> None -> h_elements h = s * m * w * d ->
  inv (upd ts i (Some (mkHandle s w d m (s * m * w * d) (h_ptr h) (h_shadow h) (h_mapped h) (h_original h)))) bs rel ps.
Proof.
  intros I A P E. set (h' := mkHandle _ _ _ _ _ _ _ _ _). pose proof (i_fits _ _ _ _ I i h A) as F.
  assert (F' : fits bs h').
  { unfold fits in *. cbn. destruct (h_ptr h); [|congruence]. destruct F as (b & Hb & L & _ & Z & R). exists b. rewrite <- E. auto. }
  assert (N : nth_error ts i <> None) by (rewrite A; discriminate). assert (Li : i < length ts) by now apply nth_error_Some.
  assert (X : forall x y, upd (upd ts i x) i y = upd ts i y).
  { intros x y. apply list_ext. intros j. rewrite !nth_error_upd, upd_length. now destruct (i =? j). }
  destruct (h_shadow h) eqn:S.
  - rewrite <- (X None). apply inv_fill_other; auto.
    + eapply inv_take_other; eauto.
    + now apply nth_error_upd_eq.
  - destruct (h_ptr h) as [a|] eqn:Pa; [|congruence]. rewrite <- (X None). apply inv_fill_owner with a; auto.
    + eapply inv_take_owner; eauto.
    + now apply nth_error_upd_eq.
Qed.

(** ** The functions *)
(** Contents and liveness of blocks: nothing but the listed blocks is released, nothing is changed. *)
Definition keeps (bs bs' : list block) (dead : list nat) : Prop :=
  forall a b, nth_error bs a = Some b -> exists b', nth_error bs' a = Some b' /\ b_data b' = b_data b /\ b_origin b' = b_origin b /\
    (In a dead \/ b' = b).
Lemma keeps_refl bs : keeps bs bs [].
Proof. intros a b H. exists b. auto. Qed.
Lemma keeps_trans b1 b2 b3 d1 d2 : keeps b1 b2 d1 -> keeps b2 b3 d2 -> keeps b1 b3 (d1 ++ d2).
Proof.
  intros K1 K2 a b H. destruct (K1 a b H) as (b' & H' & E1 & E2 & E3). destruct (K2 a b' H') as (b'' & H'' & F1 & F2 & F3).
  exists b''. split; [exact H''|]. split; [congruence|]. split; [congruence|]. destruct E3 as [?| ->], F3 as [?| ->]; rewrite ?in_app_iff; auto.
Qed.
Lemma keeps_app bs b : keeps bs (bs ++ [b]) [].
Proof. intros a c H. exists c. split; [|auto]. rewrite nth_error_app1; [exact H|]. apply nth_error_Some. congruence. Qed.
Definition owned_block (h : handle) : list nat := match h_ptr h with Some a => if h_shadow h then [] else [a] | None => [] end.

Lemma delete_spec st ts ps i h : inv ts (blocks st) (released st) ps -> at_ ts i h ->
  exists st', delete_if_possible st h = Ok (st', empty_handle) /\ tensors st' = tensors st /\ inv (upd ts i None) (blocks st') (released st') ps /\
    keeps (blocks st) (blocks st') (owned_block h) /\ length (blocks st') = length (blocks st) /\ released st' = owned_block h ++ released st.
Proof.
  intros I A. pose proof (i_fits _ _ _ _ I i h A) as F. unfold Heap_Model.delete_if_possible, fits, owned_block in *.
  destruct (h_ptr h) as [a|] eqn:P.
  2:{ subst h. exists st. split; [reflexivity|]. split; [reflexivity|]. split; [eapply inv_take_other; eauto|]. split; [apply keeps_refl|auto]. }
  destruct F as (b & Hb & L & E & Z & F). destruct (h_shadow h) eqn:S.
  - destruct F as [-> ->]. exists st. split; [reflexivity|]. split; [reflexivity|]. split; [eapply inv_take_other; eauto|]. split; [apply keeps_refl|auto].
  - destruct F as [V F]. assert (I' : inv (upd ts i None) (blocks st) (released st) (a :: ps)) by (eapply inv_take_owner; eauto).
    assert (La : a < length (blocks st)) by (apply nth_error_Some; congruence).
    assert (K : forall b', b_data b' = b_data b -> b_origin b' = b_origin b -> keeps (blocks st) (upd (blocks st) a b') [a]).
    { intros b' E1 E2 c d Hc. destruct (Nat.eq_dec c a) as [->|N].
      - exists b'. assert (d = b) by congruence; subst d. split; [now apply nth_error_upd_eq|]. repeat split; auto. now left; left.
      - exists d. rewrite nth_error_upd_neq by auto. auto. }
    destruct (h_mapped h) eqn:M.
    + destruct F as [O ->]. unfold unmap. rewrite Hb. destruct b as [o v p l]. cbn in O, V. subst o v. cbn [bind].
      eexists. split; [reflexivity|]. split; [reflexivity|]. split; [|split; [apply K; reflexivity|split; [apply upd_length|reflexivity]]].
      cbn [tensors blocks released]. apply inv_release with (mkBlock FromMmap true p l); auto.
    + destruct F as [O ->]. unfold delete_array. rewrite Hb. destruct b as [o v p l]. cbn in O, V. subst o v. cbn [bind].
      eexists. split; [reflexivity|]. split; [reflexivity|]. split; [|split; [apply K; reflexivity|split; [apply upd_length|reflexivity]]].
      cbn [tensors blocks released]. apply inv_release with (mkBlock FromNew true p l); auto.
Qed.

(** The value of a tensor, as in [Tensor_Model]. *)
Definition value (bs : list block) (h : handle) : Tensor_Model.tensor D :=
  Tensor_Model.mkTensor (h_samples h) (h_width h) (h_height h) (h_maps h) (h_elements h)
    (match h_ptr h with Some a => option_map b_data (nth_error bs a) | None => None end).

Lemma upd_twice {A} (ts : list A) i x y : upd (upd ts i x) i y = upd ts i y.
Proof. apply list_ext. intros j. rewrite !nth_error_upd, upd_length. now destruct (i =? j). Qed.
Lemma upd_hole {A} (ts : list (option A)) i x h : nth_error ts i = Some h -> nth_error (upd ts i x) i = Some x.
Proof. intros H. apply nth_error_upd_eq. apply nth_error_Some. congruence. Qed.
Lemma fits_empty bs : fits bs empty_handle.
Proof. reflexivity. Qed.

Lemma resize_spec st ts ps i h s w d m : inv ts (blocks st) (released st) ps -> at_ ts i h ->
  exists st' h' dead, resize st h s w d m = Ok (st', h') /\ tensors st' = tensors st /\ inv (upd ts i (Some h')) (blocks st') (released st') ps /\
    keeps (blocks st) (blocks st') dead /\ incl dead (owned_block h) /\ released st' = dead ++ released st /\
    value (blocks st') h' = Tensor_Model.resize junk (value (blocks st) h) s w d m /\
    (owned_block h' = owned_block h \/ owned_block h' = [] \/ (owned_block h' = [length (blocks st)] /\ length (blocks st') = S (length (blocks st)))) /\
    (h_shadow h = false -> h_shadow h' = false) /\ (h_mapped h = false -> h_mapped h' = false).
Proof.
  intros I A. pose proof (i_fits _ _ _ _ I i h A) as F. unfold Heap_Model.resize, reshape, Tensor_Model.resize, Tensor_Model.reshape.
  assert (Val : forall a, h_ptr h = Some a -> exists l, Tensor_Model.data (value (blocks st) h) = Some l).
  { intros a P. unfold value. cbn. rewrite P. unfold fits in F. rewrite P in F. destruct F as (b & -> & _). cbn. eauto. }
  set (n := s * m * w * d). destruct (h_ptr h) as [a|] eqn:P.
  - destruct (Val a eq_refl) as [l Hl]. rewrite Hl. change (Tensor_Model.elements (value (blocks st) h)) with (h_elements h).
    destruct (Nat.eqb_spec (h_elements h) n) as [E|E].
    + eexists st, _, []. split; [reflexivity|]. split; [reflexivity|]. split.
      { rewrite <- P. apply inv_shape; auto. congruence. }
      split; [apply keeps_refl|]. split; [easy|]. split; [reflexivity|]. split.
      { unfold value in *. cbn in *. rewrite P in Hl. now rewrite Hl. }
      split; [|auto]. left. unfold owned_block. cbn. now rewrite P.
    + destruct (delete_spec st ts ps i h I A) as (st2 & -> & T2 & I2 & K2 & L2 & R2). cbn [bind].
      destruct (Nat.eqb_spec n 0) as [Z|Z].
      * eexists st2, _, (owned_block h). split; [reflexivity|]. split; [exact T2|]. split.
        { rewrite <- (upd_twice ts i None). apply inv_fill_other; auto using fits_empty. eapply upd_hole; eauto. }
        split; [exact K2|]. split; [easy|]. split; [exact R2|]. split; [reflexivity|]. split; [now right; left|auto].
      * eexists _, _, (owned_block h). split; [reflexivity|]. split; [exact T2|]. split.
        { rewrite <- (upd_twice ts i None). apply inv_fill_owner with (length (blocks st2)); cbn; auto.
          - apply inv_alloc; auto.
          - eapply upd_hole; eauto.
          - unfold fits. cbn. eexists. split; [rewrite nth_error_app2, Nat.sub_diag by lia; reflexivity|]. cbn. rewrite map_length, seq_length. unfold n in *. repeat split; auto; lia. }
        cbn [blocks released]. split; [rewrite <- (app_nil_r (owned_block h)); eapply keeps_trans; [exact K2|apply keeps_app]|].
        split; [easy|]. split; [exact R2|]. split.
        { unfold value. cbn. rewrite nth_error_app2, Nat.sub_diag by lia. reflexivity. }
        split; [right; right; cbn; rewrite L2, app_length; cbn; split; [reflexivity|lia]|auto].
  - unfold fits in F. rewrite P in F. subst h. cbn [bind].
    change (Tensor_Model.data (value (blocks st) empty_handle)) with (@None (list D)). cbn iota.
    destruct (Nat.eqb_spec n 0) as [Z|Z].
    + eexists st, _, []. split; [reflexivity|]. split; [reflexivity|]. split.
      { replace (upd ts i (Some empty_handle)) with ts; [exact I|]. apply list_ext. intros j. rewrite nth_error_upd. destruct (Nat.eqb_spec i j) as [<-|]; [|reflexivity].
        replace (i <? length ts) with true; [exact A|]. symmetry. apply Nat.ltb_lt. apply nth_error_Some. unfold at_ in A. congruence. }
      split; [apply keeps_refl|]. split; [easy|]. split; [reflexivity|]. split; [reflexivity|]. auto.
    + eexists _, _, []. split; [reflexivity|]. split; [reflexivity|]. split.
      { rewrite <- (upd_twice ts i None). apply inv_fill_owner with (length (blocks st)); cbn; auto.
        - apply inv_alloc; auto. eapply inv_take_other; eauto.
        - eapply upd_hole; eauto.
        - unfold fits. cbn. eexists. split; [rewrite nth_error_app2, Nat.sub_diag by lia; reflexivity|]. cbn. rewrite map_length, seq_length. unfold n in *. repeat split; auto; lia. }
      cbn [blocks released]. split; [apply keeps_app|]. split; [easy|]. split; [reflexivity|]. split.
      { unfold value. cbn. rewrite nth_error_app2, Nat.sub_diag by lia. reflexivity. }
      split; [right; right; cbn; rewrite app_length; cbn; split; [reflexivity|lia]|auto].
Qed.

Lemma map_file_spec st ts ps i h s w d m offset file : inv ts (blocks st) (released st) ps -> at_ ts i h -> h_mapped h = false -> length file = s * m * w * d ->
  exists st' h' dead, map_file st h s w d m offset file = Ok (st', h') /\ tensors st' = tensors st /\ inv (upd ts i (Some h')) (blocks st') (released st') ps /\
    keeps (blocks st) (blocks st') dead /\ incl dead (owned_block h) /\ released st' = dead ++ released st /\
    (0 < length file -> value (blocks st') h' = Tensor_Model.mkTensor s w d m (s * m * w * d) (Some file) /\
       h_ptr h' = Some (length (blocks st)) /\
       nth_error (blocks st') (length (blocks st)) = Some (mkBlock FromMmap true (pages_of page_size (s * m * w * d * datum_size + offset)) file)).
Proof.
  intros I A M L. unfold Heap_Model.map_file. set (n := s * m * w * d) in *. destruct (Nat.eqb_spec n 0) as [Z|Z].
  - exists st, h, []. split; [reflexivity|]. split; [reflexivity|]. split.
    { replace (upd ts i (Some h)) with ts; [exact I|]. apply list_ext. intros j. rewrite nth_error_upd. destruct (Nat.eqb_spec i j) as [<-|]; [|reflexivity].
      replace (i <? length ts) with true; [exact A|]. symmetry. apply Nat.ltb_lt. apply nth_error_Some. unfold at_ in A. congruence. }
    split; [apply keeps_refl|]. split; [easy|]. split; [reflexivity|]. lia.
  - cbn [allocate]. set (b := mkBlock FromMmap true _ file). set (st1 := mkState (tensors st) (blocks st ++ [b]) (released st)).
    assert (I1 : inv ts (blocks st1) (released st1) (length (blocks st) :: ps)) by (apply inv_alloc; auto).
    set (h1 := mkHandle _ _ _ _ _ _ _ _ (Some (length (blocks st)))).
    (* the release of the old memory does not look at the new original_mmap_ *)
    assert (DE : delete_if_possible st1 h1 = match delete_if_possible st1 h with Ok (x, y) => Ok (x, mkHandle 0 0 0 0 0 None false false (Some (length (blocks st)))) | Fatal => Fatal | UB => UB end).
    { unfold Heap_Model.delete_if_possible, h1. cbn [h_ptr h_shadow h_mapped h_original h_elements]. rewrite M. destruct (h_ptr h) as [a|]; [|reflexivity].
      destruct (h_shadow h); [reflexivity|]. destruct (delete_array st1 a); reflexivity. }
    destruct (delete_spec st1 ts _ i h I1 A) as (st2 & E2 & T2 & I2 & K2 & L2 & R2). rewrite E2 in DE. rewrite DE. cbn [bind].
    assert (Hb : nth_error (blocks st2) (length (blocks st)) = Some b).
    { destruct (K2 (length (blocks st)) b) as (b' & Hb' & _ & _ & [X|X]); [unfold st1; cbn; rewrite nth_error_app2, Nat.sub_diag by lia; reflexivity| |congruence].
      exfalso. assert (O : own ts i (length (blocks st))).
      { unfold owned_block in X. destruct (h_ptr h) as [a|] eqn:P; [|easy]. destruct (h_shadow h) eqn:S; [easy|]. destruct X as [->|[]]. exists h. auto. }
      exact (proj2 (i_pending _ _ _ _ I1 _ (or_introl eq_refl)) i O). }
    eexists st2, _, (owned_block h). split; [reflexivity|]. split; [exact T2|]. split.
    { rewrite <- (upd_twice ts i None). apply inv_fill_owner with (length (blocks st)); cbn; auto.
      - eapply upd_hole; eauto.
      - unfold fits. cbn. exists b. split; [exact Hb|]. cbn. repeat split; auto. unfold n in *; lia. }
    split; [change (owned_block h) with ([] ++ owned_block h); eapply keeps_trans; [apply keeps_app|exact K2]|].
    split; [easy|]. split; [exact R2|]. intros _. split; [unfold value; cbn; rewrite Hb; reflexivity|]. split; [reflexivity|exact Hb].
Qed.

(** Reading and writing. *)
Lemma fits_read bs st h a k : inv (tensors st) bs (released st) [] -> bs = blocks st -> h_ptr h = Some a -> fits bs h -> own (tensors st) k a ->
  exists b, nth_error bs a = Some b /\ b_live b = true /\ length (b_data b) = h_elements h.
Proof.
  intros I -> P F (hk & Ak & Pk & Sk). pose proof (i_fits _ _ _ _ I k hk Ak) as Fk. unfold fits in *. rewrite P in F. rewrite Pk, Sk in Fk.
  destruct F as (b & Hb & L & _). destruct Fk as (b' & Hb' & _ & _ & _ & V & _). exists b. assert (b' = b) by congruence. subst b'. auto.
Qed.
Lemma read_ok (st : state) h a b e : h_ptr h = Some a -> nth_error (blocks st) a = Some b -> b_live b = true -> read st h e = load (b_data b) e.
Proof. intros P Hb L. unfold read. rewrite P, Hb. destruct b as [o v p l]. cbn in L. now subst v. Qed.
Lemma write_ok (st : state) h a b e v : h_ptr h = Some a -> nth_error (blocks st) a = Some b -> b_live b = true -> b_origin b = FromNew -> e < length (b_data b) ->
  write st h e v = Ok (mkState (tensors st) (upd (blocks st) a (mkBlock (b_origin b) (b_live b) (b_pages b) (upd (b_data b) e v))) (released st)).
Proof.
  intros P Hb L O E. unfold write. rewrite P, Hb. destruct b as [o v' p l]. cbn in *. subst. unfold store. apply Nat.ltb_lt in E. now rewrite E.
Qed.

Lemma nth_error_firstn {A} (l : list A) n j : nth_error (firstn n l) j = if j <? n then nth_error l j else None.
Proof.
  revert n j. induction l as [|x l IH]; intros [|n] [|j]; cbn [firstn nth_error]; auto; [now destruct (S j <? S n)|]. now rewrite IH.
Qed.
(** The copy loop of the copy constructor. *)
Lemma copy_loop (t h1 : handle) a c n : h_ptr t = Some a -> h_ptr h1 = Some c -> a <> c ->
  forall k (st : state) (bs bc : block), nth_error (blocks st) a = Some bs -> b_live bs = true -> nth_error (blocks st) c = Some bc -> b_live bc = true -> b_origin bc = FromNew ->
  length (b_data bs) = n -> length (b_data bc) = n -> k <= n -> firstn (n - k) (b_data bc) = firstn (n - k) (b_data bs) ->
  exists l, foldm (fun s e => v <- read s t e ;; write s h1 e v) (seq (n - k) k) st =
    Ok (mkState (tensors st) (upd (blocks st) c (mkBlock (b_origin bc) (b_live bc) (b_pages bc) l)) (released st)) /\ l = b_data bs.
Proof.
  intros Pt P1 Hac. induction k as [|k IH]; intros st bs bc Ha La Hc Lc Oc En Em Hk Eq.
  - cbn. exists (b_data bc). split.
    + destruct st as [ts bl rel]. cbn in *. do 2 f_equal. apply list_ext. intros j. rewrite nth_error_upd. destruct (Nat.eqb_spec c j) as [<-|]; [|reflexivity].
      replace (c <? length bl) with true by (symmetry; apply Nat.ltb_lt, nth_error_Some; congruence). rewrite Hc. now destruct bc.
    + rewrite Nat.sub_0_r in Eq. rewrite !firstn_all2 in Eq by lia. exact Eq.
  - cbn [seq foldm]. rewrite (read_ok st t a bs) by auto. destruct (nth_error_lt (b_data bs) (a := n - S k)) as [v Hv]; [lia|]. rewrite (load_ok _ _ _ Hv). cbn [bind].
    rewrite (write_ok st h1 c bc) by (auto; lia). cbn [bind]. set (bc' := mkBlock _ _ _ _).
    assert (Lc' : c < length (blocks st)) by (apply nth_error_Some; congruence).
    replace (S (n - S k)) with (n - k) by lia.
    destruct (IH (mkState (tensors st) (upd (blocks st) c bc') (released st)) bs bc') as (l & E & El); cbn [blocks]; auto.
    + now rewrite nth_error_upd_neq by auto.
    + now apply nth_error_upd_eq.
    + unfold bc'. cbn. now rewrite upd_length.
    + lia.
    + apply list_ext. intros j. unfold bc'. cbn [b_data]. rewrite !nth_error_firstn. destruct (Nat.ltb_spec j (n - k)) as [Lj|Lj]; [|reflexivity].
      rewrite nth_error_upd. destruct (Nat.eqb_spec (n - S k) j) as [<-|Nj].
      * replace (n - S k <? length (b_data bc)) with true by (symmetry; apply Nat.ltb_lt; lia). auto.
      * assert (Q := f_equal (fun q => nth_error q j) Eq). cbn beta in Q. rewrite !nth_error_firstn in Q. replace (j <? n - S k) with true in Q by (symmetry; apply Nat.ltb_lt; lia). exact Q.
    + exists l. rewrite E. cbn [tensors blocks released b_origin b_live b_pages bc']. split; [|exact El]. now rewrite upd_twice.
Qed.
End Proofs.

(** C07: tensor memory is released exactly once. *)
From Verif Require Import Base BaseFacts Heap_Model Heap_Spec Heap_Proofs.
From Verif Require Tensor_Model.

Section Steps.
Variable D : Type.
Variable junk : nat -> D.
Variable page_size datum_size : nat.
Notation state := (Heap_Model.state D).
Notation step := (Heap_Model.step junk page_size datum_size).
Notation Inv st := (inv D (tensors st) (blocks st) (released st) []).
Notation value := (Heap_Proofs.value D).

(** The tensor an operation works on (for Move the source; the new tensor comes in addition). *)
Definition target (o : op D) : option nat :=
  match o with
  | New _ _ _ _ | Copy _ | Write _ _ _ | Read _ _ => None
  | Move i | Destroy i | Resize i _ _ _ _ | Shadow i _ | MapFile i _ _ _ _ _ _ => Some i
  end.
Definition memory_of (st : state) (i : option nat) (a : nat) : Prop := exists k, i = Some k /\ owns st k a.
(** What else an operation does: other tensors keep their shape and memory, and blocks that the target does
    not own stay as they are, except for the element that is written. *)
Definition framed (st st' : state) (o : op D) : Prop :=
  (forall j, j < length (tensors st) -> target o <> Some j -> nth_error (tensors st') j = nth_error (tensors st) j) /\
  (forall a, live st a -> ~ memory_of st (target o) a -> live st' a) /\
  (forall a l, contents st a = Some l ->
     match o with
     | Write i e v => contents st' a = Some l \/ (has st i a /\ contents st' a = Some (upd l e v))
     | _ => contents st' a = Some l
     end).

Lemma keeps_contents bs bs' dead a : keeps D bs bs' dead -> forall l, option_map b_data (nth_error bs a) = Some l -> option_map b_data (nth_error bs' a) = Some l.
Proof. intros K l H. destruct (nth_error bs a) as [b|] eqn:E; [|discriminate]. destruct (K a b E) as (b' & -> & Eb & _). cbn in *. congruence. Qed.
Lemma keeps_live (st st' : state) dead a : keeps D (blocks st) (blocks st') dead -> live st a -> ~ In a dead -> live st' a.
Proof. intros K (b & H & L) N. destruct (K a b H) as (b' & H' & _ & _ & [?|Eb]); [tauto|]. subst b'. exists b. auto. Qed.
Lemma owned_memory (st : state) i h a : is_tensor st i h -> In a (owned_block h) -> memory_of st (Some i) a.
Proof.
  intros T H. exists i. split; [reflexivity|]. exists h. unfold owned_block in H. destruct (h_ptr h) as [c|]; [|easy]. destruct (h_shadow h); [easy|].
  destruct H as [->|[]]. auto.
Qed.
Lemma frame_put (st st' : state) i h o dead x : target o = Some i -> (match o with Write _ _ _ => False | _ => True end) -> is_tensor st i h ->
  tensors st' = upd (tensors st) i x -> keeps D (blocks st) (blocks st') dead -> incl dead (owned_block h) -> framed st st' o.
Proof.
  intros T NW A E K I. split; [|split].
  - intros j Lj Nj. rewrite E. apply nth_error_upd_neq. congruence.
  - intros a L N. eapply keeps_live; eauto. intros Hd. apply N. rewrite T. eapply owned_memory; eauto.
  - intros a l H. destruct o; try easy; eapply keeps_contents; eauto.
Qed.
Lemma frame_add (st st' : state) o x dead : target o = None -> (match o with Write _ _ _ => False | _ => True end) ->
  tensors st' = tensors st ++ [x] -> keeps D (blocks st) (blocks st') dead -> dead = [] -> framed st st' o.
Proof.
  intros T NW E K ->. split; [|split].
  - intros j Lj Nj. rewrite E. now apply nth_error_app1.
  - intros a L N. eapply keeps_live; eauto.
  - intros a l H. destruct o; try easy; eapply keeps_contents; eauto.
Qed.

Lemma find_ok (st : state) i h : is_tensor st i h -> find st i = Ok h.
Proof. unfold is_tensor, find. now intros ->. Qed.
Lemma app_upd {A} (l : list A) x y : upd (l ++ [x]) (length l) y = l ++ [y].
Proof. induction l; cbn; congruence. Qed.
Lemma nth_end {A} (l : list A) x : nth_error (l ++ [x]) (length l) = Some x.
Proof. rewrite nth_error_app2, Nat.sub_diag by lia. reflexivity. Qed.

(** Constructing a tensor with a shape. *)
Lemma construct st s w d m : Inv st ->
  exists st' h', resize junk page_size datum_size st empty_handle s w d m = Ok (st', h') /\ tensors st' = tensors st /\
    inv D (tensors st ++ [Some h']) (blocks st') (released st') [] /\ keeps D (blocks st) (blocks st') [] /\ released st' = released st /\
    value (blocks st') h' = Tensor_Model.new_tensor junk s w d m /\
    (owned_block h' = [] \/ owned_block h' = [length (blocks st)]) /\ h_shadow h' = false /\ h_mapped h' = false.
Proof.
  intros I. pose proof (inv_extend _ _ _ _ _ I) as I0.
  pose proof (inv_fill_other _ _ _ _ _ (length (tensors st)) empty_handle I0 (nth_end _ _) (or_introl eq_refl) (fits_empty _ _)) as I1. rewrite app_upd in I1.
  destruct (resize_spec D junk page_size datum_size st _ [] (length (tensors st)) empty_handle s w d m I1 (nth_end _ _))
    as (st' & h' & dead & E & T & I2 & K & Sub & R & V & O & Sh & Ma).
  assert (dead = []) by (destruct dead as [|x dead]; [reflexivity|destruct (Sub x (or_introl eq_refl))]). subst dead. rewrite app_upd in I2.
  exists st', h'. split; [exact E|]. split; [exact T|]. split; [exact I2|]. split; [exact K|]. split; [exact R|]. split; [exact V|]. split; [|auto].
  destruct O as [O|[O|[O _]]]; auto.
Qed.

Lemma step_ok st o : Inv st -> allowed st o -> exists st', step st o = Ok st' /\ Inv st' /\ framed st st' o.
Proof.
  intros I Al. destruct o as [s w d m|j|j|i|i s w d m|i j|i s w d m offset file|i e v|i e]; cbn [allowed] in Al; cbn [Heap_Model.step].
  - destruct (construct st s w d m I) as (st' & h' & -> & T & I' & K & R & _). cbn [bind fst snd]. eexists. split; [reflexivity|].
    unfold add. cbn [tensors blocks released]. rewrite T. split; [exact I'|]. eapply frame_add; cbn; eauto; try now rewrite T.
  - destruct Al as (t & At & Ba). rewrite (find_ok _ _ _ At). cbn [bind].
    destruct (construct st (h_samples t) (h_width t) (h_height t) (h_maps t) I) as (st' & h' & -> & T & I' & K & R & V & O & Sh & Ma). cbn [bind].
    pose proof (i_fits _ _ _ _ _ I j t At) as F.
    assert (At' : at_ (tensors st ++ [Some h']) (length (tensors st)) h') by apply nth_end.
    pose proof (i_fits _ _ _ _ _ I' _ _ At') as F'.
    destruct (h_ptr t) as [a|] eqn:P.
    2:{ unfold fits in F. rewrite P in F. subst t. cbn [h_elements empty_handle seq foldm bind]. eexists. split; [reflexivity|].
        unfold add. cbn [tensors blocks released]. rewrite T. split; [exact I'|]. eapply frame_add; cbn; eauto; try now rewrite T. }
    destruct Ba as [?|(a' & k & Pa & Ok_)]; [discriminate|]. assert (a' = a) by congruence; subst a'.
    destruct (fits_read D (blocks st) st t a k I eq_refl P F) as (b & Hb & Lb & Len); [destruct Ok_ as (hk & ? & ?); exists hk; auto|].
    unfold fits in F. rewrite P in F. destruct F as (b0 & Hb0 & _ & Es & Z & _). assert (b0 = b) by congruence; subst b0.
    assert (Ptr : exists c, h_ptr h' = Some c /\ owned_block h' = [c]).
    { assert (X := f_equal Tensor_Model.data V). unfold value, Tensor_Model.new_tensor, Tensor_Model.resize, Tensor_Model.reshape, Tensor_Model.empty_tensor in X. cbn [Tensor_Model.data] in X.
      rewrite <- Es in X. destruct (Nat.eqb_spec (h_elements t) 0); [lia|]. cbn [Tensor_Model.data] in X. unfold owned_block. rewrite Sh. destruct (h_ptr h'); [eauto|discriminate]. }
    destruct Ptr as (c & Pc & Oc). assert (Ec : c = length (blocks st)) by (rewrite Oc in O; destruct O as [?|O]; congruence).
    unfold fits in F'. rewrite Pc, Sh, Ma in F'. destruct F' as (bc & Hc & Lc & Ec' & Zc & Vc & Fc & _).
    assert (Hel : h_elements h' = h_elements t).
    { apply (f_equal Tensor_Model.elements) in V. unfold value, Tensor_Model.new_tensor, Tensor_Model.resize, Tensor_Model.reshape, Tensor_Model.empty_tensor in V. cbn [Tensor_Model.elements Tensor_Model.data] in V.
      rewrite <- Es in V. destruct (Nat.eqb_spec (h_elements t) 0); [lia|]. exact V. }
    assert (Ha' : nth_error (blocks st') a = Some b) by (destruct (K a b Hb) as (b' & H' & _ & _ & [[]| ->]); exact H').
    assert (Hac : a <> c) by (assert (a < length (blocks st)) by (apply nth_error_Some; congruence); lia).
    destruct (copy_loop D t h' a c (h_elements t) P Pc Hac (h_elements t) st' b bc Ha' Lb Hc Vc Fc Len ltac:(lia) ltac:(lia)) as (l & El & Ed).
    { now rewrite Nat.sub_diag. }
    rewrite Nat.sub_diag in El. rewrite El. cbn [bind]. eexists. split; [reflexivity|]. unfold add. cbn [tensors blocks released]. rewrite T. split.
    + apply inv_contents; auto. rewrite Ed. lia.
    + eapply frame_add with (dead := []); cbn; eauto; try now rewrite T. intros x y Hx. destruct (K x y Hx) as (y' & Hy & ? & ? & [[]|Ey]). subst y'. exists y.
      rewrite nth_error_upd_neq; [auto|]. assert (x < length (blocks st)) by (apply nth_error_Some; congruence). lia.
  - destruct Al as (t & At & Sh & Ma). rewrite (find_ok _ _ _ At). cbn [bind]. unfold Heap_Model.delete_if_possible. cbn [h_ptr h_mapped h_original bind fst snd].
    pose proof (i_fits _ _ _ _ _ I j t At) as F. eexists. split; [reflexivity|]. unfold add, put. cbn [tensors blocks released].
    assert (Lj : j < length (tensors st)) by (apply nth_error_Some; unfold is_tensor in At; congruence).
    assert (Ori : h_original t = None).
    { unfold fits in F. rewrite Sh, Ma in F. destruct (h_ptr t); [|now subst t]. destruct F as (b & _ & _ & _ & _ & _ & _ & ?). assumption. }
    rewrite Ma, Ori. fold empty_handle. split.
    + rewrite <- (upd_twice (tensors st) j None). destruct (h_ptr t) as [a|] eqn:P.
      * pose proof (inv_take_owner _ _ _ _ _ _ _ _ I At P Sh) as I1. unfold at_ in At.
        assert (I2 : inv D (upd (upd (tensors st) j None) j (Some empty_handle)) (blocks st) (released st) [a]).
        { apply inv_fill_other; auto using fits_empty. eapply upd_hole; eauto. }
        apply inv_extend in I2. rewrite <- (app_upd _ None). eapply inv_fill_owner; eauto.
        -- apply nth_end.
        -- unfold fits in F |- *. rewrite P, Sh, Ma in F. cbn. destruct F as (b & Hb & L & E & Z & V & O & _). exists b. auto 8.
      * pose proof (inv_take_other _ _ _ _ _ _ _ I At (or_introl P)) as I1.
        assert (I2 : inv D (upd (upd (tensors st) j None) j (Some empty_handle)) (blocks st) (released st) []).
        { apply inv_fill_other; auto using fits_empty. eapply upd_hole; eauto. }
        apply inv_extend in I2. rewrite <- (app_upd _ None). eapply inv_fill_other; eauto.
        -- apply nth_end.
        -- unfold fits in F. rewrite P in F. subst t. reflexivity.
    + split; [|split]; cbn [tensors blocks target].
      * intros k Lk Nk. rewrite nth_error_app1 by now rewrite upd_length. apply nth_error_upd_neq. congruence.
      * intros a L _. exact L.
      * intros a l H. exact H.
  - destruct Al as (h & At). rewrite (find_ok _ _ _ At). cbn [bind].
    destruct (delete_spec D page_size datum_size st (tensors st) [] i h I At) as (st' & -> & T & I' & K & L & R). cbn [bind fst snd]. eexists. split; [reflexivity|].
    cbn [tensors blocks released]. rewrite T. split; [exact I'|]. eapply frame_put; cbn; eauto; try easy; now rewrite T.
  - destruct Al as (h & At). rewrite (find_ok _ _ _ At). cbn [bind].
    destruct (resize_spec D junk page_size datum_size st _ [] i h s w d m I At) as (st' & h' & dead & -> & T & I' & K & Sub & R & V & O & _). cbn [bind fst snd].
    eexists. split; [reflexivity|]. unfold put. cbn [tensors blocks released]. rewrite T. split; [exact I'|]. eapply frame_put; cbn; eauto; try now rewrite T.
  - destruct Al as (Nij & (h & At) & a & (t & Tt & Pa)). rewrite (find_ok _ _ _ At). cbn [bind]. rewrite (find_ok _ _ _ Tt). cbn [bind].
    destruct (delete_spec D page_size datum_size st (tensors st) [] i h I At) as (st' & -> & T & I' & K & L & R). cbn [bind fst snd]. eexists. split; [reflexivity|].
    destruct (Nat.eqb_spec i j); [tauto|]. unfold put, borrow. cbn [tensors blocks released h_mapped h_original empty_handle]. rewrite T. split.
    + rewrite <- (upd_twice (tensors st) i None). apply inv_fill_other; cbn; auto.
      * eapply upd_hole; eauto.
      * pose proof (i_fits _ _ _ _ _ I j t Tt) as F. unfold fits in *. cbn. rewrite Pa in *. destruct F as (b & Hb & Lb & E & Z & _).
        destruct (K a b Hb) as (b' & Hb' & Ed & _). exists b'. split; [exact Hb'|]. split; [congruence|]. auto.
    + eapply frame_put; cbn; eauto; try easy; now rewrite T.
  - destruct Al as ((h & At & Ma) & Len). rewrite (find_ok _ _ _ At). cbn [bind].
    destruct (map_file_spec D junk page_size datum_size st _ [] i h s w d m offset file I At Ma Len) as (st' & h' & dead & -> & T & I' & K & Sub & R & V). cbn [bind fst snd].
    eexists. split; [reflexivity|]. unfold put. cbn [tensors blocks released]. rewrite T. split; [exact I'|]. eapply frame_put; cbn; eauto; try now rewrite T.
  - destruct Al as (h & a & b & At & Ba & Le & P & Hb & Ob). rewrite (find_ok _ _ _ At). cbn [bind].
    destruct Ba as (a' & k & Pa & Ok_). assert (a' = a) by congruence; subst a'.
    destruct (fits_read D (blocks st) st h a k I eq_refl P (i_fits _ _ _ _ _ I i h At)) as (b' & Hb' & Lb & Len); [destruct Ok_ as (hk & ? & ?); exists hk; auto|].
    assert (b' = b) by congruence; subst b'. rewrite (write_ok D st h a b) by (auto; lia). eexists. split; [reflexivity|]. split.
    + cbn [tensors blocks released]. apply inv_contents; auto. apply upd_length.
    + split; [|split]; cbn [tensors blocks target].
      * auto.
      * intros c (bc & Hc & Lc) _. destruct (Nat.eq_dec a c) as [<-|N].
        -- eexists. cbn [blocks]. split; [apply nth_error_upd_eq; apply nth_error_Some; congruence|exact Lb].
        -- exists bc. cbn [blocks]. rewrite nth_error_upd_neq by auto. auto.
      * intros c l Hl. unfold contents in *. cbn [blocks]. destruct (Nat.eq_dec a c) as [<-|N].
        -- right. split; [exists h; auto|]. rewrite nth_error_upd_eq by (apply nth_error_Some; congruence). rewrite Hb in Hl. cbn in Hl |- *. congruence.
        -- left. now rewrite nth_error_upd_neq by auto.
  - destruct Al as (h & At & (a & k & P & Ok_) & Le). rewrite (find_ok _ _ _ At). cbn [bind].
    destruct (fits_read D (blocks st) st h a k I eq_refl P (i_fits _ _ _ _ _ I i h At)) as (b & Hb & Lb & Len); [destruct Ok_ as (hk & ? & ?); exists hk; auto|].
    rewrite (read_ok D st h a b) by auto. destruct (nth_error_lt (b_data b) (a := e)) as [x Hx]; [lia|]. rewrite (load_ok _ _ _ Hx). cbn [bind]. eexists. split; [reflexivity|]. split; [exact I|].
    split; [|split]; auto.
Qed.

Lemma inv_start : Inv (@start D).
Proof.
  split; cbn; auto using NoDup_nil; try easy.
  - intros i h H. unfold at_ in H. now destruct i.
  - intros i j a (h & H & _). unfold at_ in H. now destruct i.
  - intros a b H. now destruct a.
  - intros a. split; [easy|]. intros (b & H & _). now destruct a.
Qed.
Lemma history_inv ops st st' : Inv st -> history step st ops st' -> Inv st'.
Proof.
  intros I H. induction H as [|st o st1 ops st2 Al E H IH]; [exact I|]. destruct (step_ok st o I Al) as (st1' & E' & I' & _).
  assert (st1' = st1) by congruence. subst st1'. auto.
Qed.

(** After any history no supported operation is undefined (no double release, no release by the wrong function, no
    access to released memory), and what the operation changes is the tensor it is called on and, for a write, the
    written element of the memory. *)
Theorem C07_safe ops st o : history step start ops st -> allowed st o -> exists st', step st o = Ok st' /\ framed st st' o.
Proof. intros H A. destruct (step_ok st o (history_inv _ _ _ inv_start H) A) as (st' & E & _ & F). eauto. Qed.

(** After any history: no block has been released twice; the released blocks are exactly those that are no longer
    live; the memory of an owner is live and has no other owner; live memory has an owner. *)
Theorem C07_ownership ops st : history step start ops st ->
  NoDup (released st) /\
  (forall a, In a (released st) <-> a < length (blocks st) /\ ~ live st a) /\
  (forall i a, owns st i a -> live st a) /\
  (forall i j a, owns st i a -> owns st j a -> i = j) /\
  (forall a, live st a -> exists i, owns st i a).
Proof.
  intros H. pose proof (history_inv _ _ _ inv_start H) as I. destruct I as [I1 I2 I3 I4 I5 I6 I7]. repeat split; auto.
  - apply I6 in H0. destruct H0 as (b & Hb & _). apply nth_error_Some. congruence.
  - intros (b & Hb & L). apply I6 in H0. destruct H0 as (b' & Hb' & L'). congruence.
  - intros [L N]. apply I6. destruct (nth_error_lt (blocks st) L) as [b Hb]. exists b. split; [exact Hb|]. destruct (b_live b) eqn:E; [|reflexivity]. destruct N. exists b. auto.
  - intros i a (h & A & P & S). specialize (I1 i h A). unfold fits in I1. rewrite P, S in I1. destruct I1 as (b & Hb & _ & _ & _ & V & _). exists b. auto.
  - intros a (b & Hb & L). destruct (I3 a b Hb L) as [[]|?]. assumption.
Qed.

(** When all tensors have been destroyed, every block that was ever allocated has been released, once. *)
Theorem C07_all_released ops st : history step start ops st -> (forall i h, ~ is_tensor st i h) ->
  (forall a, a < length (blocks st) -> In a (released st)) /\ NoDup (released st).
Proof.
  intros H N. destruct (C07_ownership ops st H) as (Nd & R & _ & _ & O). split; [|exact Nd]. intros a La. apply R. split; [exact La|].
  intros L. destruct (O a L) as (i & h & A & _). exact (N i h A).
Qed.

(** A shadow never releases the memory it borrows: destroying, resizing, remapping or redirecting a shadow releases
    nothing. *)
Theorem C07_shadow_releases_nothing ops st o st' i h : history step start ops st -> allowed st o -> step st o = Ok st' ->
  target o = Some i -> is_tensor st i h -> h_shadow h = true -> released st' = released st /\ forall a, live st a -> live st' a.
Proof.
  intros H Al E T A S. pose proof (history_inv _ _ _ inv_start H) as I. destruct (step_ok st o I Al) as (st1 & E1 & I' & F). assert (st1 = st') by congruence; subst st1.
  assert (Nothing : forall a, ~ memory_of st (target o) a).
  { intros a (k & Ek & hk & Ak & _ & Sk). unfold is_tensor in *. rewrite T in Ek. injection Ek as <-. congruence. }
  split; [|intros a L; apply (proj1 (proj2 F)); auto].
  assert (OB : owned_block h = []) by (unfold owned_block; rewrite S; now destruct (h_ptr h)).
  destruct o as [s w d m|j|j|k|k s w d m|k j|k s w d m offset file|k e v|k e]; cbn [target] in T; try discriminate; injection T as ->; cbn [Heap_Model.step] in E.
  - cbn [allowed] in Al. destruct Al as (t & At & Sh & _). unfold is_tensor in *. congruence.
  - rewrite (find_ok _ _ _ A) in E. cbn [bind] in E.
    destruct (delete_spec D page_size datum_size st (tensors st) [] i h I A) as (st1 & E2 & _ & _ & _ & _ & R). rewrite E2 in E. cbn [bind fst snd] in E. injection E as <-. cbn. now rewrite R, OB.
  - rewrite (find_ok _ _ _ A) in E. cbn [bind] in E.
    destruct (resize_spec D junk page_size datum_size st _ [] i h s w d m I A) as (st1 & h' & dead & E2 & _ & _ & _ & Sub & R & _). rewrite E2 in E. cbn [bind fst snd] in E. injection E as <-.
    cbn. rewrite R. rewrite OB in Sub. destruct dead as [|x dead]; [reflexivity|destruct (Sub x (or_introl eq_refl))].
  - rewrite (find_ok _ _ _ A) in E. cbn [bind] in E. cbn [allowed] in Al. destruct Al as (_ & _ & a & (t & At & _)). rewrite (find_ok _ _ _ At) in E. cbn [bind] in E.
    destruct (delete_spec D page_size datum_size st (tensors st) [] i h I A) as (st1 & E2 & _ & _ & _ & _ & R). rewrite E2 in E. cbn [bind fst snd] in E. injection E as <-. cbn. now rewrite R, OB.
  - rewrite (find_ok _ _ _ A) in E. cbn [bind] in E. cbn [allowed] in Al. destruct Al as ((h0 & A0 & M) & Len). assert (h0 = h) by (unfold is_tensor in *; congruence); subst h0.
    destruct (map_file_spec D junk page_size datum_size st _ [] i h s w d m offset file I A M Len) as (st1 & h' & dead & E2 & _ & _ & _ & Sub & R & _). rewrite E2 in E. cbn [bind fst snd] in E. injection E as <-.
    cbn. rewrite R. rewrite OB in Sub. destruct dead as [|x dead]; [reflexivity|destruct (Sub x (or_introl eq_refl))].
Qed.

(** The values of tensors: Resize does what [Tensor_Model.resize] does to the value of a tensor that owns its memory
    or borrows it, and a tensor constructed from a shape is [Tensor_Model.new_tensor]. *)
Definition has_value (st : state) (i : nat) (t : Tensor_Model.tensor D) : Prop := exists h, is_tensor st i h /\ value (blocks st) h = t.
Theorem C07_resize_value ops st i s w d m t st' : history step start ops st -> has_value st i t -> step st (Resize i s w d m) = Ok st' ->
  has_value st' i (Tensor_Model.resize junk t s w d m).
Proof.
  intros H (h & A & <-) E. pose proof (history_inv _ _ _ inv_start H) as I. cbn [Heap_Model.step] in E. rewrite (find_ok _ _ _ A) in E. cbn [bind] in E.
  destruct (resize_spec D junk page_size datum_size st _ [] i h s w d m I A) as (st1 & h' & dead & E2 & T & _ & _ & _ & _ & V & _). rewrite E2 in E. cbn [bind fst snd] in E. injection E as <-.
  exists h'. split; [|exact V]. unfold is_tensor, put. cbn. rewrite T. apply nth_error_upd_eq. apply nth_error_Some. unfold is_tensor in A. congruence.
Qed.
Theorem C07_new_value ops st s w d m st' : history step start ops st -> step st (New s w d m) = Ok st' ->
  has_value st' (length (tensors st)) (Tensor_Model.new_tensor junk s w d m).
Proof.
  intros H E. pose proof (history_inv _ _ _ inv_start H) as I. cbn [Heap_Model.step] in E.
  destruct (construct st s w d m I) as (st1 & h' & E2 & T & _ & _ & _ & V & _). rewrite E2 in E. cbn [bind fst snd] in E. injection E as <-.
  exists h'. split; [|exact V]. unfold is_tensor, add. cbn. rewrite T. apply nth_end.
Qed.

(** A tensor that maps a file has the shape and the elements of the file. *)
Theorem C07_map_value ops st i s w d m offset file st' : history step start ops st -> allowed st (MapFile i s w d m offset file) -> 0 < length file ->
  step st (MapFile i s w d m offset file) = Ok st' -> has_value st' i (Tensor_Model.mkTensor s w d m (length file) (Some file)).
Proof.
  intros H ((h & A & M) & Len) P E. pose proof (history_inv _ _ _ inv_start H) as I. cbn [Heap_Model.step] in E. rewrite (find_ok _ _ _ A) in E. cbn [bind] in E.
  destruct (map_file_spec D junk page_size datum_size st _ [] i h s w d m offset file I A M Len) as (st1 & h' & dead & E2 & T & _ & _ & _ & _ & V). rewrite E2 in E. cbn [bind fst snd] in E. injection E as <-.
  exists h'. split; [|rewrite Len; exact (proj1 (V P))]. unfold is_tensor, put. cbn. rewrite T. apply nth_error_upd_eq. apply nth_error_Some. unfold is_tensor in A. congruence.
Qed.
(** The mapping has enough pages for the elements behind the offset, and no page more. *)
Theorem C07_mapping_pages ops st i s w d m offset file st' : history step start ops st -> allowed st (MapFile i s w d m offset file) -> 0 < length file -> 0 < page_size ->
  step st (MapFile i s w d m offset file) = Ok st' ->
  exists h a b, is_tensor st' i h /\ h_ptr h = Some a /\ nth_error (blocks st') a = Some b /\ b_origin b = FromMmap /\
    offset + length file * datum_size <= b_pages b * page_size < offset + length file * datum_size + page_size.
Proof.
  intros H ((h & A & M) & Len) P Pp E. pose proof (history_inv _ _ _ inv_start H) as I. cbn [Heap_Model.step] in E. rewrite (find_ok _ _ _ A) in E. cbn [bind] in E.
  destruct (map_file_spec D junk page_size datum_size st _ [] i h s w d m offset file I A M Len) as (st1 & h' & dead & E2 & T & _ & _ & _ & _ & V). rewrite E2 in E. cbn [bind fst snd] in E. injection E as <-.
  destruct (V P) as (_ & Hp & Hb). exists h', (length (blocks st)). eexists. split; [|split; [exact Hp|split; [exact Hb|split; [reflexivity|]]]].
  - unfold is_tensor, put. cbn. rewrite T. apply nth_error_upd_eq. apply nth_error_Some. unfold is_tensor in A. congruence.
  - cbn [b_pages]. rewrite <- Len. unfold pages_of. set (q := length file * datum_size + offset).
    pose proof (Nat.div_mod (q + page_size - 1) page_size ltac:(lia)). pose proof (Nat.mod_upper_bound (q + page_size - 1) page_size ltac:(lia)).
    unfold q in *. rewrite (Nat.mul_comm _ page_size). lia.
Qed.
(** The new tensor of a move takes over shape, memory and ownership; the source is left without memory. *)
Theorem C07_move ops st j h st' : history step start ops st -> allowed st (Move j) -> is_tensor st j h -> step st (Move j) = Ok st' ->
  is_tensor st' (length (tensors st)) h /\ is_tensor st' j empty_handle /\ blocks st' = blocks st /\ released st' = released st.
Proof.
  intros H (h0 & A0 & Sh & Ma) A E. assert (h0 = h) by (unfold is_tensor in *; congruence); subst h0.
  pose proof (history_inv _ _ _ inv_start H) as I. pose proof (i_fits _ _ _ _ _ I j h A) as F.
  assert (Ori : h_original h = None).
  { unfold fits in F. rewrite Sh, Ma in F. destruct (h_ptr h); [|now subst h]. destruct F as (b & _ & _ & _ & _ & _ & _ & ?). assumption. }
  cbn [Heap_Model.step] in E. rewrite (find_ok _ _ _ A) in E. cbn [bind] in E. unfold Heap_Model.delete_if_possible in E. cbn [h_ptr h_mapped h_original bind fst snd] in E.
  rewrite Ma, Ori in E. injection E as <-. assert (Lj : j < length (tensors st)) by (apply nth_error_Some; unfold is_tensor in A; congruence).
  unfold is_tensor, add, put. cbn [tensors blocks released]. split; [|split; [|auto]].
  - replace (length (tensors st)) with (length (upd (tensors st) j (Some (mkHandle 0 0 0 0 0 None false false None)))) by apply upd_length. rewrite nth_end.
    destruct h. cbn in *. congruence.
  - rewrite nth_error_app1 by now rewrite upd_length. now apply nth_error_upd_eq.
Qed.

(** A copy has the same shape and contents in a block of its own. *)
Theorem C07_copy ops st j t st' : history step start ops st -> allowed st (Copy j) -> has_value st j t -> step st (Copy j) = Ok st' ->
  has_value st' (length (tensors st)) t /\ forall a, has st' (length (tensors st)) a -> length (blocks st) <= a /\ owns st' (length (tensors st)) a.
Proof.
  intros H Al (h & A & <-) E. pose proof (history_inv _ _ _ inv_start H) as I. cbn [Heap_Model.step] in E. rewrite (find_ok _ _ _ A) in E. cbn [bind] in E.
  destruct (construct st (h_samples h) (h_width h) (h_height h) (h_maps h) I) as (st1 & h' & E2 & T & I' & K & R & V & O & Sh & Ma). rewrite E2 in E. cbn [bind] in E.
  pose proof (i_fits _ _ _ _ _ I j h A) as F.
  assert (At' : at_ (tensors st ++ [Some h']) (length (tensors st)) h') by apply nth_end. pose proof (i_fits _ _ _ _ _ I' _ _ At') as F'.
  destruct (h_ptr h) as [a|] eqn:P.
  2:{ unfold fits in F. rewrite P in F. subst h. cbn in E2. injection E2 as <- <-. cbn in E. injection E as <-. split.
      - exists empty_handle. split; [apply nth_end|reflexivity].
      - intros a (h & X & Px). unfold is_tensor, add in X. cbn in X. rewrite nth_end in X. injection X as <-. discriminate. }
  cbn [allowed] in Al. destruct Al as (h0 & A0 & Ba). assert (h0 = h) by (unfold is_tensor in *; congruence); subst h0.
  destruct Ba as [?|(a' & k & Pa & Ok_)]; [congruence|]. assert (a' = a) by congruence; subst a'.
  destruct (fits_read D (blocks st) st h a k I eq_refl P F) as (b & Hb & Lb & Len); [destruct Ok_ as (hk & ? & ?); exists hk; auto|].
  unfold fits in F. rewrite P in F. destruct F as (b0 & Hb0 & _ & Es & Z & _). assert (b0 = b) by congruence; subst b0.
  unfold Tensor_Model.new_tensor, Tensor_Model.resize, Tensor_Model.reshape, Tensor_Model.empty_tensor in V. cbn [Tensor_Model.data Tensor_Model.elements] in V.
  rewrite <- Es in V. destruct (Nat.eqb_spec (h_elements h) 0); [lia|]. unfold Heap_Proofs.value in V. injection V as V1 V2 V3 V4 V5 V6.
  destruct (h_ptr h') as [c|] eqn:Pc; [|discriminate]. assert (Ec : c = length (blocks st)) by (unfold owned_block in O; rewrite Pc, Sh in O; destruct O as [?|O]; congruence).
  unfold fits in F'. rewrite Pc, Sh, Ma in F'. destruct F' as (bc & Hc & Lc & Ec' & Zc & Vc & Fc & _).
  assert (Ha' : nth_error (blocks st1) a = Some b) by (destruct (K a b Hb) as (b' & H' & _ & _ & [[]| ->]); exact H').
  assert (Hac : a <> c) by (assert (a < length (blocks st)) by (apply nth_error_Some; congruence); lia).
  destruct (copy_loop D h h' a c (h_elements h) P Pc Hac (h_elements h) st1 b bc Ha' Lb Hc Vc Fc Len ltac:(lia) ltac:(lia)) as (l & El & Ed).
  { now rewrite Nat.sub_diag. }
  rewrite Nat.sub_diag in El. rewrite El in E. cbn [bind] in E. injection E as <-. split.
  - exists h'. split; [unfold is_tensor, add; cbn; rewrite T; apply nth_end|]. unfold Heap_Proofs.value, add. cbn [blocks]. rewrite Pc, P.
    rewrite nth_error_upd_eq by (apply nth_error_Some; congruence). rewrite Hb. cbn [option_map b_data]. rewrite V1, V2, V3, V4, V5. congruence.
  - intros x (hx & X & Px). unfold is_tensor, add in X. cbn in X. rewrite T, nth_end in X. injection X as <-. split; [assert (x = c) by congruence; lia|].
    exists h'. split; [unfold is_tensor, add; cbn; rewrite T; apply nth_end|auto].
Qed.

(** A shadow shares the memory of its target: it has its shape and block, so a value written through one of two tensors
    with the same block is read through the other. *)
Theorem C07_shadow_shares ops st i j st' t : history step start ops st -> allowed st (Shadow i j) -> step st (Shadow i j) = Ok st' -> is_tensor st j t ->
  exists h, is_tensor st' i h /\ is_tensor st' j t /\ h_shadow h = true /\ h_ptr h = h_ptr t /\ h_elements h = h_elements t /\
    h_samples h = h_samples t /\ h_width h = h_width t /\ h_height h = h_height t /\ h_maps h = h_maps t.
Proof.
  intros H Al E Tt. pose proof (history_inv _ _ _ inv_start H) as I. cbn [allowed] in Al. destruct Al as (Nij & (h & At) & _).
  cbn [Heap_Model.step] in E. rewrite (find_ok _ _ _ At) in E. cbn [bind] in E. rewrite (find_ok _ _ _ Tt) in E. cbn [bind] in E.
  destruct (delete_spec D page_size datum_size st (tensors st) [] i h I At) as (st1 & E2 & T & _). rewrite E2 in E. cbn [bind fst snd] in E. injection E as <-.
  destruct (Nat.eqb_spec i j); [tauto|]. exists (borrow empty_handle t). unfold is_tensor, put in *. cbn [tensors]. rewrite T. repeat split.
  - apply nth_error_upd_eq. apply nth_error_Some. congruence.
  - rewrite nth_error_upd_neq by auto. exact Tt.
Qed.
Theorem C07_write_shared ops st i j hi hj e v st' : history step start ops st -> allowed st (Write i e v) -> step st (Write i e v) = Ok st' ->
  is_tensor st i hi -> is_tensor st j hj -> h_ptr hj = h_ptr hi -> h_elements hj = h_elements hi ->
  read st' hj e = Ok v /\ forall e', e' <> e -> read st' hj e' = read st hj e'.
Proof.
  intros H Al E Ti Tj P _. pose proof (history_inv _ _ _ inv_start H) as I. cbn [allowed] in Al. destruct Al as (h & a & b & At & (a' & k & Pa & Ok_) & Le & Ph & Hb & Ob).
  assert (h = hi) by (unfold is_tensor in *; congruence); subst h. assert (a' = a) by congruence; subst a'.
  destruct (fits_read D (blocks st) st hi a k I eq_refl Ph (i_fits _ _ _ _ _ I i hi At)) as (b' & Hb' & Lb & Len); [destruct Ok_ as (hk & ? & ?); exists hk; auto|].
  assert (b' = b) by congruence; subst b'. cbn [Heap_Model.step] in E. rewrite (find_ok _ _ _ At) in E. cbn [bind] in E. rewrite (write_ok D st hi a b) in E by (auto; lia). injection E as <-.
  rewrite Ph in P. set (b1 := mkBlock _ _ _ _).
  assert (R : forall x, read (mkState (tensors st) (upd (blocks st) a b1) (released st)) hj x = load (b_data b1) x).
  { intros x. apply read_ok with a; auto. cbn. apply nth_error_upd_eq. apply nth_error_Some. congruence. }
  split.
  - rewrite R. apply load_ok. cbn. apply nth_error_upd_eq. lia.
  - intros e' Ne. rewrite R, (read_ok D st hj a b) by auto. unfold load. cbn. now rewrite nth_error_upd_neq by auto.
Qed.
End Steps.

Notation run4 := (run (fun n => n) 4096 4).
(** A history that uses every operation and meets the hypotheses above: a tensor with memory, a shadow of it that is written
    through, a copy, a move, a mapping, resizing the owner while a shadow exists, and the destruction of all tensors. *)
Definition sample_ops : list (op nat) :=
  [New 1 2 1 1; New 0 0 0 0; Shadow 1 0; Write 1 0 5; Read 0 0; Copy 1; Move 2; Resize 2 1 1 3 1; MapFile 2 1 2 1 1 40 [7; 8]; Read 2 1; Resize 0 1 2 2 1;
   Shadow 1 2; Resize 1 2 2 2 1; Destroy 0; Destroy 1; Destroy 2; Destroy 3].
Example sample_history : exists st, history (step (fun n => n) 4096 4) start sample_ops st /\ tensors st = [None; None; None; None] /\ length (blocks st) = 6 /\ length (released st) = 6.
Proof.
  eexists. split.
  { unfold sample_ops. eapply history_cons; [exact I|vm_compute; reflexivity|]. eapply history_cons; [exact I|vm_compute; reflexivity|].
    eapply history_cons; [cbn; split; [lia|]; split; [eexists; reflexivity|eexists; eexists; split; reflexivity]|vm_compute; reflexivity|].
    eapply history_cons; [cbn; eexists _, _, _; split; [reflexivity|]; split; [exists 0, 0; split; [reflexivity|eexists; split; [reflexivity|split; reflexivity]]|]; split; [cbn; lia|]; repeat split|vm_compute; reflexivity|].
    eapply history_cons; [cbn; eexists; split; [reflexivity|]; split; [exists 0, 0; split; [reflexivity|eexists; split; [reflexivity|split; reflexivity]]|cbn; lia]|vm_compute; reflexivity|].
    eapply history_cons; [cbn; eexists; split; [reflexivity|right; exists 0, 0; split; [reflexivity|eexists; split; [reflexivity|split; reflexivity]]]|vm_compute; reflexivity|].
    eapply history_cons; [cbn; eexists; split; [reflexivity|split; reflexivity]|vm_compute; reflexivity|].
    eapply history_cons; [eexists; reflexivity|vm_compute; reflexivity|].
    eapply history_cons; [cbn; split; [eexists; split; reflexivity|reflexivity]|vm_compute; reflexivity|].
    eapply history_cons; [cbn; eexists; split; [reflexivity|]; split; [exists 3, 2; split; [reflexivity|eexists; split; [reflexivity|split; reflexivity]]|cbn; lia]|vm_compute; reflexivity|].
    eapply history_cons; [eexists; reflexivity|vm_compute; reflexivity|].
    eapply history_cons; [cbn; split; [lia|]; split; [eexists; reflexivity|eexists; eexists; split; reflexivity]|vm_compute; reflexivity|].
    eapply history_cons; [eexists; reflexivity|vm_compute; reflexivity|].
    eapply history_cons; [eexists; reflexivity|vm_compute; reflexivity|]. eapply history_cons; [eexists; reflexivity|vm_compute; reflexivity|].
    eapply history_cons; [eexists; reflexivity|vm_compute; reflexivity|]. eapply history_cons; [eexists; reflexivity|vm_compute; reflexivity|]. apply history_nil. }
  repeat split.
Qed.

(** * What the class does not support *)
(** Moving a shadow makes the new tensor an owner: its destruction releases memory that another tensor owns, and the owner's
    destruction releases it again. *)
Theorem C07_moved_shadow_refuted : exists ops : list (op nat), run4 ops start = UB /\
  ops = [New 1 2 1 1; New 0 0 0 0; Shadow 1 0; Move 1; Destroy 2; Destroy 0].
Proof. eexists. split; [|reflexivity]. vm_compute. reflexivity. Qed.
(** Moving a mapped tensor: the new tensor releases the mapping with delete[]. *)
Theorem C07_moved_mapping_refuted : exists ops : list (op nat), run4 ops start = UB /\
  ops = [New 0 0 0 0; MapFile 0 1 2 1 1 40 [7; 8]; Move 0; Destroy 1].
Proof. eexists. split; [|reflexivity]. vm_compute. reflexivity. Qed.
(** Mapping a second file into a mapped tensor unmaps the new mapping instead of the old one: reading the tensor is undefined,
    and the old mapping is never released. *)
Theorem C07_remapped_refuted : exists (ops : list (op nat)) st, ops = [New 0 0 0 0; MapFile 0 1 2 1 1 0 [7; 8]; MapFile 0 1 2 1 1 0 [5; 6]] /\
  run4 ops start = Ok st /\ run4 [Read 0 0] st = UB /\
  exists st', run4 [Destroy 0] st = Ok st' /\ live st' 0 /\ released st' = [1].
Proof.
  eexists _, _. split; [reflexivity|]. split; [vm_compute; reflexivity|]. split; [vm_compute; reflexivity|]. eexists. split; [vm_compute; reflexivity|].
  split; [|reflexivity]. eexists. split; reflexivity.
Qed.
(** A tensor that shadows a tensor without memory never releases the memory it gets later. *)
Theorem C07_empty_shadow_refuted : exists (ops : list (op nat)) st, ops = [New 0 0 0 0; New 0 0 0 0; Shadow 1 0; Resize 1 1 2 1 1; Destroy 1; Destroy 0] /\
  run4 ops start = Ok st /\ tensors st = [None; None] /\ live st 0 /\ released st = [].
Proof. eexists _, _. split; [reflexivity|]. split; [vm_compute; reflexivity|]. split; [reflexivity|]. split; [|reflexivity]. eexists. split; reflexivity. Qed.
(** A shadow is not told when its target's memory goes away. *)
Theorem C07_stale_shadow_refuted : exists (ops : list (op nat)) st, ops = [New 1 2 1 1; New 0 0 0 0; Shadow 1 0; Resize 0 1 3 1 1] /\
  run4 ops start = Ok st /\ (exists h, is_tensor st 1 h /\ h_elements h = 2) /\ run4 [Read 1 0] st = UB.
Proof.
  eexists _, _. split; [reflexivity|]. split; [vm_compute; reflexivity|]. split; [|vm_compute; reflexivity]. eexists. split; reflexivity.
Qed.
(** munmap is called without the offset of the data in its page, so the last page of the mapping may stay mapped. *)
Theorem C07_mapping_tail_refuted : exists (ops : list (op nat)) st b, ops = [New 0 0 0 0; MapFile 0 1 1024 1 1 40 (seq 0 1024); Destroy 0] /\
  run4 ops start = Ok st /\ tensors st = [None] /\ nth_error (blocks st) 0 = Some b /\ b_pages b = 1.
Proof. eexists _, _, _. split; [reflexivity|]. split; [vm_compute; reflexivity|]. split; [reflexivity|]. split; reflexivity. Qed.

Print Assumptions C07_safe.
Print Assumptions C07_ownership.
Print Assumptions C07_all_released.
Print Assumptions C07_shadow_releases_nothing.
Print Assumptions C07_resize_value.
Print Assumptions C07_new_value.
Print Assumptions C07_map_value.
Print Assumptions C07_mapping_pages.
Print Assumptions C07_move.
Print Assumptions C07_copy.
Print Assumptions C07_shadow_shares.
Print Assumptions C07_write_shared.
Print Assumptions C07_moved_shadow_refuted.
Print Assumptions C07_moved_mapping_refuted.
Print Assumptions C07_remapped_refuted.
Print Assumptions C07_empty_shadow_refuted.
Print Assumptions C07_stale_shadow_refuted.
Print Assumptions C07_mapping_tail_refuted.

(** Lemmas for C75: tensors as lists of their elements. *)
From Coq Require Import Reals Lra.
From Verif Require Import Base BaseFacts LoopFacts Tensor_Model Tensor_Spec Tensor_Proofs Num RealNum Math_Model Math_Spec Math_Proofs
  Conv_Proofs Graph_Model Backprop_Model Backprop_Spec Backprop_Proofs BackpropLayers_Model BackpropLayers_Spec.
Local Open Scope list_scope.

Lemma place_offset {D} d (l : list D) x y m s : offset (tensor_of d l) x y m s = place d x y m s.
Proof. rewrite offset_mix. reflexivity. Qed.
Lemma place_lt d x y m s : in_range d x y m s -> place d x y m s < size d.
Proof.
  intros (Hx & Hy & Hm & Hs). unfold place, size.
  assert (A : s * d_maps d + m < d_samples d * d_maps d) by nia.
  assert (B : (s * d_maps d + m) * d_height d + y < d_samples d * d_maps d * d_height d) by nia. nia.
Qed.
Lemma place_surj d e : e < size d -> exists x y m s, in_range d x y m s /\ place d x y m s = e.
Proof.
  intros He. destruct (offset_surj (tensor_of d (repeat tt (size d))) e) as (x & y & m & s & V & E); [exact He|].
  exists x, y, m, s. split; [exact V|]. now rewrite place_offset in E.
Qed.
Lemma size_pos d x y m s : in_range d x y m s -> 0 < size d.
Proof. intros H. pose proof (place_lt d x y m s H). lia. Qed.

Lemma tensor_wf d (l : list R) : shaped d l -> 0 < size d -> wf (tensor_of d l).
Proof. intros L H. split; [reflexivity|]. cbn. now split. Qed.
Lemma tensor_shape {D} d (l : list D) : has_shape (tensor_of d l) (d_samples d) (d_width d) (d_height d) (d_maps d).
Proof. now repeat split. Qed.
Lemma tensor_same {D} d (l l' : list D) : same_shape (tensor_of d l) (tensor_of d l').
Proof. now repeat split. Qed.
Lemma tensor_contents d l : shaped d l -> contents (tensor_of d l) (fn d l).
Proof.
  intros L x y m s V. rewrite at_pos_raw by exact V. rewrite place_offset. unfold raw, fn. cbn.
  apply nth_error_nth'. rewrite L. now apply place_lt.
Qed.

(** What a function stores in a tensor. *)
Lemma written_at d (t : tensor R) f : wf t -> has_shape t (d_samples d) (d_width d) (d_height d) (d_maps d) -> contents t f -> 0 < size d ->
  shaped d (elements_of t) /\ forall x y m s, in_range d x y m s -> fn d (elements_of t) x y m s = f x y m s.
Proof.
  intros W (S1 & S2 & S3 & S4) C P. destruct W as [We Wd]. unfold elements_of. destruct (data t) as [l|] eqn:E.
  - destruct Wd as [Wd _]. assert (L : shaped d l) by (unfold shaped, size; rewrite Wd, We, S1, S2, S3, S4; reflexivity).
    split; [exact L|]. intros x y m s V. assert (Vt : valid_pos t x y m s) by (unfold valid_pos; rewrite S1, S2, S3, S4; exact V).
    pose proof (C x y m s Vt) as H. rewrite at_pos_raw in H by exact Vt. unfold raw in H. rewrite E in H.
    rewrite offset_mix, S2, S3, S4 in H. unfold fn, place. now apply nth_error_nth.
  - exfalso. destruct Wd as (A & _). unfold size in P. rewrite <- S1, A in P. cbn in P. lia.
Qed.

(** ** Inner products *)
Lemma rsum_nsum n (f : nat -> R) : rsum f (seq 0 n) = nsum R_num n f.
Proof. induction n as [|n IH]; [reflexivity|]. rewrite seq_S, rsum_app, IH. cbn. ring. Qed.
Lemma dot_fn d a b : shaped d b -> dot a b = Math_Spec.dot R_num (d_samples d) (d_width d) (d_height d) (d_maps d) (fn d a) (fn d b).
Proof.
  intros L. unfold dot. rewrite L, rsum_nsum. unfold size, Math_Spec.dot, tensor_sum.
  rewrite (nsum_mix R_num R_ring_laws), (nsum_mix R_num R_ring_laws), (nsum_mix R_num R_ring_laws). reflexivity.
Qed.
Lemma dot_ext d (f f' g g' : nat -> nat -> nat -> nat -> R) :
  (forall x y m s, in_range d x y m s -> (f x y m s * g x y m s = f' x y m s * g' x y m s)%R) ->
  Math_Spec.dot R_num (d_samples d) (d_width d) (d_height d) (d_maps d) f g = Math_Spec.dot R_num (d_samples d) (d_width d) (d_height d) (d_maps d) f' g'.
Proof.
  intros H. unfold Math_Spec.dot, tensor_sum. apply nsum_ext. intros s Hs. apply nsum_ext. intros m Hm. apply nsum_ext. intros y Hy.
  apply nsum_ext. intros x Hx. apply H. now repeat split.
Qed.
Lemma dot_plus ss w h mm f g g' : Math_Spec.dot R_num ss w h mm f (fun x y m s => g x y m s + g' x y m s)%R =
  (Math_Spec.dot R_num ss w h mm f g + Math_Spec.dot R_num ss w h mm f g')%R.
Proof.
  unfold Math_Spec.dot, tensor_sum.
  assert (Hadd : forall n (a b : nat -> R), nsum R_num n (fun i => a i + b i)%R = (nsum R_num n a + nsum R_num n b)%R) by (intros; apply (nsum_add R_num R_ring_laws)).
  rewrite <- Hadd. apply nsum_ext. intros s _. rewrite <- Hadd. apply nsum_ext. intros m _. rewrite <- Hadd. apply nsum_ext. intros y _.
  rewrite <- Hadd. apply nsum_ext. intros x _. cbn. ring.
Qed.
Lemma dot_comm ss w h mm f g : Math_Spec.dot R_num ss w h mm f g = Math_Spec.dot R_num ss w h mm g f.
Proof.
  unfold Math_Spec.dot, tensor_sum. apply nsum_ext. intros s _. apply nsum_ext. intros m _. apply nsum_ext. intros y _. apply nsum_ext. intros x _. cbn. ring.
Qed.

(** ** Velocities *)
(** The list with the given elements. *)
Definition tab (d : dims) (g : nat -> nat -> nat -> nat -> R) : list R :=
  map (fun e => g (e mod d_width d) ((e / d_width d) mod d_height d) ((e / d_width d / d_height d) mod d_maps d) (e / d_width d / d_height d / d_maps d)) (seq 0 (size d)).
Lemma tab_shaped d g : shaped d (tab d g).
Proof. unfold shaped, tab. now rewrite map_length, seq_length. Qed.
Lemma digit a n b : b < n -> (a * n + b) mod n = b /\ (a * n + b) / n = a.
Proof. intros H. rewrite Nat.add_comm, Nat.mod_add, Nat.div_add by lia. rewrite Nat.mod_small, Nat.div_small by exact H. lia. Qed.
Lemma fn_tab d g x y m s : in_range d x y m s -> fn d (tab d g) x y m s = g x y m s.
Proof.
  intros V. pose proof (place_lt d x y m s V) as Hl. destruct V as (Hx & Hy & Hm & Hs). unfold fn, tab.
  rewrite (nth_indep _ 0%R (g (0 mod d_width d) ((0 / d_width d) mod d_height d) ((0 / d_width d / d_height d) mod d_maps d) (0 / d_width d / d_height d / d_maps d)))
    by (now rewrite map_length, seq_length).
  rewrite (map_nth (fun e => g (e mod d_width d) ((e / d_width d) mod d_height d) ((e / d_width d / d_height d) mod d_maps d) (e / d_width d / d_height d / d_maps d))).
  rewrite seq_nth by exact Hl. cbn [Nat.add]. unfold place.
  destruct (digit ((s * d_maps d + m) * d_height d + y) (d_width d) x Hx) as [-> ->].
  destruct (digit (s * d_maps d + m) (d_height d) y Hy) as [-> ->]. destruct (digit s (d_maps d) m Hm) as [-> ->]. reflexivity.
Qed.
Lemma moves_shaped d x v0 dx : moves x v0 dx -> shaped d (x v0) -> shaped d dx /\ forall v, shaped d (x v).
Proof. intros [L _] H. unfold shaped in *. split; [now rewrite <- L with v0|]. intros v. now rewrite L, <- L with v0. Qed.
Lemma moves_fn d x v0 dx : moves x v0 dx -> shaped d dx -> forall i j m s, in_range d i j m s ->
  derivable_pt_lim (fun v => fn d (x v) i j m s) v0 (fn d dx i j m s).
Proof. intros [_ H] L i j m s V. apply H. rewrite L. now apply place_lt. Qed.
Lemma fn_moves d (x : R -> list R) v0 g : (forall v, shaped d (x v)) ->
  (forall i j m s, in_range d i j m s -> derivable_pt_lim (fun v => fn d (x v) i j m s) v0 (g i j m s)) -> moves x v0 (tab d g).
Proof.
  intros L H. split; [intros v; now rewrite L, tab_shaped|]. intros e He. rewrite tab_shaped in He. destruct (place_surj d e He) as (i & j & m & s & V & <-).
  change (derivable_pt_lim (fun v => fn d (x v) i j m s) v0 (fn d (tab d g) i j m s)). rewrite fn_tab by exact V. now apply H.
Qed.
Lemma all_move_one_output x v0 dx : moves x v0 dx -> all_move (fun v => [x v]) v0 [dx].
Proof. intros H. split; [reflexivity|]. intros [|i] Hi; [exact H|cbn in Hi; lia]. Qed.
Lemma all_move_none v0 : all_move (fun _ => []) v0 [].
Proof. split; [reflexivity|]. intros i Hi. cbn in Hi. lia. Qed.
Lemma all_move_nth x v0 dx i : all_move x v0 dx -> i < length (x v0) -> moves (fun v => nth i (x v) []) v0 (nth i dx []).
Proof. intros [L H] Hi. apply H. now rewrite <- L with v0. Qed.

(** A list of one tensor. *)
Lemma shape_one delta dy : shape delta = shape [dy] -> exists a, delta = [a] /\ length a = length dy.
Proof. destruct delta as [|a [|? ?]]; cbn; intros E; try discriminate. injection E as E. now exists a. Qed.
Lemma dots_one a b : dots [a] [b] = dot a b.
Proof. unfold dots. cbn [rsum seq length nth]. ring. Qed.
Lemma dots_two a b a' b' : dots [a; a'] [b; b'] = (dot a b + dot a' b')%R.
Proof. unfold dots. cbn [rsum seq length nth]. ring. Qed.
Lemma dots_nil a : dots a [] = 0%R.
Proof. reflexivity. Qed.
Lemma all_move_ext x y v0 dx : (forall v, x v = y v) -> all_move x v0 dx -> all_move y v0 dx.
Proof.
  intros E [H1 H2]. split; [intros v; now rewrite <- E|]. intros i Hi. eapply moves_ext; [|apply H2, Hi]. intros v. cbv beta. now rewrite E.
Qed.
Lemma derive_value f v a b : derivable_pt_lim f v a -> a = b -> derivable_pt_lim f v b.
Proof. now intros H <-. Qed.

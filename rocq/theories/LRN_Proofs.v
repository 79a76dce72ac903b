(** Proofs about local response normalization. *)
From Verif Require Import Base BaseFacts LoopFacts Tensor_Model Tensor_Spec Tensor_Proofs Num Math_Model Math_Spec Math_Proofs
  Conv_Proofs Layers_Proofs LRN_Model LRN_Spec.

Lemma lrn_bounds size n c i : 0 < size -> lrn_lo size c <= i < lrn_hi size n c <-> i < n /\ near size c i.
Proof.
  intros Hs. unfold lrn_lo, lrn_hi, near. destruct (Nat.eqb_spec size 0); [lia|].
  set (p := (size - 1) / 2). set (q := size / 2). clearbody p q. lia.
Qed.

Lemma for_from_list {A B} (f : nat -> A -> B) a b (l : list A) : for_from a b (fun i => map (f i) l) = flat_map (fun i => map (f i) l) (range a b).
Proof. reflexivity. Qed.

Lemma NoDup_append {A} (l1 l2 : list A) : NoDup l1 -> NoDup l2 -> (forall v, In v l1 -> In v l2 -> False) -> NoDup (l1 ++ l2).
Proof.
  induction l1 as [|a l1 IH]; intros H1 H2 Hd; [exact H2|]. inversion H1; subst. cbn [app]. constructor.
  - intros Hin. apply in_app_or in Hin as [Hin|Hin]; [contradiction|]. apply (Hd a); [now left|exact Hin].
  - apply IH; auto. intros v Hv. apply Hd. now right.
Qed.

Lemma NoDup_for_from {A} (f : nat -> list A) a b :
  (forall i, a <= i < b -> NoDup (f i)) -> (forall i j v, In v (f i) -> In v (f j) -> i = j) -> NoDup (for_from a b f).
Proof.
  intros Hn Hd. unfold for_from. assert (H : forall l, NoDup l -> (forall i, In i l -> a <= i < b) -> NoDup (flat_map f l)).
  { induction l as [|i l IH]; intros Hl Hi; cbn [flat_map]; [constructor|]. inversion Hl; subst.
    apply NoDup_append; [apply Hn, Hi; now left| |].
    - apply IH; [assumption|]. intros j Hj. apply Hi. now right.
    - intros v Hv Hv2. apply in_flat_map in Hv2 as (j & Hj & Hv2). rewrite (Hd i j v Hv Hv2) in *. contradiction. }
  apply H; [apply seq_NoDup|]. intros i Hi. now apply in_range.
Qed.

Lemma in_within size w h x y p : 0 < size -> In p (within_region size w h x y) <-> (fst p < w /\ snd p < h /\ near size x (fst p) /\ near size y (snd p)).
Proof.
  intros Hs. unfold within_region. rewrite in_for_from. split.
  - intros (iy & Hy & Hin). apply in_for_from in Hin as (ix & Hx & [<-|[]]). cbn [fst snd].
    apply lrn_bounds in Hx as [? ?]; [|exact Hs]. apply lrn_bounds in Hy as [? ?]; [|exact Hs]. auto.
  - intros (H1 & H2 & H3 & H4). exists (snd p). split; [now apply lrn_bounds|]. apply in_for_from. exists (fst p).
    split; [now apply lrn_bounds|]. left. now destruct p.
Qed.

Lemma region_spec method size w h mm x y m p : 0 < size ->
  In p (lrn_region method size w h mm x y m) <-> neighbour method size w h mm x y m p.
Proof.
  intros Hs. destruct p as [[ix iy] im]. unfold lrn_region, neighbour. destruct method; rewrite in_map_iff.
  - split.
    + intros ([a b] & E & Hin). apply in_within in Hin; [|exact Hs]. cbn [fst snd] in *. injection E as <- <- <-. tauto.
    + intros (-> & H1 & H2 & H3 & H4). exists (ix, iy). split; [reflexivity|]. apply in_within; [exact Hs|]. auto.
  - unfold across_region. split.
    + intros (i & E & Hin). apply in_for_from in Hin as (j & Hj & [<-|[]]). injection E as <- <- <-. apply lrn_bounds in Hj; [|exact Hs]. tauto.
    + intros (-> & -> & H1 & H2). exists im. split; [reflexivity|]. apply in_for_from. exists im. split; [now apply lrn_bounds|now left].
Qed.

Lemma region_nodup method size w h mm x y m : NoDup (lrn_region method size w h mm x y m).
Proof.
  unfold lrn_region. destruct method.
  - apply FinFun.Injective_map_NoDup; [intros [a b] [c d] [= -> ->]; reflexivity|].
    apply NoDup_for_from.
    + intros i _. apply NoDup_for_from; [intros; constructor; [intros []|constructor]|].
      intros a b v [<-|[]] [E|[]]. now injection E.
    + intros i j v Hi Hj. apply in_for_from in Hi as (a & _ & [<-|[]]). apply in_for_from in Hj as (b & _ & [E|[]]). now injection E.
  - apply FinFun.Injective_map_NoDup; [intros a b [= ->]; reflexivity|].
    apply NoDup_for_from; [intros; constructor; [intros []|constructor]|]. intros a b v [<-|[]] [E|[]]. auto.
Qed.

(** The centre belongs to its own region. *)
Lemma near_self size c : near size c c.
Proof. unfold near. lia. Qed.

Lemma lrn_region_valid {D} method size (input : tensor D) x y m s p : 0 < size ->
  x < width input -> y < height input -> m < maps input -> s < samples input ->
  In p (lrn_region method size (width input) (height input) (maps input) x y m) -> valid_pos input (fst (fst p)) (snd (fst p)) (snd p) s.
Proof.
  intros Hs Hx Hy Hm Hs' Hin. apply region_spec in Hin; [|exact Hs]. destruct p as [[ix iy] im]. cbn [fst snd].
  destruct method; cbn [neighbour] in Hin; repeat split; intuition (subst; auto).
Qed.

Section Values.
Context {D : Type}.
Variable K : num D.
Variables (scale : nat -> D) (power power1 : D -> D) (ndiv : D -> D -> D) (two beta : D).

Lemma lrn_sum_spec method size (input : tensor D) f x y m s : 0 < size -> contents input f ->
  x < width input -> y < height input -> m < maps input -> s < samples input ->
  lrn_sum K method size input x y m s =
    Ok (squares K (map (fun p => f (fst (fst p)) (snd (fst p)) (snd p) s) (lrn_region method size (width input) (height input) (maps input) x y m))).
Proof.
  intros Hsz Cf Hx Hy Hm Hs. unfold lrn_sum, squares.
  assert (HV : forall p, In p (lrn_region method size (width input) (height input) (maps input) x y m) -> valid_pos input (fst (fst p)) (snd (fst p)) (snd p) s).
  { intros p. now apply lrn_region_valid. }
  revert HV. generalize (lrn_region method size (width input) (height input) (maps input) x y m) as l. generalize (n0 K) as acc.
  intros acc l. revert acc. induction l as [|[[ix iy] im] l IH]; intros acc HV; [reflexivity|].
  assert (V : valid_pos input ix iy im s) by exact (HV (ix, iy, im) (or_introl eq_refl)).
  cbn [foldm map fold_left fst snd]. rewrite (contents_get _ _ _ _ _ _ Cf V). cbn [bind].
  apply IH. intros p Hp. apply HV. now right.
Qed.

(** A loop over the first columns writing [val]. *)
Lemma lrn_fill (input t : tensor D) (val : nat -> nat -> nat -> nat -> res D) g : wf t -> same_shape t input -> height input <= width input ->
  (forall x y m s, x < height input -> y < height input -> m < maps input -> s < samples input -> val x y m s = Ok (g x y m s)) ->
  exists t', run_stores t (for_ (samples input) (fun s => lrn_loop input s (fun x y m => [(offset t x y m s, val x y m s)]))) = Ok t' /\
    wf t' /\ same_shape t' t /\
    forall x y m s, valid_pos t x y m s -> at_pos t' x y m s = if x <? height input then Some (g x y m s) else at_pos t x y m s.
Proof.
  intros W (S1 & S2 & S3 & S4) Hle Hval.
  destruct (run_stores_frame t (for_ (samples input) (fun s => lrn_loop input s (fun x y m => [(offset t x y m s, val x y m s)])))
              (fun x y m s => if x <? height input then Some (g x y m s) else None) W) as (t' & E & W' & S' & A).
  - intros a rv Hin. apply in_for in Hin as (s & Hs & Hin). apply in_for in Hin as (m & Hm & Hin). apply in_for in Hin as (y & Hy & Hin).
    apply in_for_one in Hin as (x & Hx & E). injection E as -> ->. exists x, y, m, s, (g x y m s).
    split; [repeat split; lia|]. split; [reflexivity|]. split; [now apply Hval|]. now rewrite (proj2 (Nat.ltb_lt _ _) Hx).
  - intros x y m s v (Hx & Hy & Hm & Hs) Hv. destruct (Nat.ltb_spec x (height input)) as [Hx'|]; [|discriminate]. injection Hv as <-.
    apply in_for. exists s. split; [lia|]. apply in_for. exists m. split; [lia|]. apply in_for. exists y. split; [lia|].
    apply in_for_one. exists x. split; [exact Hx'|]. f_equal. symmetry. apply Hval; lia.
  - exists t'. split; [exact E|]. split; [exact W'|]. split; [exact S'|]. intros x y m s Hv. rewrite (A x y m s Hv). now destruct (x <? height input).
Qed.

Lemma lrn_ff_spec method size (input sums output : tensor D) f : 0 < size ->
  wf input -> wf sums -> wf output -> same_shape sums input -> same_shape output input -> contents input f -> height input <= width input ->
  exists sums' output', lrn_ff K scale power ndiv method size input sums output = Ok (sums', output') /\
    wf sums' /\ same_shape sums' sums /\ wf output' /\ same_shape output' output /\
    (forall x y m s, valid_pos input x y m s -> x < height input ->
       at_pos sums' x y m s = Some (squares K (map (fun p => f (fst (fst p)) (snd (fst p)) (snd p) s)
                                                 (lrn_region method size (width input) (height input) (maps input) x y m))) /\
       at_pos output' x y m s = Some (normalized K scale power ndiv f (lrn_region method size (width input) (height input) (maps input) x y m) x y m s)) /\
    (forall x y m s, valid_pos input x y m s -> height input <= x -> at_pos output' x y m s = at_pos output x y m s).
Proof.
  intros Hsz Wi Ws Wo Ss So Cf Hle.
  destruct (lrn_fill input sums (fun x y m s => lrn_sum K method size input x y m s)
    (fun x y m s => squares K (map (fun p => f (fst (fst p)) (snd (fst p)) (snd p) s) (lrn_region method size (width input) (height input) (maps input) x y m))) Ws Ss Hle)
    as (sums' & E1 & W1 & S1 & A1).
  { intros x y m s Hx Hy Hm Hs. apply lrn_sum_spec; auto. lia. }
  destruct (lrn_fill input output (fun x y m s => r <- lrn_sum K method size input x y m s ;; v <- get input x y m s ;;
      Ok (ndiv v (power (lrn_base K scale (length (lrn_region method size (width input) (height input) (maps input) x y m)) r))))
    (fun x y m s => normalized K scale power ndiv f (lrn_region method size (width input) (height input) (maps input) x y m) x y m s) Wo So Hle)
    as (output' & E2 & W2 & S2 & A2).
  { intros x y m s Hx Hy Hm Hs. rewrite (lrn_sum_spec method size input f) by (auto; lia). cbn [bind].
    rewrite (contents_get _ _ _ _ _ _ Cf) by (repeat split; lia). reflexivity. }
  exists sums', output'. unfold lrn_ff. unfold lrn_sums_sample, lrn_ff_sample. rewrite E1. cbn [bind]. rewrite E2. cbn [bind].
  split; [reflexivity|]. split; [exact W1|]. split; [exact S1|]. split; [exact W2|]. split; [exact S2|]. split.
  - intros x y m s Hv Hx. rewrite A1 by now apply (same_shape_valid _ _ _ _ _ _ Ss). rewrite A2 by now apply (same_shape_valid _ _ _ _ _ _ So).
    rewrite (proj2 (Nat.ltb_lt _ _) Hx). auto.
  - intros x y m s Hv Hx. rewrite A2 by now apply (same_shape_valid _ _ _ _ _ _ So). now rewrite (proj2 (Nat.ltb_ge _ _) Hx).
Qed.

(** ** Images higher than wide *)

Lemma exec_with_not_ok comb (ops : list (nat * res D)) : forall l,
  (forall a rv, In (a, rv) ops -> rv <> Fatal) -> (exists a rv, In (a, rv) ops /\ (length l <= a \/ rv = UB)) -> exec_with comb ops l = UB.
Proof.
  induction ops as [|[a rv] ops IH]; intros l Hf (b & rb & Hin & Hb); [destruct Hin|]. cbn [exec_with].
  destruct rv as [v| |]; cbn [bind]; [|exfalso; apply (Hf a Fatal); [now left|reflexivity]|reflexivity].
  unfold store_with. destruct (nth_error l a) as [o|] eqn:E; cbn [bind]; [|reflexivity].
  assert (Ha : a < length l) by (apply nth_error_Some; congruence). apply IH.
  - intros c rc Hc. apply (Hf c rc). now right.
  - rewrite upd_length. destruct Hin as [[= <- <-]|Hin]; [destruct Hb; [lia|discriminate]|]. eauto.
Qed.

Lemma lrn_sum_not_fatal method size (input : tensor D) x y m s : lrn_sum K method size input x y m s <> Fatal.
Proof.
  unfold lrn_sum. generalize (lrn_region method size (width input) (height input) (maps input) x y m) as l. generalize (n0 K) as acc.
  intros acc l. revert acc. induction l as [|[[ix iy] im] l IH]; intros acc; cbn [foldm]; [discriminate|].
  assert (Hg : get input ix iy im s = UB \/ exists v, get input ix iy im s = Ok v).
  { unfold get, buffer, load. destruct (data input) as [d|]; cbn [bind]; [|now left]. destruct (nth_error d _); [right; eauto|now left]. }
  destruct Hg as [->|(v & ->)]; cbn [bind]; [discriminate|apply IH].
Qed.

Lemma lrn_tall_ub method size (input sums output : tensor D) :
  wf input -> wf sums -> same_shape sums input -> width input < height input -> 0 < maps input -> 0 < samples input ->
  lrn_ff K scale power ndiv method size input sums output = UB.
Proof.
  intros Wi Ws (S1 & S2 & S3 & S4) Hlt Hm Hs. unfold lrn_ff.
  set (ops := for_ (samples input) (lrn_sums_sample K method size input sums)).
  assert (Hin : In (offset sums (height input - 1) (height input - 1) (maps input - 1) (samples input - 1),
                    lrn_sum K method size input (height input - 1) (height input - 1) (maps input - 1) (samples input - 1)) ops).
  { apply in_for. exists (samples input - 1). split; [lia|]. apply in_for. exists (maps input - 1). split; [lia|].
    apply in_for. exists (height input - 1). split; [lia|]. apply in_for_one. exists (height input - 1). split; [lia|reflexivity]. }
  assert (E : run_stores sums ops = UB); [|now rewrite E].
  unfold run_stores. destruct ops as [|o ops'] eqn:Eo; [destruct Hin|]. rewrite <- Eo in *. clear o ops' Eo.
  unfold buffer. destruct (data sums) as [l|] eqn:Ed; cbn [bind]; [|reflexivity].
  unfold exec. rewrite exec_with_not_ok; [reflexivity| |].
  - intros a rv Ha. apply in_for in Ha as (s & _ & Ha). apply in_for in Ha as (m & _ & Ha). apply in_for in Ha as (y & _ & Ha).
    apply in_for_one in Ha as (x & _ & E). injection E as -> ->. apply lrn_sum_not_fatal.
  - eexists. eexists. split; [exact Hin|]. left. destruct (wf_data_dims _ _ Ws Ed) as (Hl & _). rewrite Hl, (proj1 Ws).
    rewrite offset_mix, S1, S2, S3, S4.
    set (W := width input) in *. set (H := height input) in *. set (M := maps input) in *. set (N := samples input) in *. clearbody W H M N.
    replace ((N - 1) * M + (M - 1)) with (N * M - 1) by nia. assert (1 <= N * M) by nia.
    set (P := N * M) in *. clearbody P. replace ((P - 1) * H + (H - 1)) with (P * H - 1) by nia. assert (1 <= P * H) by nia.
    set (Q := P * H) in *. clearbody Q. nia.
Qed.
End Values.

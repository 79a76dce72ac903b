(** Every schedule of a parallel loop with disjoint iterations has the sequential result. *)
From Verif Require Import Base BaseFacts LoopFacts Par_Model.

Lemma flat_map_upd {A B} (f : A -> list B) (l : list A) i t t' : nth_error l i = Some t -> f t' = f t -> flat_map f (upd l i t') = flat_map f l.
Proof.
  revert i. induction l as [|x l IH]; intros [|i] H E; try discriminate; cbn in *.
  - injection H as ->. now rewrite E.
  - now rewrite (IH i H E).
Qed.

Lemma flat_map_only {A B} (f : A -> list B) (l : list A) i t : nth_error l i = Some t ->
  (forall j u, j <> i -> nth_error l j = Some u -> f u = []) -> flat_map f l = f t.
Proof.
  revert i. induction l as [|x l IH]; intros [|i] H E; try discriminate; cbn in *.
  - injection H as ->. rewrite flat_map_nil, app_nil_r; [reflexivity|]. intros u Hu. apply In_nth_error in Hu as [j Hj]. now apply (E (S j)).
  - rewrite (E 0 x) by (auto || lia). cbn. apply (IH i H). intros j u Hne Hj. apply (E (S j) u); [lia|exact Hj].
Qed.

Section ParProofs.
Context {D : Type}.
Variable comb : D -> D -> D.

Definition avals (k a : nat) (acts : list (action D)) : list D := vals_at a (only k acts).

Lemma avals_cons k a k' a' v rest : avals k a ((k', a', Ok v) :: rest) = if (k' =? k) && (a' =? a) then v :: avals k a rest else avals k a rest.
Proof. unfold avals, only. cbn [flat_map]. destruct (k' =? k); cbn; [destruct (a' =? a); reflexivity|reflexivity]. Qed.

Lemma in_only k (acts : list (action D)) a rv : In (a, rv) (only k acts) <-> In (k, a, rv) acts.
Proof.
  unfold only. rewrite in_flat_map. split.
  - intros ([[k' a'] rv'] & Hin & H). destruct (Nat.eqb_spec k' k) as [->|]; [|contradiction]. destruct H as [H|[]]. injection H as -> ->. exact Hin.
  - intros H. exists (k, a, rv). split; [exact H|]. rewrite Nat.eqb_refl. now left.
Qed.

Lemma avals_nil k a acts : (forall rv, ~ In (k, a, rv) acts) -> avals k a acts = [].
Proof. intros H. apply vals_at_none. intros rv Hin. apply in_only in Hin. now apply (H rv). Qed.

Lemma cell_set (mem : list (list D)) k a v k' a' old : cell mem k a = Some old ->
  cell (set_cell mem k a v) k' a' = if (k =? k') && (a =? a') then Some v else cell mem k' a'.
Proof.
  unfold cell, set_cell. destruct (nth_error mem k) as [b|] eqn:E; [|discriminate]. intros H.
  assert (Hk : k < length mem) by (apply nth_error_Some; congruence). assert (Ha : a < length b) by (apply nth_error_Some; congruence).
  destruct (Nat.eqb_spec k k') as [<-|Hne]; cbn [andb].
  - rewrite nth_error_upd_eq by exact Hk. destruct (Nat.eqb_spec a a') as [<-|Hna].
    + now apply nth_error_upd_eq.
    + rewrite nth_error_upd_neq by exact Hna. now rewrite E.
  - now rewrite nth_error_upd_neq by exact Hne.
Qed.
Lemma set_cell_length (mem : list (list D)) k a v : length (set_cell mem k a v) = length mem.
Proof. unfold set_cell. destruct (nth_error mem k); [apply upd_length|reflexivity]. Qed.

Section Loop.
Variables (mem' : list (list D)) (n : nat) (body : nat -> list (action D)).
Hypothesis Hok : forall i k a rv, i < n -> In (k, a, rv) (body i) -> (exists v, rv = Ok v) /\ exists old, cell mem' k a = Some old.
Hypothesis Hdis : forall i j k a rv rv', i < n -> j < n -> i <> j -> In (k, a, rv) (body i) -> In (k, a, rv') (body j) -> False.

Record inv (mem : list (list D)) (ts : list (thread D)) : Prop := {
  inv_n : length ts = n;
  inv_len : length mem = length mem';
  inv_suffix : forall i t, nth_error ts i = Some t -> exists pre, body i = pre ++ fst t;
  inv_cells : forall k a, option_map (fun old => fold_left comb (flat_map (fun t => avals k a (fst t)) ts) old) (cell mem k a) = cell mem' k a;
  inv_pending : forall i acts old, nth_error ts i = Some (acts, Some old) ->
    match acts with (k, a, _) :: _ => cell mem k a = Some old | [] => False end
}.

Lemma inv_in mem ts i t k a rv : inv mem ts -> nth_error ts i = Some t -> In (k, a, rv) (fst t) -> i < n /\ In (k, a, rv) (body i).
Proof.
  intros I Hi Hin. split; [rewrite <- (inv_n _ _ I); apply nth_error_Some; congruence|].
  destruct (inv_suffix _ _ I i t Hi) as [pre ->]. apply in_or_app. now right.
Qed.

Lemma inv_others mem ts i t k a rv : inv mem ts -> nth_error ts i = Some t -> In (k, a, rv) (fst t) ->
  forall j u, j <> i -> nth_error ts j = Some u -> forall rv', ~ In (k, a, rv') (fst u).
Proof.
  intros I Hi Hin j u Hne Hj rv' Hin'. destruct (inv_in _ _ _ _ _ _ _ I Hi Hin) as [H1 H2]. destruct (inv_in _ _ _ _ _ _ _ I Hj Hin') as [H3 H4].
  exact (Hdis i j k a rv rv' H1 H3 (not_eq_sym Hne) H2 H4).
Qed.

Lemma inv_step mem ts st : inv mem ts -> step comb (Running mem ts) st -> exists m2 ts2, st = Running m2 ts2 /\ inv m2 ts2.
Proof.
  intros I Hs. inversion Hs as [i k a v rest old m0 ts0 Hi Hc|i k a v rest old m0 ts0 Hi|i k a rv rest m0 ts0 Hi Hf]; subst;
    assert (Hlt : i < length ts) by (apply nth_error_Some; intros X; pose proof (eq_trans (eq_sym Hi) X); discriminate).
  - do 2 eexists. split; [reflexivity|]. constructor.
    + rewrite upd_length. apply I.
    + apply I.
    + intros j t Hj. destruct (Nat.eq_dec i j) as [<-|Hne].
      * rewrite nth_error_upd_eq in Hj by exact Hlt. injection Hj as <-. exact (inv_suffix _ _ I i _ Hi).
      * rewrite nth_error_upd_neq in Hj by exact Hne. exact (inv_suffix _ _ I j t Hj).
    + intros k' a'. rewrite (flat_map_upd _ ts i ((k, a, Ok v) :: rest, None)); [apply I|exact Hi|reflexivity].
    + intros j acts o Hj. destruct (Nat.eq_dec i j) as [<-|Hne].
      * rewrite nth_error_upd_eq in Hj by exact Hlt. injection Hj as <- <-. exact Hc.
      * rewrite nth_error_upd_neq in Hj by exact Hne. exact (inv_pending _ _ I j _ _ Hj).
  - pose proof (inv_pending _ _ I i _ _ Hi) as Hc. cbn in Hc.
    pose proof (inv_others _ _ i _ k a (Ok v) I Hi (or_introl eq_refl)) as Hoth.
    do 2 eexists. split; [reflexivity|]. constructor.
    + rewrite upd_length. apply I.
    + rewrite set_cell_length. apply I.
    + intros j t Hj. destruct (Nat.eq_dec i j) as [<-|Hne].
      * rewrite nth_error_upd_eq in Hj by exact Hlt. injection Hj as <-.
        destruct (inv_suffix _ _ I i _ Hi) as [pre E]. cbn in E. exists (pre ++ [(k, a, Ok v)]). rewrite <- app_assoc. exact E.
      * rewrite nth_error_upd_neq in Hj by exact Hne. exact (inv_suffix _ _ I j t Hj).
    + intros k' a'. rewrite (cell_set _ _ _ _ _ _ _ Hc). destruct ((k =? k') && (a =? a')) eqn:E.
      * apply andb_true_iff in E as [E1 E2]. apply Nat.eqb_eq in E1, E2. subst k' a'. pose proof (inv_cells _ _ I k a) as Hk. rewrite Hc in Hk. cbn in Hk |- *.
        rewrite <- Hk. f_equal.
        rewrite (flat_map_only (fun t => avals k a (fst t)) ts i _ Hi).
        2:{ intros j u Hne Hj. apply avals_nil. exact (Hoth j u Hne Hj). }
        rewrite (flat_map_only (fun t => avals k a (fst t)) (upd ts i (rest, None)) i (rest, None)).
        2:{ apply nth_error_upd_eq. exact Hlt. }
        2:{ intros j u Hne Hj. rewrite nth_error_upd_neq in Hj by congruence. apply avals_nil. exact (Hoth j u Hne Hj). }
        cbn [fst]. rewrite avals_cons, !Nat.eqb_refl. reflexivity.
      * rewrite (flat_map_upd _ ts i ((k, a, Ok v) :: rest, Some old)); [apply I|exact Hi|]. cbn [fst]. rewrite avals_cons, E. reflexivity.
    + intros j acts o Hj. destruct (Nat.eq_dec i j) as [<-|Hne].
      * rewrite nth_error_upd_eq in Hj by exact Hlt. discriminate.
      * rewrite nth_error_upd_neq in Hj by exact Hne. pose proof (inv_pending _ _ I j _ _ Hj) as Hp. destruct acts as [|[[k2 a2] rv2] acts]; [exact Hp|].
        rewrite (cell_set _ _ _ _ _ _ _ Hc). destruct ((k =? k2) && (a =? a2)) eqn:E; [|exact Hp].
        apply andb_true_iff in E as [E1 E2]. apply Nat.eqb_eq in E1, E2. subst k2 a2. exfalso.
        apply (Hoth j _ (not_eq_sym Hne) Hj rv2). now left.
  - exfalso. destruct (inv_in _ _ i _ k a rv I Hi (or_introl eq_refl)) as [Hn Hin]. destruct (Hok i k a rv Hn Hin) as [(v & ->) (old & Ho)].
    destruct Hf as [Hf|Hf]; [now apply (Hf v)|]. pose proof (inv_cells _ _ I k a) as Hk. rewrite Hf, Ho in Hk. discriminate.
Qed.

Lemma inv_good mem ts : inv mem ts -> ~ race ts /\ (done ts \/ exists st', step comb (Running mem ts) st') /\ (done ts -> mem = mem').
Proof.
  intros I. split; [|split].
  - intros (i & j & ti & tj & [k a] & Hne & Hi & Hj & Li & Lj). unfold next_loc in Li, Lj.
    destruct (fst ti) as [|[[k1 a1] rv1] r1] eqn:Ei; [discriminate|]. destruct (fst tj) as [|[[k2 a2] rv2] r2] eqn:Ej; [discriminate|].
    injection Li as -> ->. injection Lj as -> ->.
    refine (inv_others _ _ i ti k a rv1 I Hi _ j tj (not_eq_sym Hne) Hj rv2 _); [rewrite Ei|rewrite Ej]; now left.
  - destruct (Exists_dec (fun t : thread D => fst t <> []) ts) as [H|H].
    { intros t. destruct (fst t); [right; auto|left; discriminate]. }
    + right. apply Exists_exists in H as (t & Hin & Hne). apply In_nth_error in Hin as [i Hi].
      destruct t as [[|[[k a] rv] rest] p]; [contradiction|].
      destruct (inv_in _ _ i _ k a rv I Hi (or_introl eq_refl)) as [Hn Hin]. destruct (Hok i k a rv Hn Hin) as [(v & ->) (o & Ho)].
      destruct p as [old|].
      * eexists. eapply step_write. exact Hi.
      * destruct (cell mem k a) as [old|] eqn:Hc.
        -- eexists. eapply step_read; eauto.
        -- eexists. eapply step_fault; eauto.
    + left. intros t Hin. rewrite <- Forall_Exists_neg, Forall_forall in H. specialize (H t Hin). destruct t as [acts p]. cbn in H.
      destruct acts; [|exfalso; apply H; discriminate]. destruct p as [old|]; [|reflexivity].
      apply In_nth_error in Hin as [i Hi]. pose proof (inv_pending _ _ I i _ _ Hi). contradiction.
  - intros Hd. assert (Hc : forall k a, cell mem k a = cell mem' k a).
    { intros k a. rewrite <- (inv_cells _ _ I k a). rewrite flat_map_nil; [now destruct (cell mem k a)|]. intros t Ht. rewrite (Hd t Ht). reflexivity. }
    apply list_ext. intros k. specialize (Hc k). unfold cell in Hc. pose proof (inv_len _ _ I) as Hl.
    destruct (nth_error mem k) as [b|] eqn:E1, (nth_error mem' k) as [b'|] eqn:E2; auto.
    + f_equal. apply list_ext. exact Hc.
    + exfalso. apply nth_error_None in E2. assert (k < length mem) by (apply nth_error_Some; congruence). lia.
    + exfalso. apply nth_error_None in E1. assert (k < length mem') by (apply nth_error_Some; congruence). lia.
Qed.

Lemma inv_always mem st : inv mem (map (fun i => (body i, None)) (seq 0 n)) -> steps comb (start mem n body) st -> exists m ts, st = Running m ts /\ inv m ts.
Proof.
  intros I Hs. remember (start mem n body) as st0 eqn:E. induction Hs as [st|s1 s2 s3 H12 IH H23]; subst.
  - do 2 eexists. split; [reflexivity|exact I].
  - destruct (IH eq_refl) as (m & ts & -> & I2). exact (inv_step m ts s3 I2 H23).
Qed.
End Loop.

(** Main theorem: the sequential loop's stores to each buffer succeed, and different
    iterations write to different elements. *)
Lemma parallel_loop (mem mem' : list (list D)) n body :
  length mem = length mem' ->
  (forall i k a rv, i < n -> In (k, a, rv) (body i) -> k < length mem) ->
  (forall k b, nth_error mem k = Some b -> exists b', nth_error mem' k = Some b' /\ exec_with comb (for_ n (fun i => only k (body i))) b = Ok b') ->
  (forall i j k a v v', i < n -> j < n -> i <> j -> In (k, a, Ok v) (body i) -> In (k, a, Ok v') (body j) -> False) ->
  always_ends_in comb mem n body mem'.
Proof.
  intros Hlen Hk Hseq Hdis0 st Hs.
  assert (Hok : forall i k a rv, i < n -> In (k, a, rv) (body i) -> (exists v, rv = Ok v) /\ exists old, cell mem' k a = Some old).
  { intros i k a rv Hi Hin. destruct (nth_error_lt mem (Hk i k a rv Hi Hin)) as [b Hb]. destruct (Hseq k b Hb) as (b' & Hb' & E).
    destruct (exec_with_ok_inv E a rv) as [Ha Hv]; [apply in_for; exists i; split; [exact Hi|now apply in_only]|]. split; [exact Hv|].
    unfold cell. rewrite Hb'. rewrite <- (exec_with_length E) in Ha. destruct (nth_error_lt b' Ha) as [v Hv']. eauto. }
  assert (Hdis : forall i j k a rv rv', i < n -> j < n -> i <> j -> In (k, a, rv) (body i) -> In (k, a, rv') (body j) -> False).
  { intros i j k a rv rv' Hi Hj Hne H1 H2. destruct (Hok i k a rv Hi H1) as [(v & ->) _]. destruct (Hok j k a rv' Hj H2) as [(v' & ->) _]. eauto. }
  assert (I : inv mem' n body mem (map (fun i => (body i, None)) (seq 0 n))).
  { constructor.
    - now rewrite map_length, seq_length.
    - exact Hlen.
    - intros i t Hi. exists []. cbn. rewrite nth_error_map in Hi. destruct (nth_error (seq 0 n) i) eqn:E; [|discriminate]. cbn in Hi. injection Hi as <-.
      assert (i < n) by (rewrite <- (seq_length n 0); apply nth_error_Some; congruence).
      apply nth_error_nth with (d := 0) in E. rewrite seq_nth in E by assumption. now subst.
    - intros k a. unfold cell. destruct (nth_error mem k) as [b|] eqn:Hb.
      + destruct (Hseq k b Hb) as (b' & Hb' & E). rewrite Hb', (exec_with_nth E a). f_equal. clear.
        rewrite vals_at_for. unfold for_, avals. induction (seq 0 n) as [|i l IH]; [reflexivity|]. cbn [map flat_map fst]. 
        assert (X : forall (f g : D -> D), f = g -> f = g) by auto. rewrite !flat_map_concat_map in *. rewrite map_map in *. cbn [fst] in *. reflexivity.
      + cbn. apply nth_error_None in Hb. symmetry. destruct (nth_error mem' k) eqn:E; [|reflexivity].
        assert (k < length mem') by (apply nth_error_Some; congruence). lia.
    - intros i acts old Hi. rewrite nth_error_map in Hi. destruct (nth_error (seq 0 n) i); discriminate. }
  destruct (inv_always mem' n body Hok Hdis mem st I Hs) as (m & ts & -> & I2). exists m, ts. split; [reflexivity|].
  exact (inv_good mem' n body Hok Hdis m ts I2).
Qed.

(** No execution goes on for ever. *)
Lemma step_work st st' : step comb st st' -> work st' < work st.
Proof.
  assert (U : forall (ts : list (thread D)) i t t', nth_error ts i = Some t -> list_sum (map thread_work (upd ts i t')) + thread_work t = list_sum (map thread_work ts) + thread_work t').
  { induction ts as [|x ts IH]; intros [|i] t t' H; try discriminate; cbn [upd map list_sum fold_right] in *.
    - injection H as ->. cbn. unfold list_sum. lia.
    - specialize (IH i t t' H). unfold list_sum in *. lia. }
  intros Hs. inversion Hs as [i k a v rest old m0 ts0 Hi Hc|i k a v rest old m0 ts0 Hi|i k a rv rest m0 ts0 Hi Hf]; subst; cbn [work].
  - specialize (U ts0 i _ ((k, a, Ok v) :: rest, Some old) Hi). cbn [thread_work fst snd length] in U. lia.
  - specialize (U ts0 i _ (rest, None) Hi). cbn [thread_work fst snd length] in U. lia.
  - lia.
Qed.

(** One buffer. *)
Lemma only_on k k' (ops : list (nat * res D)) : only k' (on k ops) = if k =? k' then ops else [].
Proof.
  unfold only, on. rewrite flat_map_concat_map, map_map. rewrite <- flat_map_concat_map. destruct (k =? k').
  - induction ops as [|[a rv] ops IH]; [reflexivity|]. cbn. f_equal. exact IH.
  - apply flat_map_nil. reflexivity.
Qed.
Lemma in_on k (ops : list (nat * res D)) k' a rv : In (k', a, rv) (on k ops) <-> k' = k /\ In (a, rv) ops.
Proof.
  unfold on. rewrite in_map_iff. split.
  - intros ([a' rv'] & E & H). injection E as <- <- <-. auto.
  - intros [-> H]. exists (a, rv). auto.
Qed.
Lemma only_app k (a b : list (action D)) : only k (a ++ b) = only k a ++ only k b.
Proof. apply flat_map_app. Qed.

Definition disjoint (n : nat) (ops : nat -> list (nat * res D)) : Prop :=
  forall i j a v v', i < n -> j < n -> i <> j -> In (a, Ok v) (ops i) -> In (a, Ok v') (ops j) -> False.

Lemma parallel_one (b b' : list D) n ops : exec_with comb (for_ n ops) b = Ok b' -> disjoint n ops ->
  always_ends_in comb [b] n (fun i => on 0 (ops i)) [b'].
Proof.
  intros E Hd. apply parallel_loop; [reflexivity| | |].
  - intros i k a rv _ Hin. apply in_on in Hin as [-> _]. cbn. lia.
  - intros [|k] b0 Hb; [|now destruct k]. injection Hb as <-. exists b'. split; [reflexivity|].
    rewrite <- E. f_equal. apply for_ext. intros i _. now rewrite only_on.
  - intros i j k a rv rv' Hi Hj Hne H1 H2. apply in_on in H1 as [_ H1], H2 as [_ H2]. eauto.
Qed.
End ParProofs.

(** ** Tensors *)
From Verif Require Import Tensor_Model Tensor_Spec Tensor_Proofs Num Math_Model.

Section ParTensor.
Context {D : Type}.

Lemma run_with_buf comb (t t' : tensor D) ops : run_with comb t ops = Ok t' -> exec_with comb ops (buf t) = Ok (buf t').
Proof.
  unfold run_with, buf, buffer. destruct ops as [|op ops]; [intros [= ->]; reflexivity|].
  destruct (data t) as [l|]; [|discriminate]. cbn [bind]. destruct (exec_with comb (op :: ops) l) as [l'| |]; [|discriminate|discriminate].
  cbn [bind]. intros [= <-]. reflexivity.
Qed.
Lemma run_stores_buf (t t' : tensor D) ops : run_stores t ops = Ok t' -> exec_with overwrite ops (buf t) = Ok (buf t').
Proof. exact (run_with_buf overwrite t t' ops). Qed.

Lemma parallel_run comb (t t' : tensor D) n ops : run_with comb t (for_ n ops) = Ok t' -> disjoint n ops ->
  always_ends_in comb [buf t] n (fun i => on 0 (ops i)) [buf t'].
Proof. intros E Hd. apply parallel_one; [now apply run_with_buf|exact Hd]. Qed.
Lemma parallel_stores (t t' : tensor D) n ops : run_stores t (for_ n ops) = Ok t' -> disjoint n ops ->
  always_ends_in overwrite [buf t] n (fun i => on 0 (ops i)) [buf t'].
Proof. exact (parallel_run overwrite t t' n ops). Qed.

(** Iterations that stay inside their own sample. *)
Definition in_sample (t : tensor D) (s a : nat) : Prop := exists x y m, valid_pos t x y m s /\ a = offset t x y m s.
Lemma in_sample_inj t s s' a : in_sample t s a -> in_sample t s' a -> s = s'.
Proof.
  intros (x & y & m & V & ->) (x' & y' & m' & V' & E). apply offset_inj in E; auto. tauto.
Qed.
Lemma sample_disjoint t n (ops : nat -> list (nat * res D)) :
  (forall s a v, s < n -> In (a, Ok v) (ops s) -> in_sample t s a) -> disjoint n ops.
Proof. intros H i j a v v' Hi Hj Hne H1 H2. apply Hne. apply (in_sample_inj t i j a); eauto. Qed.

(** Two and three buffers. *)
Lemma parallel_two (b0 b1 b0' b1' : list D) comb n acts :
  (forall i k a rv, i < n -> In (k, a, rv) (acts i) -> k < 2) ->
  exec_with comb (for_ n (fun i => only 0 (acts i))) b0 = Ok b0' -> exec_with comb (for_ n (fun i => only 1 (acts i))) b1 = Ok b1' ->
  disjoint n (fun i => only 0 (acts i)) -> disjoint n (fun i => only 1 (acts i)) ->
  always_ends_in comb [b0; b1] n acts [b0'; b1'].
Proof.
  intros Hk E0 E1 D0 D1. apply parallel_loop; [reflexivity|exact Hk| |].
  - intros [|[|k]] b Hb; cbn in Hb; [injection Hb as <-; eexists; split; [reflexivity|exact E0]|injection Hb as <-; eexists; split; [reflexivity|exact E1]|destruct k; discriminate].
  - intros i j k a v v' Hi Hj Hne H1 H2. destruct k as [|[|k]].
    + apply (D0 i j a v v'); auto; now apply in_only.
    + apply (D1 i j a v v'); auto; now apply in_only.
    + specialize (Hk i (S (S k)) a (Ok v) Hi H1). lia.
Qed.
Lemma parallel_three (b0 b1 b2 b0' b1' b2' : list D) comb n acts :
  (forall i k a rv, i < n -> In (k, a, rv) (acts i) -> k < 3) ->
  exec_with comb (for_ n (fun i => only 0 (acts i))) b0 = Ok b0' -> exec_with comb (for_ n (fun i => only 1 (acts i))) b1 = Ok b1' ->
  exec_with comb (for_ n (fun i => only 2 (acts i))) b2 = Ok b2' ->
  disjoint n (fun i => only 0 (acts i)) -> disjoint n (fun i => only 1 (acts i)) -> disjoint n (fun i => only 2 (acts i)) ->
  always_ends_in comb [b0; b1; b2] n acts [b0'; b1'; b2'].
Proof.
  intros Hk E0 E1 E2 D0 D1 D2. apply parallel_loop; [reflexivity|exact Hk| |].
  - intros [|[|[|k]]] b Hb; cbn in Hb; [injection Hb as <-; eexists; split; [reflexivity|exact E0]|injection Hb as <-; eexists; split; [reflexivity|exact E1]
      |injection Hb as <-; eexists; split; [reflexivity|exact E2]|destruct k; discriminate].
  - intros i j k a v v' Hi Hj Hne H1 H2. destruct k as [|[|[|k]]].
    + apply (D0 i j a v v'); auto; now apply in_only.
    + apply (D1 i j a v v'); auto; now apply in_only.
    + apply (D2 i j a v v'); auto; now apply in_only.
    + specialize (Hk i (S (S (S k))) a (Ok v) Hi H1). lia.
Qed.

Lemma only_for k n (f : nat -> list (action D)) : only k (for_ n f) = for_ n (fun i => only k (f i)).
Proof.
  unfold for_. induction (seq 0 n) as [|i l IH]; [reflexivity|]. cbn [flat_map]. now rewrite only_app, IH.
Qed.
Lemma for_empty {A} n : for_ n (fun _ => @nil A) = [].
Proof. now apply for_nil. Qed.
End ParTensor.

(** ** CopyMap as stores *)
From Verif Require Import Math_Spec Math_Proofs Layers_Model Layers_Proofs.

Section ParCopy.
Context {D : Type}.
Variable K : num D.

(** What CopyMap stores if the images have the same size (the last case of [copy_map]). *)
Definition copy_stores (target : tensor D) (c : copy_call (D := D)) : list (nat * res D) :=
  let '(source, ss, sm, ts, tm) := c in
  for_ (width source * height source) (fun i =>
    [(offset target 0 0 tm ts + i, l <- buffer source ;; load l (offset source 0 0 sm ss + i))]).
Definition copy_fits (target : tensor D) (c : copy_call (D := D)) : Prop :=
  let '(source, ss, sm, ts, tm) := c in
  ss < samples source /\ sm < maps source /\ ts < samples target /\ tm < maps target /\ width source = width target /\ height source = height target.

Lemma run_stores_shape (t t' : tensor D) ops : run_stores t ops = Ok t' -> same_shape t' t.
Proof.
  unfold run_stores. destruct ops as [|op ops]; [intros [= ->]; apply same_shape_refl|].
  destruct (buffer t) as [l| |]; [|discriminate|discriminate]. cbn [bind]. destruct (exec _ l) as [l'| |]; [|discriminate|discriminate].
  intros [= <-]. repeat split.
Qed.

Lemma run_stores_app (t : tensor D) o1 o2 : run_stores t (o1 ++ o2) = (t1 <- run_stores t o1 ;; run_stores t1 o2).
Proof.
  destruct o1 as [|op o1]; [reflexivity|]. unfold run_stores at 1 2. cbn [app]. destruct (buffer t) as [l| |]; [|reflexivity|reflexivity]. cbn [bind].
  change (op :: o1 ++ o2) with ((op :: o1) ++ o2). unfold exec. rewrite exec_with_app. destruct (exec_with overwrite (op :: o1) l) as [l'| |]; [|reflexivity|reflexivity].
  cbn [bind]. destruct o2 as [|op2 o2]; [reflexivity|]. unfold run_stores. cbn [buffer with_data data bind]. reflexivity.
Qed.

Lemma copy_map_stores (t0 target : tensor D) c : same_shape target t0 -> copy_fits t0 c ->
  (let '(source, ss, sm, ts, tm) := c in r <- copy_map (n0 K) source ss sm target ts tm ;; Ok (fst r)) = run_stores target (copy_stores t0 c).
Proof.
  destruct c as [[[[source ss] sm] ts] tm]. intros S (H1 & H2 & H3 & H4 & H5 & H6). pose proof S as (S1 & S2 & S3 & S4). unfold copy_map, copy_stores.
  rewrite (proj2 (Nat.leb_gt _ _) H1), S1, (proj2 (Nat.leb_gt _ _) H3), S2, S3, H5, H6, !Nat.eqb_refl. cbn [orb negb].
  rewrite (same_shape_offset _ _ 0 0 tm ts S). destruct (run_stores target _); reflexivity.
Qed.

Lemma copy_maps_stores (t0 : tensor D) calls : forall target, same_shape target t0 -> (forall c, In c calls -> copy_fits t0 c) ->
  copy_maps K calls target = run_stores target (flat_map (copy_stores t0) calls).
Proof.
  induction calls as [|c calls IH]; intros target S H; [reflexivity|]. unfold copy_maps. cbn [foldm flat_map].
  rewrite (copy_map_stores t0 target c S) by (apply H; now left). rewrite run_stores_app.
  destruct (run_stores target (copy_stores t0 c)) as [t1| |] eqn:E; [|reflexivity|reflexivity]. cbn [bind].
  apply (IH t1); [|intros; apply H; now right]. eapply same_shape_trans; [eapply run_stores_shape, E|exact S].
Qed.

Lemma copy_stores_sample (t : tensor D) c a rv : copy_fits t c -> In (a, rv) (copy_stores t c) ->
  let '(_, _, _, ts, _) := c in in_sample t ts a.
Proof.
  destruct c as [[[[source ss] sm] ts] tm]. intros (H1 & H2 & H3 & H4 & H5 & H6) Hin. unfold copy_stores in Hin.
  apply in_for_one in Hin as (i & Hi & E). injection E as -> _. rewrite H5, H6 in Hi.
  rewrite Nat.mul_comm in Hi. destruct (mix_surj i (height t) (width t) Hi) as (y & x & Hy & Hx & ->).
  exists x, y, tm. split; [repeat split; auto|]. rewrite !offset_mix. ring.
Qed.

Lemma flat_map_for {A B} (f : A -> list B) n (g : nat -> list A) : flat_map f (for_ n g) = for_ n (fun i => flat_map f (g i)).
Proof. unfold for_. induction (seq 0 n) as [|i l IH]; [reflexivity|]. cbn [flat_map]. now rewrite flat_map_app, IH. Qed.

(** A parallel loop of calls of CopyMap, one sample per iteration. *)
Lemma parallel_copies (target target' : tensor D) n calls : copy_maps K (for_ n calls) target = Ok target' ->
  (forall s c, s < n -> In c (calls s) -> copy_fits target c /\ let '(_, _, _, ts, _) := c in ts = s) ->
  always_ends_in overwrite [buf target] n (fun s => on 0 (flat_map (copy_stores target) (calls s))) [buf target'].
Proof.
  intros E H. rewrite (copy_maps_stores target) in E; [|apply same_shape_refl|intros c Hc; apply in_for in Hc as (s & Hs & Hc); exact (proj1 (H s c Hs Hc))].
  rewrite flat_map_for in E. apply parallel_stores; [exact E|]. apply (sample_disjoint target).
  intros s a v Hs Hin. apply in_flat_map in Hin as (c & Hc & Hin). destruct (H s c Hs Hc) as [Hf Ht].
  pose proof (copy_stores_sample target c a (Ok v) Hf Hin) as Hsam. destruct c as [[[[source ss] sm] ts] tm]. now subst ts.
Qed.
End ParCopy.

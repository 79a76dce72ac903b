(** C27 C28 C29: the dataset input layer. *)
From Coq Require Import Permutation.
From Verif Require Import Base BaseFacts Tensor_Model Tensor_Spec Tensor_Proofs DatasetInput_Model DatasetInput_Spec DatasetInput_Proofs.

(** ** C27 *)

(** For every shuffle, dataset and history of calls, the training samples requested from
    the dataset so far split, from the start, into groups of [n]: every complete group is a
    permutation of 0..n-1, the incomplete one has no repetition. *)
Theorem C27_passes {D G} zero gtb (shuffle : G -> list nat -> list nat * G) uniform training_sample testing_sample
    is_fcn b n n_test p seed cs (o : outputs D) l' o' ds :
  (forall g l, Permutation l (fst (shuffle g l))) ->
  history zero gtb shuffle uniform training_sample testing_sample cs (new_layer shuffle is_fcn b n n_test p seed, o, []) = Ok (l', o', ds) ->
  (forall k, S k * n <= length (training_draws ds) -> Permutation (seq 0 n) (group n k (training_draws ds))) /\
  (forall k, NoDup (group n k (training_draws ds))) /\
  (forall e, In e (training_draws ds) -> e < n).
Proof.
  intros Hs H. eapply history_passes with (n := n) in H; [|exact Hs|now apply new_passes]. now apply passes_groups in H.
Qed.
Print Assumptions C27_passes.

(** With a dataset that can provide its samples, every history of calls succeeds, fills
    the batch slots in order in every call, and the outputs are what loading the requested
    samples one after the other gives. *)
Theorem C27_outputs {D G} zero gtb (shuffle : G -> list nat -> list nat * G) uniform training_sample testing_sample
    is_fcn b n n_test p seed cs (o : outputs D) :
  (forall g l, Permutation l (fst (shuffle g l))) ->
  0 < n -> (In (SetTesting true) cs -> 0 < n_test) ->
  shaped_like o o -> b <= samples (o_weight o) ->
  provides training_sample o b n -> provides testing_sample o b n_test ->
  exists l' o' ds,
    history zero gtb shuffle uniform training_sample testing_sample cs (new_layer shuffle is_fcn b n n_test p seed, o, []) = Ok (l', o', ds) /\
    map d_slot ds = concat (repeat (seq 0 b) (feeds cs)) /\ loads zero training_sample testing_sample is_fcn o ds o'.
Proof.
  intros Hs Hn Ht Ho Hb H1 H2.
  assert (Hf : fcn (new_layer shuffle is_fcn b n n_test p seed) = is_fcn) by (unfold new_layer; destruct (shuffle _ _); reflexivity).
  destruct (history_live D zero gtb G shuffle uniform training_sample testing_sample Hs o b n_test n Hb H1 H2 cs
             (new_layer shuffle is_fcn b n n_test p seed) o []) as (l' & o' & ds & E & _ & _ & L & M); auto.
  - pose proof (Hs seed (seq 0 n)) as Hp. unfold new_layer. destruct (shuffle seed (seq 0 n)) as [p0 g]. cbn [fst] in Hp.
    cbn [live batch_size elements_testing perm current_element testing]. repeat (split; auto). discriminate.
  - rewrite Hf in L. eauto 10.
Qed.
Print Assumptions C27_outputs.

(** ** C28 *)

(** From any state in training mode: after switching to testing, as long as training mode
    is not chosen again, the j-th requested sample goes to slot j mod b, is test sample j
    while there are any, and afterwards a filler (sample 0 with its weights removed).  The
    state of training does not change. *)
Theorem C28_test_run {D G} zero gtb (shuffle : G -> list nat -> list nat * G) uniform training_sample testing_sample
    cs (l l' : layer D G) (o o' : outputs D) ds :
  testing l = false -> ~ In (SetTesting false) cs ->
  history zero gtb shuffle uniform training_sample testing_sample (SetTesting true :: cs) (l, o, []) = Ok (l', o', ds) ->
  ds = map (fun j => mkDraw (j mod batch_size l) true (if j <? elements_testing l then j else 0) (elements_testing l <=? j))
           (seq 0 (feeds cs * batch_size l)) /\
  perm l' = perm l /\ current_element l' = current_element l /\ generator l' = generator l.
Proof.
  intros Ht Hc H. cbn [history foldm perform bind] in H. unfold history in H. cbn [foldm perform bind] in H.
  apply (test_run D zero gtb G shuffle uniform training_sample testing_sample cs _ _ _ _ _ _ 0 (batch_size l)) in H as (_ & _ & P & C & Gn & ->); auto.
  - intros c Hin ->. auto.
  - cbn [set_testing_mode current_element_testing]. rewrite Ht. reflexivity.
Qed.
Print Assumptions C28_test_run.

(** So the samples that count are 0, 1, 2, ... each once. *)
Theorem C28_each_once {D G} zero gtb (shuffle : G -> list nat -> list nat * G) uniform training_sample testing_sample
    cs (l l' : layer D G) (o o' : outputs D) ds :
  testing l = false -> ~ In (SetTesting false) cs ->
  history zero gtb shuffle uniform training_sample testing_sample (SetTesting true :: cs) (l, o, []) = Ok (l', o', ds) ->
  map d_element (filter (fun d => negb (d_no_weight d)) ds) = seq 0 (Nat.min (elements_testing l) (feeds cs * batch_size l)).
Proof.
  intros Ht Hc H. apply C28_test_run in H as (-> & _); auto. set (nt := elements_testing l). set (b := batch_size l).
  assert (forall k, map d_element (filter (fun d => negb (d_no_weight d))
            (map (fun j => mkDraw (j mod b) true (if j <? nt then j else 0) (nt <=? j)) (seq 0 k))) = seq 0 (Nat.min nt k)) as E; [|apply E].
  induction k as [|k IH]; [now rewrite Nat.min_0_r|].
  rewrite seq_S, map_app, filter_app, map_app, IH. cbn [map filter d_no_weight Nat.add].
  destruct (Nat.leb_spec nt k) as [L|L]; cbn [negb].
  - cbn [map]. rewrite app_nil_r. f_equal. lia.
  - cbn [map d_element]. replace (k <? nt) with true by (symmetry; apply Nat.ltb_lt; lia).
    replace (Nat.min nt (S k)) with (S (Nat.min nt k)) by lia. rewrite seq_S. do 3 f_equal. lia.
Qed.
Print Assumptions C28_each_once.

(** After a call in testing mode, a slot that got a filler has zero weights everywhere,
    and the slots got the draws' samples. *)
Theorem C28_filler_weights {D G} zero gtb (shuffle : G -> list nat -> list nat * G) uniform training_sample testing_sample
    (l l' : layer D G) (o o0 o' : outputs D) ds ds' j :
  (forall g x, Permutation x (fst (shuffle g x))) ->
  shaped_like o0 o -> batch_size l <= samples (o_weight o0) ->
  provides testing_sample o0 (batch_size l) (elements_testing l) ->
  weight_local training_sample o0 -> weight_local testing_sample o0 ->
  testing l = true -> 0 < elements_testing l -> current_element_testing l = Nat.min (j * batch_size l) (elements_testing l) ->
  feed_forward zero gtb shuffle uniform training_sample testing_sample (l, o, ds) = Ok (l', o', ds') ->
  shaped_like o0 o' /\
  forall slot x y m, slot < batch_size l -> elements_testing l <= j * batch_size l + slot -> valid_pos (o_weight o0) x y m slot ->
    at_pos (o_weight o') x y m slot = Some zero.
Proof.
  intros Hs Ho Hb Hp L1 L2 Ht Hn Hj H.
  pose proof H as H0. apply (test_batch D zero gtb G shuffle uniform training_sample testing_sample _ _ _ _ _ _ j (batch_size l)) in H0
    as (T & F & P & C & Gn & J & Ed); auto.
  (* training samples are not requested: the layer with one training sample behaves the same *)
  assert (exists new, ds' = ds ++ new /\ loads zero training_sample testing_sample (fcn l) o new o') as (new & En & HL).
  { clear - H Ht Ho Hb Hp Hn. unfold feed_forward in H. revert H.
    assert (Hsl : forall s, In s (seq 0 (batch_size l)) -> s < batch_size l) by (intros s Hin%in_seq; lia).
    revert Hsl. generalize (seq 0 (batch_size l)) as slots. intros slots Hsl.
    remember (batch_size l) as b eqn:Eb. remember (elements_testing l) as nt eqn:En. remember (fcn l) as f eqn:Ef.
    revert l o ds Ht Ho Eb En Ef Hsl. induction slots as [|s slots IH]; intros l o ds Ht Ho Eb En Ef Hsl H; cbn [foldm] in H.
    - inversion H; subst. exists []. rewrite app_nil_r. split; [reflexivity|constructor].
    - destruct (feed_slot zero gtb shuffle uniform training_sample testing_sample (l, o, ds) s) as [[[l1 o1] ds1]| |] eqn:E; cbn [bind] in H; try discriminate.
      assert (exists d, ds1 = ds ++ [d] /\ loads zero training_sample testing_sample f o [d] o1 /\ shaped_like o0 o1 /\
               testing l1 = true /\ batch_size l1 = b /\ elements_testing l1 = nt /\ fcn l1 = f) as (d & -> & HL & Ho1 & T1 & B1 & N1 & F1).
      { unfold feed_slot in E.
        assert (exists l2 e fl, select shuffle l = Ok (l2, e, fl) /\ testing l2 = true /\ batch_size l2 = b /\ elements_testing l2 = nt /\ fcn l2 = f /\ e < nt)
          as (l2 & e & fl & Es & T2 & B2 & N2 & F2 & He).
        { unfold select. rewrite Ht. destruct (Nat.leb_spec (elements_testing l) (current_element_testing l)).
          - exists l, 0, true. repeat split; auto; lia.
          - eexists _, _, _. split; [reflexivity|]. cbn [testing batch_size elements_testing fcn]. repeat split; auto; lia. }
        rewrite Es in E. cbn [bind] in E. rewrite T2 in E.
        destruct (Hp o s e Ho) as (o2 & E2 & Ho2); [apply Hsl; now left|lia|]. rewrite E2 in E. cbn [bind negb andb] in E.
        pose proof Ho2 as (A1 & A2 & A3 & A4 & A5).
        destruct fl.
        - destruct (clear_sample_spec (o_weight o2) zero s) as (w & Hcl & Hwf & Hsw & Hat); [exact A4| |].
          { destruct A5 as (-> & _). specialize (Hsl s (or_introl eq_refl)). lia. }
          rewrite Hcl in E. cbn [bind] in E. inversion E; subst. exists (mkDraw s true e true). split; [reflexivity|].
          split; [|split; [now apply shaped_weight|auto]].
          eapply loads_cons; cbn [d_testing d_no_weight d_slot d_element]; [exact E2| |constructor]. split; auto.
        - cbn [bind] in E. inversion E; subst. exists (mkDraw s true e false). split; [reflexivity|].
          split; [|split; [assumption|auto]].
          assert (Ew : with_weight o1 (o_weight o1) = o1) by (destruct o1; reflexivity).
          eapply loads_cons with (o1 := o1) (w := o_weight o1); cbn [d_testing d_no_weight d_slot d_element negb andb]; [exact E2|reflexivity|rewrite Ew; constructor]. }
      destruct (IH l1 o1 (ds ++ [d])) as (new & -> & HL'); auto. { intros; apply Hsl; now right. }
      exists (d :: new). rewrite <- app_assoc. split; [reflexivity|]. change (d :: new) with ([d] ++ new). eapply loads_app; eauto. }
  assert (new = map (test_draw (batch_size l) (elements_testing l)) (seq (j * batch_size l) (batch_size l))) as Enew
    by (rewrite En in Ed; now apply app_inv_head in Ed).
  assert (Hslots : map d_slot new = seq 0 (batch_size l)).
  { rewrite Enew, map_map. cbn [test_draw d_slot]. apply list_ext. intros i. rewrite nth_error_map.
    destruct (Nat.lt_ge_cases i (batch_size l)) as [L|L].
    - rewrite !(nth_error_nth' _ 0) by (rewrite seq_length; auto). rewrite !seq_nth by auto. cbn [option_map]. f_equal.
      cbn [test_draw d_slot]. rewrite Nat.add_comm, Nat.mod_add, Nat.mod_small by lia. reflexivity.
    - rewrite !(proj2 (nth_error_None _ i)); auto; rewrite seq_length; lia. }
  destruct (loads_weights D zero training_sample testing_sample o0 L1 L2 (fcn l) o new o' HL Ho) as (_ & HZ & Hs').
  { rewrite Hslots. apply seq_NoDup. }
  split; [exact Hs'|]. intros slot x y m Hsl Hf Hv.
  assert (Hin : In (test_draw (batch_size l) (elements_testing l) (j * batch_size l + slot)) new).
  { rewrite Enew. apply in_map, in_seq. lia. }
  assert (Esl : d_slot (test_draw (batch_size l) (elements_testing l) (j * batch_size l + slot)) = slot).
  { cbn [test_draw d_slot]. rewrite Nat.add_comm, Nat.mod_add, Nat.mod_small by lia. reflexivity. }
  specialize (HZ _ x y m Hin). rewrite Esl in HZ. apply HZ; auto. cbn [test_draw d_no_weight]. now apply Nat.leb_le.
Qed.
Print Assumptions C28_filler_weights.

(** Finding: without test samples the filler itself is requested from the dataset, which
    has none; a dataset that rejects the request makes testing fail. *)
Theorem C28_empty_test_set_refuted {D G} zero gtb (shuffle : G -> list nat -> list nat * G) uniform training_sample testing_sample
    (l : layer D G) (o : outputs D) ds :
  elements_testing l = 0 -> testing l = true -> 0 < batch_size l -> (forall o slot i, testing_sample o slot i = Ok (o, false)) ->
  feed_forward zero gtb shuffle uniform training_sample testing_sample (l, o, ds) = Fatal.
Proof.
  intros Hn Ht Hb Hd. unfold feed_forward. destruct (batch_size l) as [|b]; [lia|]. cbn [seq foldm].
  unfold feed_slot, select. rewrite Ht, Hn. cbn [Nat.leb bind]. rewrite Ht, Hd. reflexivity.
Qed.
Print Assumptions C28_empty_test_set_refuted.

(** ** C29 *)

(** The weight at (x, y) of the sample becomes zero when the random number of its block
    exceeds p and stays otherwise; there is one random number per block, drawn row by row;
    nothing else changes. *)
Theorem C29_loss_sampling {D G} zero gtb (uniform : G -> D * G) p slot (w : tensor D) g :
  wf w -> slot < samples w ->
  let columns := (width w + 11) / 12 in
  let rows := (height w + 11) / 12 in
  exists w', loss_sampling zero gtb uniform p slot w g = Ok (w', advanced uniform (rows * columns) g) /\
    wf w' /\ same_shape w' w /\
    forall x y m s, valid_pos w x y m s ->
      x / 12 < columns /\ y / 12 < rows /\
      at_pos w' x y m s = if (m =? 0) && (s =? slot) && gtb (random uniform (y / 12 * columns + x / 12) g) p then Some zero else at_pos w x y m s.
Proof.
  intros Hwf Hs columns rows.
  assert (E : forall k, ceil_div k 12 = (k + 11) / 12) by (intros k; unfold ceil_div; f_equal; lia).
  destruct (loss_sampling_spec D zero gtb G uniform p slot w g Hwf Hs) as (w' & Hr & Hwf' & Hsh & Hat).
  rewrite !E in Hr. exists w'. split; [exact Hr|]. split; auto. split; auto. intros x y m s Hv.
  pose proof (Hat _ _ _ _ Hv) as H. unfold block_of in H. rewrite E in H. destruct Hv as (Hx & Hy & _).
  split; [|split; [|exact H]].
  - unfold columns. rewrite <- E. apply lt_ceil_div; [lia|]. pose proof (Nat.mul_div_le x 12 ltac:(lia)). lia.
  - unfold rows. rewrite <- E. apply lt_ceil_div; [lia|]. pose proof (Nat.mul_div_le y 12 ltac:(lia)). lia.
Qed.
Print Assumptions C29_loss_sampling.

(** The layer does exactly this to each training sample of a fully convolutional dataset,
    with the generator as the selection of the sample left it, and only then; the generator is kept as the sampling
    left it, and nothing else of the layer changes. *)
Theorem C29_training_slot {D G} zero gtb (shuffle : G -> list nat -> list nat * G) uniform training_sample testing_sample
    (l l1 : layer D G) (o o1 : outputs D) ds slot e f :
  testing l = false -> select shuffle l = Ok (l1, e, f) -> training_sample o slot e = Ok (o1, true) ->
  feed_slot zero gtb shuffle uniform training_sample testing_sample (l, o, ds) slot =
    if fcn l
    then r <- loss_sampling zero gtb uniform (loss_sampling_p l) slot (o_weight o1) (generator l1) ;;
         Ok (mkLayer (fcn l1) (batch_size l1) (elements_training l1) (elements_testing l1) (loss_sampling_p l1) (testing l1) (snd r) (perm l1)
               (current_element l1) (current_element_testing l1), with_weight o1 (fst r), ds ++ [mkDraw slot false e false])
    else Ok (l1, o1, ds ++ [mkDraw slot false e false]).
Proof.
  intros Ht Hs Ho. unfold feed_slot. rewrite Hs. cbn [bind].
  assert (testing l1 = false /\ fcn l1 = fcn l /\ loss_sampling_p l1 = loss_sampling_p l /\ f = false) as (T & F & P & ->).
  { unfold select in Hs. rewrite Ht in Hs. destruct (load _ _); cbn [bind] in Hs; try discriminate.
    destruct (_ <=? _); [destruct (shuffle _ _)|]; inversion Hs; subst; auto. }
  unfold with_generator. rewrite T, Ho, F, P. cbn [bind negb andb]. destruct (fcn l) eqn:Ef; cbn [bind]; auto.
  destruct (loss_sampling _ _ _ _ _ _ _) as [[w g]| |]; reflexivity.
Qed.
Print Assumptions C29_training_slot.

(** ** Examples *)
(** Reverses the list; random numbers count up; a dataset with images of 13x1 pixels. *)
Definition shuffle (g : nat) (l : list nat) := (rev l, S g).
Definition uniform (g : nat) := (g, S g).
Definition t0 : tensor nat := mkTensor 2 13 1 1 26 (Some (repeat 7 26)).
Definition outs := mkOut t0 t0 t0 t0.
Definition train (o : outputs nat) (slot i : nat) : res (outputs nat * bool) :=
  w <- clear (o_weight o) (100 + i) (Some slot) ;; Ok (with_weight o w, true).
Definition test (o : outputs nat) (slot i : nat) : res (outputs nat * bool) :=
  w <- clear (o_weight o) (200 + i) (Some slot) ;; Ok (with_weight o w, true).

Example shuffle_ok g l : Permutation l (fst (shuffle g l)).
Proof. apply Permutation_rev. Qed.

Lemma sample_ok k o slot i : shaped_like outs o -> slot < 2 ->
  exists o', (w <- clear (o_weight o) (k + i) (Some slot) ;; Ok (with_weight o w, true)) = Ok (o', true) /\ shaped_like outs o' /\
    forall x y m s, valid_pos (o_weight outs) x y m s -> s <> slot -> at_pos (o_weight o') x y m s = at_pos (o_weight o) x y m s.
Proof.
  intros H Hs. pose proof H as (_ & _ & _ & Hw & Hsh).
  destruct (clear_sample_spec (o_weight o) (k + i) slot Hw) as (w & E & Hwf & Hss & Hat).
  { destruct Hsh as (-> & _). cbn. lia. }
  rewrite E. cbn [bind]. eexists; split; [reflexivity|]. split; [now apply shaped_weight|]. intros x y m s Hv Hn. cbn [with_weight o_weight].
  rewrite Hat by (eapply valid_pos_like; eauto). destruct (Nat.eqb_spec s slot); [contradiction|reflexivity].
Qed.
Example provides_ok k n : provides (fun o slot i => w <- clear (o_weight o) (k + i) (Some slot) ;; Ok (with_weight o w, true)) outs 2 n.
Proof. intros o slot i H Hs Hi. destruct (sample_ok k o slot i H Hs) as (o' & E & Ho' & _). eauto. Qed.
Example outs_ok : shaped_like outs outs.
Proof. repeat split; cbn; lia. Qed.

(** Three training samples, one test sample, batches of two: two training batches, a test
    batch with a filler, another training batch. *)
Definition run := history 0 (fun a b => b <? a) shuffle uniform train test [Feed; Feed; SetTesting true; Feed; SetTesting false; Feed]
                   (new_layer shuffle true 2 3 1 5 0, outs, []).
Example run_draws : match run with
  | Ok (_, _, ds) => training_draws ds = [2; 1; 0; 0; 1; 2] /\
      testing_draws ds = [mkDraw 0 true 0 false; mkDraw 1 true 0 true]
  | _ => False end.
Proof. vm_compute. auto. Qed.
(** The last batch: random numbers above 5 remove both blocks of both samples. *)
Example run_test_batch :
  match history 0 (fun a b => b <? a) shuffle uniform train test [SetTesting true; Feed] (new_layer shuffle true 2 3 1 5 0, outs, []) with
  | Ok (_, o, _) => data (o_weight o) = Some (repeat 200 13 ++ repeat 0 13)
  | _ => False end.
Proof. vm_compute. auto. Qed.
Example run_loss_sampling :
  match loss_sampling 0 (fun a b => b <? a) uniform 5 1 t0 5 with
  | Ok (w, g) => data w = Some (repeat 7 25 ++ [0]) /\ g = 7
  | _ => False end.
Proof. vm_compute. auto. Qed.

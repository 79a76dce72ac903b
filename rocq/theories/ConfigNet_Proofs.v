(** Lemmas for C87. *)
From Coq Require Import Ascii String List Permutation.
From Verif Require Import Base BaseFacts Tensor_Model Tensor_Spec Tensor_Proofs Num Float32 Math_Model Math_Spec Math_Proofs Conv2_Proofs Act_Model Act_Proofs Layers_Model Pool_Model LRN_Model ConvLayer_Model
  Backprop_Model BackpropLayers_Model BackpropLayers_Spec BackpropLayers_Proofs Batch_Model Batch_Spec Batch_Proofs Batch_Props
  Str_Model Graph_Model Graph_Spec Graph_Proofs Graph_Props Receptive_Model Factory_Model Factory_Spec Factory_Proofs FactoryRun_Proofs FactoryLines_Proofs Factory_Props ConfigNet_Model ConfigNet_Spec.
Local Open Scope list_scope.
Local Open Scope nat_scope.

(** ** The layers *)
Section Layers.
Context {D : Type} (K : num D) (O : order D).
Variables (ndiv : D -> D -> D) (nexp : D -> D) (two : D) (positive : D -> bool) (fraction : nat -> nat -> D) (scale : D -> nat -> D) (power power1 : D -> D -> D).
Variables b1 b2 s1 s2 : nat.
Hypotheses (Hs1 : s1 < b1) (Hs2 : s2 < b2).
Let z := n0 K.
Ltac szd := first [assumption | rewrite size_batch; nia].

Lemma downsampling_alike rw rh d old1 old2 ps : 0 < rw -> 0 < rh -> d_width d mod rw = 0 -> d_height d mod rh = 0 -> 0 < sample_size d ->
  length old1 = size (at_batch b1 (pool_dims rw rh d)) -> length old2 = size (at_batch b2 (pool_dims rw rh d)) ->
  samplewise b1 b2 s1 s2 (downsampling_behaviour K fraction rw rh (at_batch b1 d) old1) (downsampling_behaviour K fraction rw rh (at_batch b2 d) old2) ps [Some d] [Some (pool_dims rw rh d)].
Proof.
  intros Prw Prh Mw Mh P O1 O2. set (o := pool_dims rw rh d) in *.
  assert (Ew : d_width d = rw * (d_width d / rw)) by (rewrite (Nat.div_mod (d_width d) rw) at 1 by lia; lia).
  assert (Eh : d_height d = rh * (d_height d / rh)) by (rewrite (Nat.div_mod (d_height d) rh) at 1 by lia; lia).
  assert (P' : 0 < sample_size o).
  { unfold sample_size in *. subst o. cbn [pool_dims d_width d_height d_maps]. set (qw := d_width d / rw) in *. set (qh := d_height d / rh) in *.
    assert (qw <> 0) by (intros Z0; rewrite Z0, Nat.mul_0_r in Ew; rewrite Ew in P; lia). assert (qh <> 0) by (intros Z0; rewrite Z0, Nat.mul_0_r in Eh; rewrite Eh in P; lia). nia. }
  apply map_alike. intros l1 l2 H. pose proof H as (L1 & L2 & _). unfold downsample_ff.
  change (pool_dims rw rh (at_batch b1 d)) with (at_batch b1 o). change (pool_dims rw rh (at_batch b2 d)) with (at_batch b2 o).
  destruct (down_spec K (tensor_of (at_batch b1 d) l1) (tensor_of (at_batch b1 o) old1) rw rh (fraction rw rh) (val z (at_batch b1 d) l1)) as (t1 & E1 & W1 & S1 & C1);
    try (apply wf_of; szd); try (now apply contents_val); [repeat split; assumption|].
  destruct (down_spec K (tensor_of (at_batch b2 d) l2) (tensor_of (at_batch b2 o) old2) rw rh (fraction rw rh) (val z (at_batch b2 d) l2)) as (t2 & E2 & W2 & S2 & C2);
    try (apply wf_of; szd); try (now apply contents_val); [repeat split; assumption|].
  rewrite E1, E2. cbn [written]. apply (out_alike b1 b2 s1 s2 Hs1 Hs2 z o t1 t2 _ _ P' W1 S1 C1 W2 S2 C2). intros x y m _ _ _. cbn beta. f_equal. f_equal.
  unfold region, for_. apply flat_map_ext. intros ry. apply flat_map_ext. intros rx. f_equal. apply (val_alike b1 b2 s1 s2 Hs1 Hs2 z d l1 l2 _ _ m H).
Qed.
Lemma hmax_alike d old1 old2 ps : 0 < sample_size d -> length old1 = size (at_batch b1 d) -> length old2 = size (at_batch b2 d) -> length (nth 0 ps []) = 2 ->
  samplewise b1 b2 s1 s2 (hmax_behaviour K ndiv nexp (at_batch b1 d) old1) (hmax_behaviour K ndiv nexp (at_batch b2 d) old2) ps [Some d] [Some d].
Proof.
  intros P O1 O2 Lp. destruct (nth 0 ps []) as [|a [|c [|? ?]]] eqn:Ep; try discriminate.
  intros x1 x2 H. pose proof (act_alike b1 b2 s1 s2 Hs1 Hs2 K (hmax K ndiv nexp a c) (fun _ _ _ t => Ok t) (fun _ _ _ t => Ok t) d old1 old2 [] [] ps P O1 O2 x1 x2 H) as A.
  cbn [hmax_behaviour activation_behaviour b_outputs] in *. unfold hmax_ff. rewrite Ep. exact A.
Qed.

Lemma runs_alike ps l ins outs bh1 bh2 : nzerob K (n0 K) = true -> nzerob K (n1 K) = false ->
  runs K O ndiv nexp two positive fraction scale power power1 b1 ps l ins outs bh1 -> runs K O ndiv nexp two positive fraction scale power power1 b2 ps l ins outs bh2 ->
  (match l with LError _ => False | _ => True end) -> samplewise b1 b2 s1 s2 bh1 bh2 ps (map Some ins) (map Some outs).
Proof.
  intros Z0 Z1 R1 R2 Nl. destruct R1; inversion R2; subst; cbn [map]; try contradiction.
  - now apply C82_border.
  - now apply C82_testing_convolution.
  - apply C82_normalization; auto; lia.
  - now apply C82_pooling.
  - now apply downsampling_alike.
  - now apply C82_strided_pooling.
  - now apply C82_activation.
  - now apply hmax_alike.
  - now apply C82_activation.
  - now apply C82_activation.
  - apply C82_upscale; auto; lia.
  - now apply C82_concatenation.
  - now apply C82_sum.
Qed.
End Layers.

(** ** The connections of a configuration *)
Section Reads.
Context {D : Type} (read_datum : str -> D) (d0 d1 : D) (rand : nat -> Z).
Variables (cfg : geo) (data : connection) (classes : Z) (add_loss_layer : bool).
Notation layer := (@layer D).
Notation fstate := (@fstate D).
Notation read_line := (read_config_line read_datum d0 d1 rand cfg data classes add_loss_layer).
Notation readable := (readable read_datum d0 d1 rand cfg data classes add_loss_layer).
Notation good := (good cfg data).

Definition reads_public (h : list node) (p : nat) : Prop := exists cs, has_inputs h p cs /\ Forall (no_secret data) cs.
Record public (st : fstate) : Prop := mkPublic {
  public_last : c_buffer (f_last st) = 0;
  public_stacks : forall s, Forall (fun c => c_buffer c = 0) (stack_of st s);
  public_made : forall p l, In (p, l) (produced (f_made st)) -> reads_public (heap (f_graph st)) p }.

Lemma chain_public h (ps : list (nat * layer)) : forall c c', c_buffer c = 0 -> chain data h c ps c' -> c_buffer c' = 0 /\ forall p l, In (p, l) ps -> reads_public h p.
Proof.
  induction ps as [|[p l] ps IH]; intros c c' Hc H; cbn [chain] in H.
  - subst. split; [exact Hc|]. intros p l [].
  - destruct H as (Hi & bp & H). destruct (IH (mkConn (Some p) 0 bp) c' eq_refl H) as (E & F). split; [exact E|]. intros p' l' [[= <- <-]|Hin]; [|now apply (F p' l')].
    exists (behind data l c). split; [exact Hi|]. assert (F1 : forall cs, Forall (no_secret data) cs -> Forall (no_secret data) (c :: cs)) by (intros cs Hcs; constructor; [now left|exact Hcs]).
    destruct l; cbn [behind]; apply F1; try constructor; [|constructor]. right. now split.
Qed.
Lemma public_stable g g' made p : built (D := D) g g' made -> reads_public (heap g) p -> reads_public (heap g') p.
Proof. intros Bt (cs & Hi & F). exists cs. split; [now apply (inputs_stable _ _ _ _ _ Bt)|exact F]. Qed.

Lemma public_lines lines : forall st st', good st -> Forall readable lines -> Forall plain lines -> foldm read_line lines st = Ok st' -> public st -> public st'.
Proof.
  induction lines as [|line lines IH]; intros st st' G R P E Pu; cbn [foldm] in E; [injection E as <-; exact Pu|].
  inversion R as [|? ? R1 R2]; subst. inversion P as [|? ? P1 P2]; subst. destruct Pu as [U1 U2 U3].
  destruct (stack_dec line) as [[[s Hs]|[s Hs]]|Ns].
  - pose proof (push_step read_datum d0 d1 rand cfg data classes add_loss_layer st line s G P1 Hs) as St. destruct (Datatypes.length (stack_of st s) <? 64); [|rewrite St in E; discriminate].
    destruct St as (st1 & E1 & G1 & Eg & Em & El & Es & Eo). rewrite E1 in E. cbn [bind] in E. apply (IH st1 st' G1 R2 P2 E). constructor.
    + now rewrite El.
    + intros s'. destruct (stack_eq_dec s' s) as [->|Ne]; [rewrite Es; constructor; auto|rewrite Eo by exact Ne; apply U2].
    + rewrite Em, Eg. exact U3.
  - pose proof (pop_step read_datum d0 d1 rand cfg data classes add_loss_layer st line s G P1 Hs) as St. pose proof (U2 s) as Us. destruct (stack_of st s) as [|c l] eqn:Ec; [rewrite St in E; discriminate|].
    destruct St as (st1 & E1 & G1 & Eg & Em & El & Es & Eo). rewrite E1 in E. cbn [bind] in E. pose proof (Forall_inv Us) as Uc. pose proof (Forall_inv_tail Us) as Ul. apply (IH st1 st' G1 R2 P2 E). constructor.
    + now rewrite El.
    + intros s'. destruct (stack_eq_dec s' s) as [->|Ne]; [now rewrite Es|rewrite Eo by exact Ne; apply U2].
    + rewrite Em, Eg. exact U3.
  - destruct (other_step read_datum d0 d1 rand cfg data classes add_loss_layer st line G R1 Ns) as (st1 & made & E1 & Adv & [L _]). rewrite E1 in E. cbn [bind] in E.
    apply (IH st1 st' (adv_good _ _ _ _ _ Adv) R2 P2 E). destruct Adv as [_ Bt Em Es].
    assert (Key : c_buffer (f_last st1) = 0 /\ forall p l, In (p, l) (produced made) -> reads_public (heap (f_graph st1)) p).
    { destruct L as [C|(_ & s & p & l & ps & bp & _ & Ep & Hi & C)]; [now apply (chain_public _ _ (f_last st))|].
      destruct (chain_public _ _ (mkConn (Some p) 0 bp) _ eq_refl C) as (E0 & F). split; [exact E0|]. rewrite Ep. intros p' l' [[= <- <-]|Hin]; [|now apply (F p' l')].
      exists (stack_of st s). split; [exact Hi|]. eapply Forall_impl; [|apply U2]. intros c Hc. now left. }
    constructor; [apply Key|intros s; rewrite Es; apply U2|]. intros p l Hin. rewrite Em, produced_app in Hin. apply in_app_or in Hin as [Hin|Hin].
    + apply (public_stable _ _ _ p Bt). now apply (U3 p l).
    + now apply (proj2 Key p l).
Qed.

Lemma public_after g lines st : healthy g -> four_outputs g data -> c_buffer data = 0 -> Forall readable lines -> Forall plain lines -> after read_datum d0 d1 rand cfg data classes add_loss_layer g lines st -> public st.
Proof.
  intros Hh Hd Hb R P (st0 & E0 & E). destruct (@start_ok D cfg data g Hh Hd) as (st0' & E0' & G0 & B0 & C0 & Ea & Eb). rewrite E0 in E0'. injection E0' as <-.
  apply (public_lines lines st0 st G0 R P E). destruct (chain_public _ _ _ _ Hb C0) as (U & F). constructor; [exact U| |exact F].
  intros []; cbn [stack_of]; [rewrite Ea|rewrite Eb]; constructor.
Qed.
End Reads.

(** ** After the insertion of accumulation nodes *)
Section Join.
Variables (gF g : graph) (input : nat) (shape : nat -> nat -> dims).
Definition buffers_at (h : list node) (n : nat) : nat := match nth_error h n with Some nd => n_buffers nd | None => 0 end.
Definition makes (q : nat) : list (option dims) :=
  if q =? input then [Some (shape input 0); None; Some (shape input 2); None]
  else if existsb (Nat.eqb q) (nodes gF) then map (fun i => Some (shape q i)) (seq 0 (buffers_at (heap gF) q))
  else match inputs_of (heap g) q with c :: _ => repeat (Some (delivers shape c)) (buffers_at (heap g) q) | [] => [] end.
Definition taken (c : connection) : option dims := match c_node c with Some q => nth (c_buffer c) (makes q) None | None => None end.
Definition takes (n : nat) : list (option dims) := map taken (inputs_of (heap g) n).

Variable fuel : nat.
Hypotheses (Hh : healthy gF) (Hf : 2 <= fuel) (Hg : insert_sweeps fuel gF = Ok g).
Hypothesis Hin0 : In input (nodes gF).
Hypothesis Hinput : exists nd, nth_error (heap gF) input = Some nd /\ n_is_input nd = true /\ n_buffers nd = 4.
Hypothesis Hone : forall n nd, In n (nodes gF) -> n <> input -> nth_error (heap gF) n = Some nd -> n_buffers nd <= 1.

Lemma in_nodes q : In q (nodes gF) -> existsb (Nat.eqb q) (nodes gF) = true.
Proof. intros H. apply existsb_exists. exists q. split; [exact H|apply Nat.eqb_refl]. Qed.
Lemma not_in_nodes q : ~ In q (nodes gF) -> existsb (Nat.eqb q) (nodes gF) = false.
Proof. intros H. apply not_true_iff_false. intros E. apply existsb_exists in E as (x & Hx & E). apply Nat.eqb_eq in E. now subst. Qed.

Lemma input_not_shared : shared (heap gF) input = false.
Proof.
  destruct Hinput as (nd & E & I & _). unfold shared, backprop_count. rewrite E, (sound_inputs _ (healthy_sound _ Hh) _ _ E I). reflexivity.
Qed.
Lemma nth_map_seq {X} (f : nat -> X) n i z : i < n -> nth i (map f (seq 0 n)) z = f i.
Proof. intros H. rewrite (nth_indep _ z (f 0)) by now rewrite map_length, seq_length. rewrite map_nth, seq_nth by exact H. reflexivity. Qed.
Lemma makes_at c q m data : c_node c = Some q -> In q (nodes gF) -> nth_error (heap gF) q = Some m -> c_buffer c < n_buffers m ->
  c_buffer c < Datatypes.length (makes q) /\ (c_node data = Some input -> no_secret data c -> nth (c_buffer c) (makes q) None = Some (shape q (c_buffer c))).
Proof.
  intros Ec Hq Em Hb. unfold makes. destruct (Nat.eqb_spec q input) as [->|Ne].
  - destruct Hinput as (nd & E & _ & B). assert (m = nd) by congruence. subst m. split; [cbn; lia|]. intros _ [E0|[_ E0]]; rewrite E0; reflexivity.
  - rewrite (in_nodes q Hq). unfold buffers_at. rewrite Em. split; [now rewrite map_length, seq_length|]. intros _ _. now rewrite nth_map_seq.
Qed.

(** The connection in the same place afterwards. *)
Lemma moved k i c data : In k (nodes gF) -> connection_at (heap gF) k i = Some c -> exists c' q', connection_at (heap g) k i = Some c' /\ c_node c' = Some q' /\
  c_buffer c' < Datatypes.length (makes q') /\ (c_node data = Some input -> no_secret data c -> taken c' = Some (delivers shape c)).
Proof.
  intros Hk Ec. pose proof Hh as [S A N].
  destruct (C19_accumulation_nodes gF fuel S Hf) as (g' & E' & _ & Sh & Un & (extra & En & _) & _ & _ & Sg & Ag). assert (g' = g) by congruence. subst g'.
  destruct (sound_closed gF S k Hk) as (nd & End & Hcs).
  assert (Hin : In c (n_inputs nd)) by (unfold connection_at in Ec; rewrite End in Ec; eapply nth_error_In; exact Ec).
  destruct (N k nd Hk End) as (_ & _ & Hins). rewrite Forall_forall in Hins. destruct (Hins c Hin) as (q & m & Eq & Hq & Em & Hb).
  destruct (c_backprop c && shared (heap gF) q) eqn:Eb.
  - apply andb_prop in Eb as [Ebp Es]. destruct (Sh q Hq Es) as (ga & A1 & A2 & (gn & G1 & _ & G3 & G4 & _) & _ & A5 & _).
    destruct (A5 k i c Hk Ec Eq Ebp) as (b & Hlt & Ec'). exists (mkConn (Some ga) b true), ga. split; [exact Ec'|]. split; [reflexivity|]. cbn [c_buffer].
    assert (Nq : q <> input) by (intros ->; rewrite input_not_shared in Es; discriminate).
    assert (Ng : ga <> input) by (intros ->; contradiction).
    assert (Mg : makes ga = repeat (Some (shape q 0)) (backprop_count (heap gF) q)).
    { unfold makes. rewrite (proj2 (Nat.eqb_neq _ _) Ng), (not_in_nodes ga A2). unfold inputs_of, buffers_at. rewrite G1, G3, G4. reflexivity. }
    rewrite Mg, repeat_length. split; [exact Hlt|]. intros _ _. unfold taken. cbn [c_node c_buffer]. rewrite Mg. rewrite (nth_indep _ None (Some (shape q 0))) by now rewrite repeat_length.
    rewrite nth_repeat. unfold delivers. rewrite Eq. pose proof (Hone q m Hq Nq Em). now replace (c_buffer c) with 0 by lia.
  - exists c, q. split; [|split; [exact Eq|]].
    + apply (Un k i c Hk Ec). intros q' Eq' Ebp. assert (q' = q) by congruence. subst q'. rewrite Ebp in Eb. exact Eb.
    + destruct (makes_at c q m data Eq Hq Em Hb) as (L & T). split; [exact L|]. intros Hd Hn. unfold taken, delivers. rewrite Eq. now apply T.
Qed.

Lemma same_length k : In k (nodes gF) -> Datatypes.length (inputs_of (heap g) k) = Datatypes.length (inputs_of (heap gF) k).
Proof.
  intros Hk. pose proof Hh as [S A N]. destruct (C19_accumulation_nodes gF fuel S Hf) as (g' & E' & _ & _ & _ & _ & Old & _). assert (g' = g) by congruence. subst g'.
  destruct (sound_closed gF S k Hk) as (nd & End & _). destruct (Old k nd Hk End) as (nd' & End' & _ & _ & L & _). unfold inputs_of. now rewrite End, End'.
Qed.
Lemma connection_nth h k i : connection_at h k i = nth_error (inputs_of h k) i.
Proof. unfold connection_at, inputs_of. destruct (nth_error h k); [reflexivity|]. now destruct i. Qed.

Lemma takes_made k data : In k (nodes gF) -> c_node data = Some input -> Forall (no_secret data) (inputs_of (heap gF) k) ->
  takes k = map Some (map (delivers shape) (inputs_of (heap gF) k)).
Proof.
  intros Hk Hd F. unfold takes. apply nth_ext with (d := taken (mkConn None 0 false)) (d' := taken (mkConn None 0 false)); rewrite !map_length; [now apply same_length|].
  intros i Hi. rewrite map_nth. rewrite map_map. assert (Hi' : i < Datatypes.length (inputs_of (heap gF) k)) by (now rewrite <- same_length).
  rewrite (nth_indep _ _ (Some (delivers shape (mkConn None 0 false)))) by now rewrite map_length.
  rewrite (map_nth (fun c => Some (delivers shape c))).
  destruct (nth_error (inputs_of (heap gF) k) i) as [c|] eqn:Ec; [|apply nth_error_None in Ec; lia].
  destruct (moved k i c data Hk) as (c' & q' & Ec' & _ & _ & T); [now rewrite connection_nth|]. rewrite connection_nth in Ec'.
  rewrite (nth_error_nth _ _ _ Ec), (nth_error_nth _ _ _ Ec'). apply T; [exact Hd|]. rewrite Forall_forall in F. apply F. eapply nth_error_In. exact Ec.
Qed.

Lemma joined : connected g takes makes /\ sound g /\ acyclic (reads (heap g)) (nodes g) /\ incl (nodes gF) (nodes g) /\ forall n, In n (nodes g) -> ~ In n (nodes gF) -> exists d, takes n = [Some d] /\ makes n = repeat (Some d) (buffers_at (heap g) n).
Proof.
  pose proof Hh as [S A N]. destruct (C19_accumulation_nodes gF fuel S Hf) as (g' & E' & _ & Sh & _ & (extra & En & Ex) & _ & _ & Sg & Ag). assert (g' = g) by congruence. subst g'.
  assert (New : forall n, In n (nodes g) -> ~ In n (nodes gF) -> exists q d, inputs_of (heap g) n = [mkConn (Some q) 0 true] /\ nth_error (makes q) 0 = Some (Some d) /\ takes n = [Some d] /\ makes n = repeat (Some d) (buffers_at (heap g) n)).
  { intros n Hn No. rewrite En in Hn. apply in_app_or in Hn as [Hn|Hn]; [contradiction|]. destruct (Ex n Hn) as (_ & q & Hq & Es & _ & _ & (gn & G1 & _ & G3 & G4 & _) & _).
    assert (Nq : q <> input) by (intros ->; rewrite input_not_shared in Es; discriminate).
    assert (Nn : n <> input) by (intros ->; contradiction).
    assert (Ei : inputs_of (heap g) n = [mkConn (Some q) 0 true]) by (unfold inputs_of; now rewrite G1, G3).
    destruct (sound_closed gF S q Hq) as (m & Em & _).
    assert (Wk : exists k i c, In k (nodes gF) /\ connection_at (heap gF) k i = Some c /\ c_node c = Some q).
    { unfold shared, backprop_count in Es. rewrite Em in Es. apply andb_prop in Es as [Es _]. apply Nat.ltb_lt in Es.
      pose proof (Permutation_length (sound_consistent gF S q m Em)) as Pl. destruct (flat_map (requests (heap gF) q) (nodes gF)) as [|r rs] eqn:Er; [cbn in Pl; lia|].
      assert (Hr : In r (flat_map (requests (heap gF) q) (nodes gF))) by (rewrite Er; now left). apply in_flat_map in Hr as (k & Hk & Hr). unfold requests in Hr.
      destruct (nth_error (heap gF) k) as [nk|] eqn:Ek; [|destruct Hr]. apply in_map_iff in Hr as (c & _ & Hc). apply filter_In in Hc as (Hc & Hp). apply andb_prop in Hp as [Hp _].
      apply In_nth_error in Hc as (i & Hi). exists k, i, c. split; [exact Hk|]. unfold connection_at. rewrite Ek. split; [exact Hi|]. unfold ptr_eqb in Hp. destruct (c_node c) as [x|]; [|discriminate].
      apply Nat.eqb_eq in Hp. congruence. }
    destruct Wk as (k & i & c & Hk & Ec & Eq). unfold connection_at in Ec. destruct (nth_error (heap gF) k) as [nk|] eqn:Ek; [|discriminate].
    destruct (N k nk Hk Ek) as (_ & _ & Hins). rewrite Forall_forall in Hins. destruct (Hins c (nth_error_In _ _ Ec)) as (q' & m' & Eq' & _ & Em' & Hb).
    assert (q' = q) by congruence. subst q'. assert (m' = m) by congruence. subst m'. pose proof (Hone q m Hq Nq Em).
    assert (Mq : makes q = [Some (shape q 0)]).
    { unfold makes. rewrite (proj2 (Nat.eqb_neq _ _) Nq), (in_nodes q Hq). unfold buffers_at. rewrite Em. now replace (n_buffers m) with 1 by lia. }
    exists q, (shape q 0). split; [exact Ei|]. rewrite Mq. split; [reflexivity|]. split.
    - unfold takes. rewrite Ei. cbn [map]. unfold taken. cbn [c_node c_buffer]. now rewrite Mq.
    - unfold makes. rewrite (proj2 (Nat.eqb_neq _ _) Nn), (not_in_nodes n No), Ei. reflexivity. }
  split; [|split; [exact Sg|split; [now apply Ag|split; [intros x Hx; rewrite En; apply in_or_app; now left|]]]].
  - intros n Hn. destruct (in_dec Nat.eq_dec n (nodes gF)) as [Y|No].
    + unfold takes. assert (H : forall c, In c (inputs_of (heap g) n) -> exists q, c_node c = Some q /\ nth_error (makes q) (c_buffer c) = Some (taken c)).
      { intros c Hc. apply In_nth_error in Hc as (i & Hi). assert (Hl : i < Datatypes.length (inputs_of (heap gF) n)) by (rewrite <- same_length by exact Y; apply nth_error_Some; congruence).
        destruct (nth_error (inputs_of (heap gF) n) i) as [c0|] eqn:Ec0; [|apply nth_error_None in Ec0; lia].
        destruct (moved n i c0 (mkConn None 0 false) Y) as (c' & q' & Ec' & Eq' & L & _); [now rewrite connection_nth|]. rewrite connection_nth in Ec'. assert (c' = c) by congruence. subst c'.
        exists q'. split; [exact Eq'|]. unfold taken. rewrite Eq'. now apply nth_error_nth'. }
      revert H. generalize (inputs_of (heap g) n). intros l H. induction l as [|c l IH]; cbn [map]; constructor; [apply H; now left|apply IH; intros c' Hc'; apply H; now right].
    + destruct (New n Hn No) as (q & d & Ei & Mq & T & _). rewrite Ei, T. constructor; [|constructor]. exists q. now split.
  - intros n Hn No. destruct (New n Hn No) as (q & d & _ & _ & T & M). eauto.
Qed.
End Join.

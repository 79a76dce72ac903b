(** Proofs for C90: a layer that runs for batches of one size runs for batches of every size. *)
From Verif Require Import Base BaseFacts Tensor_Model Tensor_Spec Tensor_Proofs Evaluate_Spec Num Float32 Pool_Model LRN_Model ConvLayer_Model ConvLayer_Spec Math_Spec ConvReady_Proofs
  Backprop_Model BackpropLayers_Model BackpropLayers_Spec Batch_Model Batch_Spec Batch_Proofs Batch_Props Factory_Model ConfigNet_Model.
Local Open Scope list_scope.
Local Open Scope nat_scope.

Section Run.
Context {D : Type} (K : num D) (O : order D).
Variables (ndiv : D -> D -> D) (nexp : D -> D) (two : D) (positive : D -> bool) (fraction : nat -> nat -> D)
  (scale : D -> nat -> D) (power power1 : D -> D -> D).
Notation runs := (runs K O ndiv nexp two positive fraction scale power power1).

Lemma convolves_any c d o b b' st old (ps : list (list D)) : 0 < b' -> 0 < sample_size d -> parameters c d ps -> convolves K c d o b st old ->
  exists st' old', convolves K c d o b' st' old'.
Proof.
  intros Hb Pd (_ & _ & Pw & Po) ((wt & bb & R) & E & _).
  destruct (cr_fits _ _ _ _ _ _ _ _ _ R) as (Sw & Sh & F1 & F2). cbn in Sw, Sh, F1, F2.
  assert (Pm : 0 < d_maps d) by (unfold sample_size in Pd; destruct (d_maps d); [cbn in Pd; lia|lia]).
  assert (Pk : 0 < cv_kw c /\ 0 < cv_kh c).
  { unfold weights_dims, size in Pw. cbn in Pw. destruct (cv_kw c), (cv_kh c); try lia; exfalso; revert Pw; rewrite ?Nat.mul_0_r, ?Nat.mul_0_l, ?Nat.mul_0_r; lia. }
  destruct (conv_connected_ready K (fun _ => n0 K) c (d_width d) (d_height d) (d_maps d) b' Hb Pm (proj1 Pk) (proj2 Pk) Po Sw Sh
    (cr_group _ _ _ _ _ _ _ _ _ R) F1 F2 (cr_in_groups _ _ _ _ _ _ _ _ _ R) (cr_out_groups _ _ _ _ _ _ _ _ _ R)) as (st' & _ & R').
  exists st', (repeat (n0 K) (size (at_batch b' o))). split; [eauto|]. split; [|apply repeat_length].
  rewrite E, (cr_ow _ _ _ _ _ _ _ _ _ R), (cr_oh _ _ _ _ _ _ _ _ _ R), (cr_ow _ _ _ _ _ _ _ _ _ R'), (cr_oh _ _ _ _ _ _ _ _ _ R'). reflexivity.
Qed.

Lemma runs_any b b' ps l ins outs beh : 0 < b' -> runs b ps l ins outs beh -> exists beh', runs b' ps l ins outs beh'.
Proof.
  intros Hb H. destruct H;
    try (eexists; econstructor; eauto; try (apply (repeat_length (n0 K)); fail); try (apply (repeat_length 0%Z)); fail).
  destruct (convolves_any _ _ _ _ b' _ _ ps Hb H H2 H1) as (st' & old' & C). eexists. eapply runs_convolution; eauto.
  Unshelve. all: exact [].
Qed.
End Run.

(** Finitely many choices. *)
Lemma choose {A B} (P : nat -> A -> B -> Prop) (b0 : B) (l : list (nat * A)) : NoDup (map fst l) ->
  (forall p a, In (p, a) l -> exists b, P p a b) -> exists f, forall p a, In (p, a) l -> P p a (f p).
Proof.
  induction l as [|(q, c) l IH]; intros N H; [exists (fun _ => b0); contradiction|]. inversion N as [|? ? Nq N']; subst.
  destruct IH as (f & Hf); [exact N'|intros; apply H; now right|]. destruct (H q c) as (b & Hb); [now left|].
  exists (fun p => if p =? q then b else f p). intros p a [E|Hp].
  - injection E as <- <-. now rewrite Nat.eqb_refl.
  - destruct (Nat.eqb_spec p q) as [->|]; [|now apply Hf]. destruct Nq. apply in_map_iff. now exists (q, a).
Qed.

(** Batches of one painted sample. *)
Lemma paint_sized d p : 0 < sample_size d -> sized 1 d (paint d p).
Proof.
  intros P. split; [|cbn; auto]. split; [reflexivity|]. cbn [paint tensor_of data elements at_batch size d_samples d_maps d_height d_width]. unfold size. cbn [d_samples d_maps d_height d_width at_batch].
  rewrite map_length, seq_length. unfold sample_size in *. lia.
Qed.
Lemma paint_slot d p : slot_is (paint d p) 0 p.
Proof.
  intros x y m V. destruct V as (Hx & Hy & Hm & Hs). cbn in Hx, Hy, Hm, Hs.
  assert (P : 0 < sample_size d) by (unfold sample_size; repeat apply Nat.mul_pos_pos; lia).
  destruct (at_pos_some (paint d p) x y m 0 (proj1 (paint_sized d p P))) as (v & E); [now repeat split|]. rewrite E. f_equal.
  rewrite (at_pos_valid (paint d p) x y m 0 (elements_of (paint d p))) in E by (try reflexivity; now repeat split).
  rewrite <- (paint_at 0%Z d p x y m Hx Hy Hm). symmetry. apply nth_error_nth. rewrite <- E. f_equal.
  unfold place, offset. cbn. lia.
Qed.

(** Lemmas for C77. *)
From Coq Require Import Reals Lra.
From Verif Require Import Base BaseFacts Float32 Tensor_Model Tensor_Spec Tensor_Props DatasetInput_Model Dataset_Model Dataset_Spec Dataset_Proofs Dataset_Props
  Backprop_Spec Backprop_Proofs StreamStats_Model StreamStats_Spec.
From Verif Require Tensor_Proofs.
Local Open Scope nat_scope.
Local Open Scope list_scope.

Lemma rsum_below n W (f : nat -> R) : n <= W -> rsum (fun x => if x <? n then f x else 0%R) (seq 0 W) = rsum f (seq 0 n).
Proof.
  intros H. replace W with (n + (W - n)) by lia. rewrite seq_app, rsum_app. rewrite (rsum_ext _ f (seq 0 n)).
  - rewrite (rsum_zero _ (seq (0 + n) (W - n))); [lra|]. intros a Ha. apply in_seq in Ha. rewrite (proj2 (Nat.ltb_ge a n)) by lia. reflexivity.
  - intros a Ha. apply in_seq in Ha. now rewrite (proj2 (Nat.ltb_lt a n)) by lia.
Qed.

Section Stats.
Variable position : nat -> nat -> f32.
Variable error_function : nat -> nat -> nat -> nat -> f32.
Variable mul : f32 -> f32 -> f32.
Variable value : f32 -> R.

(** A run over pixels of known classes and weights. *)
Lemma count_run d o (k : nat * nat -> nat) (w : nat * nat -> f32) ps : forall cs cs',
  (forall p, In p ps -> pixel_maximum fgt f32_lowest (o_label o) (fst p) (snd p) 0 = Ok (k p) /\ get (o_weight o) (fst p) (snd p) 0 0 = Ok (w p) /\
     k p < length cs /\ k p < length (ds_class_weights d)) -> length cs' = length cs ->
  exists r r', foldm (count_pixel mul value d o) ps (cs, cs') = Ok (r, r') /\ length r = length cs /\ length r' = length cs /\
    (forall c, c < length cs -> nth c r 0%R = (nth c cs 0 + rsum (fun p => if k p =? c then value (w p) else 0) ps)%R) /\
    (forall c, c < length cs -> nth c r' 0%R = (nth c cs' 0 + rsum (fun p => if k p =? c then value (mul (w p) (nth c (ds_class_weights d) f32_zero)) else 0) ps)%R).
Proof.
  induction ps as [|p ps IH]; intros cs cs' H L.
  - exists cs, cs'. split; [reflexivity|]. split; [reflexivity|]. split; [exact L|]. cbn [rsum]. split; intros c _; lra.
  - destruct (H p (or_introl eq_refl)) as (Ek & Ew & Hk & Hk'). cbn [foldm]. unfold count_pixel at 1. rewrite Ek, Ew. cbn [bind fst snd].
    unfold load. destruct (nth_error cs (k p)) as [a|] eqn:Ea; [|apply nth_error_None in Ea; lia]. cbn [bind].
    destruct (nth_error (ds_class_weights d) (k p)) as [cw|] eqn:Ecw; [|apply nth_error_None in Ecw; lia]. cbn [bind].
    destruct (nth_error cs' (k p)) as [b|] eqn:Eb; [|apply nth_error_None in Eb; lia]. cbn [bind].
    destruct (IH (upd cs (k p) (a + value (w p))%R) (upd cs' (k p) (b + value (mul (w p) cw))%R)) as (r & r' & E & L1 & L2 & V1 & V2).
    + intros q Hq. rewrite upd_length. apply H. now right.
    + now rewrite !upd_length.
    + rewrite upd_length in L1, L2, V1, V2. exists r, r'. split; [exact E|]. split; [exact L1|]. split; [exact L2|]. cbn [rsum]. split; intros c Hc.
      * rewrite V1, nth_upd by exact Hc. rewrite (Nat.eqb_sym (k p) c). destruct (Nat.eqb_spec c (k p)) as [->|_]; cbn [andb]; [|lra].
        rewrite (proj2 (Nat.ltb_lt _ _) Hk). rewrite (nth_error_nth _ _ 0%R Ea). lra.
      * rewrite V2, nth_upd by exact Hc. rewrite (Nat.eqb_sym (k p) c). destruct (Nat.eqb_spec c (k p)) as [->|_]; cbn [andb]; [|lra].
        rewrite L, (proj2 (Nat.ltb_lt _ _) Hk). rewrite (nth_error_nth _ _ 0%R Eb), (nth_error_nth _ _ f32_zero Ecw). lra.
Qed.

Hypothesis zero_value : value f32_zero = 0%R.

(** One sample. *)
Lemma count_sample_ok d o i cs cs' img lab (cls : nat -> nat -> nat) :
  outputs_for d 1 o -> i < length (ds_training d) / 2 -> sample_is d (ds_training d) i img lab ->
  (forall x y, x < width img -> y < height img -> class_of lab x y (cls x y)) ->
  ds_label_maps d <= length cs -> length cs' = length cs -> ds_label_maps d <= length (ds_class_weights d) ->
  (forall cw, In cw (ds_class_weights d) -> value (mul f32_zero cw) = 0%R) ->
  let ef x y := error_function x y (width img) (height img) in
  let sum_of c f := rsum (fun y => rsum (fun x => if cls x y =? c then f x y (nth c (ds_class_weights d) f32_zero) else 0%R) (seq 0 (width img))) (seq 0 (height img)) in
  exists o' r r', count_sample position error_function mul value d (o, (cs, cs')) i = Ok (o', (r, r')) /\ outputs_for d 1 o' /\
    length r = length cs /\ length r' = length cs /\
    (forall c, c < length cs -> nth c r 0%R = (nth c cs 0 + sum_of c (fun x y cw => value (mul (ef x y) cw)))%R) /\
    (forall c, c < length cs -> nth c r' 0%R = (nth c cs' 0 + sum_of c (fun x y cw => value (mul (mul (ef x y) cw) cw)))%R).
Proof.
  intros Ho Hi Hs Hc Hcs Hcs' Hcw Hz ef sum_of. unfold count_sample. cbn [fst snd].
  destruct (C31_training_sample position error_function mul d 1 o 0 i img lab Ho) as (o' & E & Ho' & Sd & Sl & Sh & weights & Sw & Hw); auto.
  rewrite E. cbn [bind fst snd].
  destruct Hs as (Ei & El & Wi & Wl & Si & Sl' & Mi & Ml & Ewl & Ehl & Fw & Fh).
  pose proof Ho as (_ & (_ & Ls & Lw & Lh & Lm) & _ & (_ & Ws & Ww & Wh & Wm)).
  pose proof Ho' as (_ & (Lwf' & Ls' & Lw' & Lh' & Lm') & _ & (Wwf' & Ws' & Ww' & Wh' & Wm')).
  set (k := fun p : nat * nat => match pixel_maximum fgt f32_lowest (o_label o') (fst p) (snd p) 0 with Ok c => c | _ => 0 end).
  set (w := fun p : nat * nat => match at_pos (o_weight o') (fst p) (snd p) 0 0 with Some v => v | None => f32_zero end).
  assert (In_pos : forall p, In p (positions_of d) -> fst p < ds_width d /\ snd p < ds_height d).
  { intros p Hp. unfold positions_of in Hp. apply in_flat_map in Hp as (y & Hy & Hp). apply in_map_iff in Hp as (x & <- & Hx).
    apply in_seq in Hy, Hx. cbn. lia. }
  assert (Hk : forall p, In p (positions_of d) -> pixel_maximum fgt f32_lowest (o_label o') (fst p) (snd p) 0 = Ok (k p) /\ class_of (o_label o') (fst p) (snd p) (k p) /\ k p < ds_label_maps d).
  { intros p Hp. apply In_pos in Hp as (Hx & Hy). destruct (C06_pixel_maximum (o_label o') (fst p) (snd p) 0 Lwf') as (c & Ec & Fc); [lia..|].
    unfold k. rewrite Ec. split; [reflexivity|]. destruct (class_lt (o_label o') (fst p) (snd p) c Lwf') as (Cl & Lt); auto; try lia. split; [exact Cl|]. lia. }
  assert (Hv : forall p, In p (positions_of d) -> at_pos (o_weight o') (fst p) (snd p) 0 0 = Some (w p) /\ get (o_weight o') (fst p) (snd p) 0 0 = Ok (w p)).
  { intros p Hp. apply In_pos in Hp as (Hx & Hy). assert (Vp : valid_pos (o_weight o') (fst p) (snd p) 0 0) by (repeat split; lia).
    destruct (Tensor_Proofs.at_pos_some (o_weight o') (fst p) (snd p) 0 0 Wwf' Vp) as (v & Ev). unfold w. rewrite Ev. split; [reflexivity|].
    now apply Tensor_Proofs.at_pos_get. }
  destruct (count_run d o' k w (positions_of d) cs cs') as (r & r' & Er & L1 & L2 & V1 & V2); [|exact Hcs'|].
  { intros p Hp. destruct (Hk p Hp) as (K1 & _ & K3). destruct (Hv p Hp) as (_ & V). split; [exact K1|]. split; [exact V|]. lia. }
  rewrite Er. cbn [bind]. exists o', r, r'. split; [reflexivity|]. split; [exact Ho'|]. split; [exact L1|]. split; [exact L2|].
  assert (Key : forall c (f : f32 -> R), f f32_zero = 0%R -> c < length cs ->
    rsum (fun p => if k p =? c then f (w p) else 0%R) (positions_of d) = sum_of c (fun x y cw => f (mul (ef x y) cw))).
  { intros c f F0 Hlt. unfold positions_of. rewrite rsum_flat_map. unfold sum_of.
    rewrite <- (rsum_below (height img) (ds_height d)) by exact Fh. apply rsum_ext. intros y Hy. apply in_seq in Hy. rewrite rsum_map.
    destruct (Nat.ltb_spec y (height img)) as [Ly|Ly].
    - rewrite <- (rsum_below (width img) (ds_width d)) by exact Fw. apply rsum_ext. intros x Hx. apply in_seq in Hx.
      assert (Hin : In (x, y) (positions_of d)).
      { apply in_flat_map. exists y. split; [apply in_seq; lia|]. apply in_map_iff. exists x. split; [reflexivity|apply in_seq; lia]. }
      destruct (Hk _ Hin) as (_ & K2 & K3). destruct (Hv _ Hin) as (A & _). cbn [fst snd] in *.
      assert (Vw : valid_pos (o_weight o) x y 0 0) by (repeat split; lia).
      destruct Sw as (_ & _ & Sw). rewrite (Sw x y 0 0 Vw) in A. cbn [Nat.eqb] in A. rewrite (proj2 (Nat.ltb_lt y _) Ly), andb_true_r in A.
      destruct (Nat.ltb_spec x (width img)) as [Lx|Lx].
      + destruct (Hw x y Lx Ly) as (c0 & cw & Hc0 & Ecw & Ew). rewrite Ew in A. injection A as A.
        assert (Same : forall c1 c2, class_of lab x y c1 -> class_of lab x y c2 -> c1 = c2).
        { intros c1 c2 H1 H2. set (val := fun m => match at_pos lab x y m 0 with Some v => v | None => f32_zero end).
          assert (Hval : forall m, m < maps lab -> at_pos lab x y m 0 = Some (val m)).
          { intros m Hm. destruct (Tensor_Proofs.at_pos_some lab x y m 0 Wl) as [v Ev]; [repeat split; lia|]. unfold val. now rewrite Ev. }
          eapply C06_answer_unique; [apply (H1 val Hval)|apply (H2 val Hval)]. }
        assert (Kc : class_of lab x y (k (x, y))).
        { intros val Hval. rewrite Ml, <- Lm'. apply K2. rewrite Lm'. intros m Hm. destruct Sl as (_ & _ & Sl).
          rewrite (Sl x y m 0) by (repeat split; lia). cbn [Nat.eqb]. rewrite (proj2 (Nat.ltb_lt x _) Lx), (proj2 (Nat.ltb_lt y _) Ly). cbn [andb].
          apply Hval. lia. }
        rewrite (Same _ _ Kc (Hc x y Lx Ly)). destruct (Nat.eqb_spec (cls x y) c) as [Eq|_]; [|reflexivity].
        rewrite <- A. rewrite (Same _ _ Hc0 (Hc x y Lx Ly)), Eq in Ecw. now rewrite (nth_error_nth _ _ f32_zero Ecw).
      + injection A as A. rewrite <- A, F0. now destruct (_ =? _).
    - apply rsum_zero. intros x Hx. apply in_seq in Hx.
      assert (Hin : In (x, y) (positions_of d)).
      { apply in_flat_map. exists y. split; [apply in_seq; lia|]. apply in_map_iff. exists x. split; [reflexivity|apply in_seq; lia]. }
      destruct (Hv _ Hin) as (A & _). cbn [fst snd] in A. destruct Sw as (_ & _ & Sw).
      rewrite (Sw x y 0 0) in A by (repeat split; lia). cbn [Nat.eqb] in A. rewrite (proj2 (Nat.ltb_ge y _) Ly), andb_false_r in A.
      injection A as A. rewrite <- A, F0. now destruct (_ =? _). }
  split; intros c Hlt.
  - rewrite V1 by exact Hlt. now rewrite (Key c value zero_value Hlt).
  - rewrite V2 by exact Hlt. f_equal. destruct (Nat.lt_ge_cases c (length (ds_class_weights d))) as [Lc|Lc].
    + rewrite (Key c (fun v => value (mul v (nth c (ds_class_weights d) f32_zero)))); [reflexivity| |exact Hlt]. apply Hz. now apply nth_In.
    + rewrite rsum_zero; [symmetry|].
      * apply rsum_zero. intros y Hy. apply in_seq in Hy. apply rsum_zero. intros x Hx. apply in_seq in Hx.
        assert (cls x y < maps lab); [|destruct (Nat.eqb_spec (cls x y) c); [lia|reflexivity]].
        destruct (C06_pixel_maximum lab x y 0 Wl) as (c0 & Ec0 & F0); [lia..|]. destruct (class_lt lab x y c0) as (H1 & H2); auto; try lia.
        set (val := fun m => match at_pos lab x y m 0 with Some v => v | None => f32_zero end).
        assert (Hval : forall m, m < maps lab -> at_pos lab x y m 0 = Some (val m)).
        { intros m Hm. destruct (Tensor_Proofs.at_pos_some lab x y m 0 Wl) as [v Ev]; [repeat split; lia|]. unfold val. now rewrite Ev. }
        assert (cls x y = c0) by (eapply C06_answer_unique; [apply (Hc x y); [lia|lia|exact Hval]|apply (H1 val Hval)]). lia.
      * intros p Hp. destruct (Hk p Hp) as (_ & _ & K3). destruct (Nat.eqb_spec (k p) c); [lia|reflexivity].
Qed.

(** All samples. *)
Lemma count_samples d imgs labs cls : labelled d imgs labs cls -> ds_label_maps d <= length (ds_class_weights d) ->
  (forall cw, In cw (ds_class_weights d) -> value (mul f32_zero cw) = 0%R) ->
  forall is o cs cs', (forall i, In i is -> i < length (ds_training d) / 2) -> outputs_for d 1 o -> ds_label_maps d <= length cs -> length cs' = length cs ->
  let ef i x y := error_function x y (width (imgs i)) (height (imgs i)) in
  let sum_of c f := rsum (fun i => rsum (fun y => rsum (fun x => if cls i x y =? c then f i x y (nth c (ds_class_weights d) f32_zero) else 0%R) (seq 0 (width (imgs i)))) (seq 0 (height (imgs i)))) is in
  exists o' r r', foldm (count_sample position error_function mul value d) is (o, (cs, cs')) = Ok (o', (r, r')) /\
    length r = length cs /\ length r' = length cs /\
    (forall c, c < length cs -> nth c r 0%R = (nth c cs 0 + sum_of c (fun i x y cw => value (mul (ef i x y) cw)))%R) /\
    (forall c, c < length cs -> nth c r' 0%R = (nth c cs' 0 + sum_of c (fun i x y cw => value (mul (mul (ef i x y) cw) cw)))%R).
Proof.
  intros Hl Hcw Hz. induction is as [|i is IH]; intros o cs cs' Hi Ho Hcs Hcs' ef sum_of.
  - exists o, cs, cs'. split; [reflexivity|]. split; [reflexivity|]. split; [exact Hcs'|]. unfold sum_of. cbn [rsum]. split; intros; lra.
  - destruct (Hl i (Hi i (or_introl eq_refl))) as (Hs & Hc).
    destruct (count_sample_ok d o i cs cs' (imgs i) (labs i) (cls i) Ho (Hi i (or_introl eq_refl)) Hs Hc Hcs Hcs' Hcw Hz) as (o1 & r1 & r1' & E1 & Ho1 & L1 & L1' & V1 & V1').
    destruct (IH o1 r1 r1') as (o' & r & r' & E & L & L' & V & V'); [intros j Hj; apply Hi; now right|exact Ho1|lia|lia|].
    exists o', r, r'. cbn [foldm]. rewrite E1. cbn [bind]. split; [exact E|]. split; [lia|]. split; [lia|]. unfold sum_of. cbn [rsum]. split; intros c Hlt.
    + rewrite V by lia. rewrite V1 by lia. unfold ef. lra.
    + rewrite V' by lia. rewrite V1' by lia. unfold ef. lra.
Qed.
End Stats.

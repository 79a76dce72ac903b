(** C93: what an input layer made from the user's tensors gives the network. *)
From Verif Require Import Base BaseFacts Heap_Model Heap_Spec Heap_Proofs Heap_Props InputLayer_Model InputLayer_Spec InputLayer_Proofs.
Local Open Scope list_scope.

Section Input.
Variable D : Type.
Variable junk : nat -> D.
Variable page_size datum_size : nat.
Notation state := (Heap_Model.state D).
Notation step := (Heap_Model.step junk page_size datum_size).
Notation Inv st := (inv D (tensors st) (blocks st) (released st) []).
Notation new_input := (new_input junk page_size datum_size).
Notation new_input_labelled := (new_input_labelled junk page_size datum_size).
Notation create_outputs := (create_outputs junk page_size datum_size).

(** A tensor of the user: it exists and has memory. *)
Definition given (st : state) (u : nat) (h : handle) : Prop := is_tensor st u h /\ h_ptr h <> None.
(** The output [c] stands for the user's tensor [u]: its data shows it, its delta is new memory of the same shape. *)
Definition output_for (before st : state) (c : combined) (u : nat) (h : handle) : Prop :=
  shows st (fst c) u /\ own_memory before st (snd c) h /\ fst c <> snd c /\ length (tensors before) <= fst c /\ length (tensors before) <= snd c.

Lemma output_from (st st' : state) us hs n u h : Forall2 (is_tensor st) us hs -> kept st st' -> nth_error us n = Some u -> nth_error hs n = Some h ->
  is_tensor st' (length (tensors st) + 2 * n) (borrow empty_handle h) -> own_memory st st' (S (length (tensors st) + 2 * n)) h ->
  output_for st st' (length (tensors st) + 2 * n, S (length (tensors st) + 2 * n)) u h.
Proof.
  intros F (K & _) Eu Eh T O. destruct (forall2_left _ _ _ F _ _ Eu) as (h' & Eh' & Tu). assert (h' = h) by congruence. subst h'. unfold output_for. cbn [fst snd].
  split; [|split; [exact O|lia]]. exists (borrow empty_handle h), h. split; [exact T|]. split; [now apply K|]. unfold same_shape, borrow. cbn. auto 8.
Qed.
Lemma has_ptr (h : handle) : h_ptr h <> None -> exists a, h_ptr h = Some a.
Proof. destruct (h_ptr h); [eauto|congruence]. Qed.

(** From any history of tensor operations, and any two tensors with memory and equally many samples, the constructor gives a layer
    whose outputs show these tensors.  No tensor or memory there was changes, and the tensors are again in a state a history leads to. *)
Theorem C93_two ops st data helper hd hh : history step start ops st -> given st data hd -> given st helper hh -> h_samples hd = h_samples hh ->
  exists st' layer more, new_input st data helper = Ok (st', layer) /\ history step start (ops ++ more) st' /\ kept st st' /\
    output_for st st' (in_data layer) data hd /\ output_for st st' (in_helper layer) helper hh /\ in_label layer = None /\ in_weight layer = None /\
    in_data layer <> in_helper layer.
Proof.
  intros H (Td & Pd) (Th & Ph) S. pose proof (history_inv _ _ _ _ _ _ _ (inv_start D) H) as I.
  assert (F : Forall2 (is_tensor st) [data; helper] [hd; hh]) by auto.
  destruct (connect_ok D junk page_size datum_size st [data; helper] [hd; hh] I F) as (st' & ps & more & E & H' & I' & K & Lp & Np & O).
  - intros h [<-|[<-|[]]]; now apply has_ptr.
  - cbn. now rewrite S, Nat.eqb_refl.
  - destruct ps as [|p [|q [|]]]; try discriminate. pose proof (Np 0 ltac:(cbn; lia)) as N0. pose proof (Np 1 ltac:(cbn; lia)) as N1. cbn [nth_error] in N0, N1.
    assert (p = (length (tensors st) + 2 * 0, Datatypes.S (length (tensors st) + 2 * 0))) as -> by congruence. assert (q = (length (tensors st) + 2 * 1, Datatypes.S (length (tensors st) + 2 * 1))) as -> by congruence.
    exists st'. eexists. exists more. split; [unfold InputLayer_Model.new_input; rewrite E; reflexivity|]. split; [eapply history_app; eauto|]. split; [exact K|]. cbn [in_data in_helper in_label in_weight].
    split; [|split; [|split; [reflexivity|split; [reflexivity|intros X; injection X; lia]]]].
    + destruct (O 0 data hd eq_refl eq_refl). eapply output_from; eauto; reflexivity.
    + destruct (O 1 helper hh eq_refl eq_refl). eapply output_from; eauto; reflexivity.
Qed.
Theorem C93_four ops st data label helper weight hd hl hh hw : history step start ops st ->
  given st data hd -> given st label hl -> given st helper hh -> given st weight hw -> h_samples hd = h_samples hl -> h_samples hd = h_samples hh -> h_samples hd = h_samples hw ->
  exists st' layer more l w, new_input_labelled st data label helper weight = Ok (st', layer) /\ history step start (ops ++ more) st' /\ kept st st' /\
    in_label layer = Some l /\ in_weight layer = Some w /\
    output_for st st' (in_data layer) data hd /\ output_for st st' l label hl /\ output_for st st' (in_helper layer) helper hh /\ output_for st st' w weight hw /\
    NoDup [in_data layer; l; in_helper layer; w].
Proof.
  intros H (Td & Pd) (Tl & Pl) (Th & Ph) (Tw & Pw) S1 S2 S3. pose proof (history_inv _ _ _ _ _ _ _ (inv_start D) H) as I.
  assert (F : Forall2 (is_tensor st) [data; label; helper; weight] [hd; hl; hh; hw]) by auto 6.
  destruct (connect_ok D junk page_size datum_size st _ _ I F) as (st' & ps & more & E & H' & I' & K & Lp & Np & O).
  - intros h [<-|[<-|[<-|[<-|[]]]]]; now apply has_ptr.
  - cbn. now rewrite <- S1, <- S2, <- S3, Nat.eqb_refl.
  - destruct ps as [|p [|q [|r [|s [|]]]]]; try discriminate.
    pose proof (Np 0 ltac:(cbn; lia)) as N0. pose proof (Np 1 ltac:(cbn; lia)) as N1. pose proof (Np 2 ltac:(cbn; lia)) as N2. pose proof (Np 3 ltac:(cbn; lia)) as N3. cbn [nth_error] in N0, N1, N2, N3.
    set (k := length (tensors st)) in *.
    assert (p = (k + 2 * 0, Datatypes.S (k + 2 * 0))) as -> by congruence. assert (q = (k + 2 * 1, Datatypes.S (k + 2 * 1))) as -> by congruence.
    assert (r = (k + 2 * 2, Datatypes.S (k + 2 * 2))) as -> by congruence. assert (s = (k + 2 * 3, Datatypes.S (k + 2 * 3))) as -> by congruence.
    exists st'. eexists. exists more. do 2 eexists. split; [unfold InputLayer_Model.new_input_labelled; rewrite E; reflexivity|]. split; [eapply history_app; eauto|]. split; [exact K|]. cbn [in_data in_helper in_label in_weight].
    split; [reflexivity|]. split; [reflexivity|]. split; [|split; [|split; [|split]]].
    + destruct (O 0 data hd eq_refl eq_refl). eapply output_from; eauto; reflexivity.
    + destruct (O 1 label hl eq_refl eq_refl). eapply output_from; eauto; reflexivity.
    + destruct (O 2 helper hh eq_refl eq_refl). eapply output_from; eauto; reflexivity.
    + destruct (O 3 weight hw eq_refl eq_refl). eapply output_from; eauto; reflexivity.
    + repeat constructor; cbn [In]; intros X; repeat (destruct X as [X|X]; [injection X; lia|]); exact X.
Qed.
(** With only a data tensor, the layer makes a helper tensor of two maps with the samples, width and height of data. *)
Theorem C93_alone ops st data hd : history step start ops st -> given st data hd ->
  exists st' layer helper more, new_input_alone junk page_size datum_size st data = Ok (st', layer) /\ history step start (ops ++ more) st' /\ kept st st' /\
    shows st' (fst (in_data layer)) data /\ own_memory st st' (snd (in_data layer)) hd /\ in_label layer = None /\ in_weight layer = None /\
    own_memory st st' helper (of_shape (h_samples hd) (h_width hd) (h_height hd) 2) /\ shows st' (fst (in_helper layer)) helper /\
    own_memory st st' (snd (in_helper layer)) (of_shape (h_samples hd) (h_width hd) (h_height hd) 2).
Proof.
  intros H (Td & Pd). pose proof (history_inv _ _ _ _ _ _ _ (inv_start D) H) as I. pose proof (i_fits _ _ _ _ _ I _ _ Td) as Ft. unfold Heap_Proofs.fits in Ft.
  destruct (h_ptr hd) as [a|] eqn:Pa; [|tauto]. destruct Ft as (b & _ & _ & El & Pos & _).
  set (hh := of_shape (h_samples hd) (h_width hd) (h_height hd) 2).
  assert (P2 : 0 < h_samples hh * h_maps hh * h_width hh * h_height hh) by (cbn; rewrite El in Pos; destruct (h_samples hd), (h_width hd), (h_height hd); cbn in *; lia).
  pose proof (new_step D junk page_size datum_size st hh P2) as E1. set (f := fresh hh (length (blocks st))) in E1.
  match type of E1 with _ = Ok ?s => set (st1 := s) in E1 end.
  assert (H1 : history step start (ops ++ [New (h_samples hh) (h_width hh) (h_height hh) (h_maps hh)]) st1).
  { eapply history_app; [exact H|]. eapply history_cons; [exact Logic.I|exact E1|apply history_nil]. }
  assert (Tf : is_tensor st1 (length (tensors st)) f) by (unfold is_tensor, st1; cbn [tensors]; rewrite nth_error_app2, Nat.sub_diag by lia; reflexivity).
  assert (K1 : kept st st1).
  { unfold st1. split; [|split].
    - intros j k Hj. unfold is_tensor in *. cbn [tensors]. rewrite nth_error_app1; [exact Hj|]. apply nth_error_Some. congruence.
    - intros c x Hc. unfold contents in *. cbn [blocks]. rewrite nth_error_app1; [exact Hc|]. apply nth_error_Some. intros X. rewrite X in Hc. discriminate.
    - intros c (y & Hb & Lb). exists y. split; [|exact Lb]. cbn [blocks]. rewrite nth_error_app1; [exact Hb|]. apply nth_error_Some. congruence. }
  destruct (C93_two _ st1 data (length (tensors st)) hd f H1) as (st' & layer & more & E & H' & K & (Sd & Od & _) & (Sh & Oh & _) & Nl & Nw & _).
  - split; [now apply K1|congruence].
  - split; [exact Tf|discriminate].
  - reflexivity.
  - pose proof (kept_blocks _ _ _ K1) as Lb. exists st', layer, (length (tensors st)). eexists. split.
    + unfold InputLayer_Model.new_input_alone. rewrite (find_ok _ _ _ _ Td). cbn [bind]. change (h_samples hd) with (h_samples hh). change (h_width hd) with (h_width hh). change (h_height hd) with (h_height hh).
      change 2 with (h_maps hh). rewrite E1. exact E.
    + split; [rewrite app_assoc; exact H'|]. split; [eapply kept_trans; eauto|]. split; [exact Sd|]. split; [eapply own_before; eauto|]. split; [exact Nl|]. split; [exact Nw|]. split; [|split; [exact Sh|eapply own_before; eauto]].
      exists f, (length (blocks st)). split; [now apply K|]. split; [unfold same_shape; cbn; auto|]. auto.
Qed.
(** Any other number of samples is refused. *)
Theorem C93_samples (st : state) data label helper weight hd hl hh hw : is_tensor st data hd -> is_tensor st label hl -> is_tensor st helper hh -> is_tensor st weight hw ->
  (h_samples hd <> h_samples hh -> new_input st data helper = Fatal) /\
  (h_samples hd <> h_samples hl \/ h_samples hd <> h_samples hh \/ h_samples hd <> h_samples hw -> new_input_labelled st data label helper weight = Fatal).
Proof.
  intros Td Tl Th Tw. split.
  - intros N. unfold InputLayer_Model.new_input, connect. rewrite (find_all_ok D st [data; helper] [hd; hh]) by auto. cbn [bind same_samples forallb].
    destruct (Nat.eqb_spec (h_samples hd) (h_samples hh)); [congruence|]. reflexivity.
  - intros N. unfold InputLayer_Model.new_input_labelled, connect. rewrite (find_all_ok D st [data; label; helper; weight] [hd; hl; hh; hw]) by auto 6. cbn [bind same_samples forallb].
    destruct (Nat.eqb_spec (h_samples hd) (h_samples hl)); [|reflexivity]. destruct (Nat.eqb_spec (h_samples hd) (h_samples hh)); [|reflexivity].
    destruct (Nat.eqb_spec (h_samples hd) (h_samples hw)); [|reflexivity]. exfalso. destruct N as [N|[N|N]]; congruence.
Qed.

(** Whatever happens afterwards to other tensors and to the values, as long as neither of the two tensors is moved, destroyed, resized,
    redirected or remapped: the network finds at each element what the user's tensor holds there, and the other way round. *)
Theorem C93_live ops st more st' o u : history step start ops st -> shows st o u -> history step st more st' -> Forall (stays o) more -> Forall (stays u) more ->
  shows st' o u /\ forall e, element st' o e = element st' u e.
Proof.
  intros H (h & t & To & Tu & Sh & P & S) H' Fo Fu. pose proof (history_inv _ _ _ _ _ _ _ (inv_start D) H) as I.
  pose proof (history_live D junk page_size datum_size _ _ _ _ _ I H' To Fo) as To'. pose proof (history_live D junk page_size datum_size _ _ _ _ _ I H' Tu Fu) as Tu'.
  split; [exists h, t; auto 8|]. intros e. unfold element. rewrite (find_ok _ _ _ _ To'), (find_ok _ _ _ _ Tu'). cbn [bind]. unfold read. now rewrite P.
Qed.
(** A value the user writes is the value the network reads, at once, and the other elements stay. *)
Theorem C93_written ops st o u e v st' : history step start ops st -> shows st o u -> allowed st (Write u e v) -> step st (Write u e v) = Ok st' ->
  element st' o e = Ok v /\ forall e', e' <> e -> element st' o e' = element st o e'.
Proof.
  intros H (h & t & To & Tu & (_ & _ & _ & _ & El) & P & S) Al E.
  destruct (C07_write_shared D junk page_size datum_size _ _ _ _ _ _ _ _ _ H Al E Tu To P El) as [R R'].
  assert (To' : is_tensor st' o h).
  { apply (history_live D junk page_size datum_size st st' [Write u e v]); [eapply history_inv; [apply inv_start|exact H]|eapply history_cons; [exact Al|exact E|apply history_nil]|exact To|repeat constructor]. }
  unfold element. rewrite (find_ok _ _ _ _ To'), (find_ok _ _ _ _ To). cbn [bind]. auto.
Qed.

(** The outputs of the layer are data, label, helper and weight in this order.  A missing label is one value per sample, a missing
    weight has the shape of data, both new memory; a layer cannot have inputs. *)
Theorem C93_outputs ops st layer h : history step start ops st -> given st (fst (in_data layer)) h ->
  (forall n, n <> 0 -> create_outputs st layer n = Ok None) /\
  exists st' l w more, create_outputs st layer 0 = Ok (Some (st', [in_data layer; l; in_helper layer; w])) /\ history step start (ops ++ more) st' /\ kept st st' /\
    (match in_label layer with
     | Some c => l = c
     | None => own_memory st st' (fst l) (of_shape (h_samples h) 1 1 1) /\ own_memory st st' (snd l) (of_shape (h_samples h) 1 1 1) end) /\
    (match in_weight layer with Some c => w = c | None => own_memory st st' (fst w) h /\ own_memory st st' (snd w) h end).
Proof.
  intros H (T & P). split.
  { intros n N. unfold InputLayer_Model.create_outputs. destruct (Nat.eqb_spec n 0); [tauto|reflexivity]. }
  pose proof (history_inv _ _ _ _ _ _ _ (inv_start D) H) as I. pose proof (i_fits _ _ _ _ _ I _ _ T) as Ft. unfold Heap_Proofs.fits in Ft.
  destruct (h_ptr h) as [a|] eqn:Pa; [|tauto]. destruct Ft as (b & _ & _ & El & Pos & _).
  set (s1 := of_shape (h_samples h) 1 1 1). assert (Ps : 0 < h_elements s1) by (cbn; destruct (h_samples h); [cbn in El; lia|lia]).
  assert (L : exists st1 l m1, (match in_label layer with Some c => Ok (st, c) | None => st' <- run junk page_size datum_size (combined_ops s1) st ;; Ok (st', (length (tensors st), S (length (tensors st)))) end) = Ok (st1, l) /\
    history step start (ops ++ m1) st1 /\ kept st st1 /\ match in_label layer with Some c => l = c | None => own_memory st st1 (fst l) s1 /\ own_memory st st1 (snd l) s1 end).
  { destruct (in_label layer) as [c|].
    - exists st, c, []. rewrite app_nil_r. split; [reflexivity|]. split; [exact H|]. split; [apply kept_refl|reflexivity].
    - destruct (new_pair D junk page_size datum_size st s1 I Ps eq_refl) as (st1 & H1 & E1 & I1 & K1 & O1). rewrite E1. cbn [bind]. do 2 eexists. exists (combined_ops s1). split; [reflexivity|].
      split; [eapply history_app; eauto|]. split; [exact K1|exact O1]. }
  destruct L as (st1 & l & m1 & E1 & H1 & K1 & O1). pose proof (history_inv _ _ _ _ _ _ _ (inv_start D) H1) as I1.
  assert (W : exists st2 w m2, (match in_weight layer with Some c => Ok (st1, c) | None => st' <- run junk page_size datum_size (combined_ops h) st1 ;; Ok (st', (length (tensors st1), S (length (tensors st1)))) end) = Ok (st2, w) /\
    history step start ((ops ++ m1) ++ m2) st2 /\ kept st1 st2 /\ match in_weight layer with Some c => w = c | None => own_memory st1 st2 (fst w) h /\ own_memory st1 st2 (snd w) h end).
  { destruct (in_weight layer) as [c|].
    - exists st1, c, []. rewrite app_nil_r. split; [reflexivity|]. split; [exact H1|]. split; [apply kept_refl|reflexivity].
    - destruct (new_pair D junk page_size datum_size st1 h I1 Pos El) as (st2 & H2 & E2 & I2 & K2 & O2). rewrite E2. cbn [bind]. do 2 eexists. exists (combined_ops h). split; [reflexivity|].
      split; [eapply history_app; eauto|]. split; [exact K2|exact O2]. }
  destruct W as (st2 & w & m2 & E2 & H2 & K2 & O2). exists st2, l, w, (m1 ++ m2). split.
  - unfold InputLayer_Model.create_outputs. cbn [Nat.eqb negb]. rewrite (find_ok _ _ _ _ T). cbn [bind]. unfold combined_ops, s1, of_shape in E1, E2. cbn [h_samples h_width h_height h_maps] in E1, E2.
    cbv beta zeta. lazymatch goal with |- bind ?y _ = _ => assert (X : y = Ok (st1, l)) by exact E1; rewrite X end. cbn [bind fst snd].
    lazymatch goal with |- bind ?y _ = _ => assert (Y : y = Ok (st2, w)) by exact E2; rewrite Y end. reflexivity.
  - split; [now rewrite app_assoc|]. split; [eapply kept_trans; eauto|]. pose proof (kept_blocks _ _ _ K1) as Lb. split.
    + destruct (in_label layer); [exact O1|]. destruct O1. split; eapply own_kept; eauto.
    + destruct (in_weight layer); [exact O2|]. destruct O2. split; eapply own_before; eauto.
Qed.
End Input.

(** The hypotheses are met: two samples of two values each, a helper, and a value written later. *)
Notation run4 := (run (fun n => n) 4096 4).
Definition user_ops : list (op nat) := [New 2 2 1 1; New 2 1 1 3; Write 0 1 7].
Example C93_case : exists st st' layer st'', run4 user_ops start = Ok st /\ history (step (fun n => n) 4096 4) start user_ops st /\
  (exists hd hh, given nat st 0 hd /\ given nat st 1 hh /\ h_samples hd = h_samples hh) /\
  new_input (fun n => n) 4096 4 st 0 1 = Ok (st', layer) /\ in_data layer = (2, 3) /\ element st' 2 1 = Ok 7 /\
  step (fun n => n) 4096 4 st' (Write 0 3 9) = Ok st'' /\ element st'' 2 3 = Ok 9.
Proof.
  eexists _, _, _, _. split; [vm_compute; reflexivity|]. split.
  - eapply history_cons; [exact I|vm_compute; reflexivity|]. eapply history_cons; [exact I|vm_compute; reflexivity|]. eapply history_cons; [|vm_compute; reflexivity|apply history_nil].
    do 3 eexists. split; [reflexivity|]. split; [eexists _, 0; split; [reflexivity|]; eexists; split; [reflexivity|split; reflexivity]|]. split; [cbn; lia|]. split; [reflexivity|]. split; reflexivity.
  - split; [do 2 eexists; split; [split; [reflexivity|discriminate]|]; split; [split; [reflexivity|discriminate]|reflexivity]|].
    split; [vm_compute; reflexivity|]. split; [reflexivity|]. split; [vm_compute; reflexivity|]. split; vm_compute; reflexivity.
Qed.
(** Finding: the layer does not notice when the user's tensor gets another size: the network then reads released memory. *)
Theorem C93_resized_refuted : exists (ops : list (op nat)) st st' layer st'', ops = [New 2 2 1 1; New 2 1 1 2] /\ run4 ops start = Ok st /\
  new_input (fun n => n) 4096 4 st 0 1 = Ok (st', layer) /\ element st' (fst (in_data layer)) 0 = element st' 0 0 /\
  run4 [Resize 0 2 3 1 1] st' = Ok st'' /\ (exists v, element st'' 0 0 = Ok v) /\ element st'' (fst (in_data layer)) 0 = UB.
Proof.
  eexists _, _, _, _, _. split; [reflexivity|]. split; [vm_compute; reflexivity|]. split; [vm_compute; reflexivity|]. split; [vm_compute; reflexivity|].
  split; [vm_compute; reflexivity|]. split; [eexists; vm_compute; reflexivity|vm_compute; reflexivity].
Qed.
(** Finding: the constructor with only a data tensor makes a helper tensor that nobody fills: whatever was in that memory is what
    the network gets as spatial information.  The same holds for the label and the weight that the layer makes up. *)
Theorem C93_alone_refuted (junk : nat -> nat) : exists st st' layer st'' l w, run junk 4096 4 [New 1 2 1 1; Write 0 0 5; Write 0 1 6] start = Ok st /\
  new_input_alone junk 4096 4 st 0 = Ok (st', layer) /\ element st' (fst (in_data layer)) 0 = Ok 5 /\ element st' (fst (in_data layer)) 1 = Ok 6 /\
  (forall e, e < 4 -> element st' (fst (in_helper layer)) e = Ok (junk e)) /\
  create_outputs junk 4096 4 st' layer 0 = Ok (Some (st'', [in_data layer; l; in_helper layer; w])) /\
  element st'' (fst l) 0 = Ok (junk 0) /\ (forall e, e < 2 -> element st'' (fst w) e = Ok (junk e)).
Proof.
  eexists _, _, _, _, _, _. split; [vm_compute; reflexivity|]. split; [vm_compute; reflexivity|]. split; [reflexivity|]. split; [reflexivity|].
  split; [intros e He; do 4 (destruct e as [|e]; [reflexivity|]); lia|]. split; [vm_compute; reflexivity|]. split; [reflexivity|].
  intros e He. do 2 (destruct e as [|e]; [reflexivity|]). lia.
Qed.

Print Assumptions C93_two.
Print Assumptions C93_four.
Print Assumptions C93_alone.
Print Assumptions C93_samples.
Print Assumptions C93_live.
Print Assumptions C93_written.
Print Assumptions C93_outputs.
Print Assumptions C93_resized_refuted.
Print Assumptions C93_alone_refuted.

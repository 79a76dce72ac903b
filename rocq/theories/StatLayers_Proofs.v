From Coq Require Import Permutation.
From Verif Require Import Base BaseFacts LoopFacts Float32 Tensor_Model Tensor_Spec Tensor_Proofs Tensor_Props Num Math_Spec Math_Proofs Conv_Proofs
  Act_Model Act_Proofs StatLayers_Model StatLayers_Spec.

Lemma foldm_prefix {A S} (f : S -> A -> res S) (P : list A -> S -> Prop) l :
  (forall before x after s, l = before ++ x :: after -> P before s -> exists s', f s x = Ok s' /\ P (before ++ [x]) s') ->
  forall s, P [] s -> exists s', foldm f l s = Ok s' /\ P l s'.
Proof.
  intros H. assert (G : forall after before s, l = before ++ after -> P before s -> exists s', foldm f after s = Ok s' /\ P l s').
  { induction after as [|x after IH]; intros before s E Hp.
    - rewrite app_nil_r in E. subst. cbn. eauto.
    - destruct (H before x after s E Hp) as (s1 & E1 & H1). cbn. rewrite E1. cbn.
      apply (IH (before ++ [x])); [|exact H1]. now rewrite <- app_assoc. }
  intros s Hs. apply (G l [] s); auto.
Qed.
Lemma foldm_map {A B S} (f : S -> B -> res S) (g : A -> B) l s : foldm f (map g l) s = foldm (fun s a => f s (g a)) l s.
Proof. revert s. induction l as [|a l IH]; intros s; cbn; [reflexivity|]. destruct (f s (g a)); cbn; auto. Qed.
Lemma foldm_ext {A S} (f g : S -> A -> res S) l s : (forall s a, In a l -> f s a = g s a) -> foldm f l s = foldm g l s.
Proof.
  revert s. induction l as [|a l IH]; intros s H; cbn; [reflexivity|]. rewrite H by now left. destruct (g s a); cbn; auto.
  apply IH. intros. apply H. now right.
Qed.
Lemma for_map_map {A B} (g : A -> B) n (f : nat -> list A) : map g (for_ n f) = for_ n (fun i => map g (f i)).
Proof. unfold for_. induction (seq 0 n) as [|i l IH]; cbn; [reflexivity|]. now rewrite map_app, IH. Qed.

Section CM.
Context {W : Type} (K : num W) (wide : f32 -> W).

Lemma total_app sel px q : total K sel (px ++ [q]) = if sel q then nadd K (total K sel px) (weight_of q) else total K sel px.
Proof.
  unfold total. rewrite filter_app, map_app, fold_left_app. cbn. destruct (sel q); reflexivity.
Qed.
Lemma store_with_ok {D} (comb : D -> D -> D) l a v old : nth_error l a = Some old ->
  exists l', store_with comb l a v = Ok l' /\ length l' = length l /\ nth_error l' a = Some (comb old v) /\ forall b, b <> a -> nth_error l' b = nth_error l b.
Proof.
  intros H. unfold store_with. rewrite H. eexists. split; [reflexivity|]. assert (a < length l) by (apply nth_error_Some; congruence).
  split; [apply upd_length|]. split; [rewrite nth_error_upd, Nat.eqb_refl; now apply Nat.ltb_lt in H0 as ->|].
  intros b Hb. rewrite nth_error_upd. destruct (Nat.eqb_spec a b); [congruence|reflexivity].
Qed.

Lemma cm_pixel_counts st px p a w : p < cm_classes st -> a < cm_classes st -> counts K st px ->
  exists st', cm_pixel K st p a w = Ok st' /\ counts K st' (px ++ [(p, a, w)]) /\ cm_classes st' = cm_classes st /\ cm_disabled st' = cm_disabled st.
Proof.
  intros Hp Ha (M & P & Em & Lm & Lp & HM & HP & Ht & Hr). unfold cm_pixel. rewrite Em.
  destruct (store_with_ok (nadd K) M (p * cm_classes st + a) w _ (HM p a Hp Ha)) as (M' & EM & LM' & VM & OM). rewrite EM. cbn [bind].
  destruct (store_with_ok (nadd K) P a w _ (HP a Ha)) as (P' & EP & LP' & VP & OP). rewrite EP. cbn [bind].
  eexists. split; [reflexivity|]. split; [|split; reflexivity]. exists M', P'. cbn [cm_memory cm_classes cm_total cm_right].
  split; [reflexivity|]. split; [lia|]. split; [lia|]. split; [|split; [|split]].
  - intros p' a' Hp' Ha'. rewrite total_app. unfold is_entry at 1, given, actual. cbn [fst snd].
    destruct (Nat.eqb_spec p p') as [->|N]; [destruct (Nat.eqb_spec a a') as [->|N]|]; cbn [andb].
    + exact VM.
    + rewrite OM; [now apply HM|]. lia.
    + rewrite OM; [now apply HM|]. intros E. apply N. symmetry. apply (mix_inj p' p a' a (cm_classes st)); auto.
  - intros a' Ha'. rewrite total_app. unfold is_actual at 1, actual. cbn [fst snd].
    destruct (Nat.eqb_spec a a') as [->|N]; [exact VP|]. rewrite OP by congruence. now apply HP.
  - rewrite total_app. cbn. now rewrite Ht.
  - rewrite total_app. unfold is_right at 1, given, actual. cbn [fst snd]. now rewrite Hr.
Qed.

Lemma cm_reset_counts st : (exists m p, cm_memory st = Some (m, p) /\ length m = cm_classes st * cm_classes st /\ length p = cm_classes st) ->
  exists st', cm_reset K st = Ok st' /\ counts K st' [] /\ cm_classes st' = cm_classes st /\ cm_disabled st' = cm_disabled st.
Proof.
  intros (m & p & E & Lm & Lp). unfold cm_reset. rewrite E.
  assert (Z : forall n (l : list W), length l = n -> exists l', exec (for_ n (fun c => [(c, Ok (n0 K))])) l = Ok l' /\ length l' = n /\
    forall i, i < n -> nth_error l' i = Some (n0 K)).
  { intros n l Hl. destruct (exec_with_total overwrite (ops := for_ n (fun c => [(c, Ok (n0 K))])) (l := l)) as (l' & E' & L').
    - intros a rv Hin. apply in_for in Hin as (i & Hi & [X|[]]). injection X as <- <-. split; [lia|eauto].
    - exists l'. split; [exact E'|]. split; [lia|]. intros i Hi. rewrite (exec_with_nth E' i), vals_at_for.
      destruct (nth_error_lt l (a := i)) as [old ->]; [lia|]. cbn [option_map]. rewrite (for_single _ n i Hi).
      + rewrite vals_at_one, Nat.eqb_refl. reflexivity.
      + intros j Hj Hne. rewrite vals_at_one. destruct (Nat.eqb_spec j i); [congruence|reflexivity]. }
  destruct (Z _ m Lm) as (m' & E1 & L1 & V1), (Z _ p Lp) as (p' & E2 & L2 & V2). rewrite E1. cbn [bind]. rewrite E2. cbn [bind].
  eexists. split; [reflexivity|]. split; [|split; reflexivity]. exists m', p'. cbn [cm_memory cm_classes cm_total cm_right].
  repeat match goal with |- _ /\ _ => split end; auto.
  intros q a Hq Ha. apply V1. now apply mix_lt.
Qed.

Lemma first_largest_lt n val start r : 0 < n -> first_largest n val start r -> r < n.
Proof. intros Hn [[-> _]|[H _]]; auto. Qed.

Lemma cm_forward_counts first second third st px : batch_ok (cm_classes st) first second third -> cm_disabled st = false -> counts K st px ->
  exists new st', batch_pixels wide first second third new /\ Forall (fun q => given q < cm_classes st /\ actual q < cm_classes st) new /\
    cm_forward K wide first second third st = Ok st' /\
    counts K st' (px ++ new) /\ cm_classes st' = cm_classes st /\ cm_disabled st' = false.
Proof.
  intros (W1 & W2 & W3 & M1 & M2 & M3 & (S1 & S2 & S3 & S4) & T1 & T2 & T3) Hd Hc.
  destruct (contents_exists 0%Z first W1) as [out Co], (contents_exists 0%Z second W2) as [lab Cl], (contents_exists 0%Z third W3) as [wgt Cw].
  set (pm := fun (t : tensor f32) x y s => match pixel_maximum fgt f32_lowest t x y s with Ok r => r | _ => 0 end).
  assert (Pm : forall t img x y s, wf t -> contents t img -> x < width t -> y < height t -> s < samples t ->
    pixel_maximum fgt f32_lowest t x y s = Ok (pm t x y s) /\ first_largest (maps t) (fun m => img x y m s) f32_lowest (pm t x y s)).
  { intros t img x y s Wt Ct Hx Hy Hs. destruct (C06_pixel_maximum t x y s Wt Hx Hy Hs) as (r & E & F). unfold pm. rewrite E. split; [reflexivity|].
    apply F. intros m Hm. apply Ct. now repeat split. }
  set (new := for_ (samples first) (fun s => for_ (height first) (fun y => for_ (width first) (fun x =>
           [(pm first x y s, pm second x y s, wide (wgt x y 0 s))])))).
  assert (Vp : forall s y x, In (s, y, x) (for_ (samples first) (fun s => for_ (height first) (fun y => for_ (width first) (fun x => [(s, y, x)])))) ->
    s < samples first /\ y < height first /\ x < width first).
  { intros s y x Hin. apply in_for in Hin as (s' & Hs & Hin). apply in_for in Hin as (y' & Hy & Hin). apply in_for in Hin as (x' & Hx & [E|[]]).
    injection E as -> -> ->. auto. }
  assert (Rng : forall s y x, s < samples first -> y < height first -> x < width first ->
    pm first x y s < cm_classes st /\ pm second x y s < cm_classes st).
  { intros s y x Hs Hy Hx. destruct (Pm first out x y s) as [_ F1]; auto. destruct (Pm second lab x y s) as [_ F2]; auto; try congruence.
    apply first_largest_lt in F1; [|lia]. apply first_largest_lt in F2; [|lia]. lia. }
  assert (Hst : exists st', cm_forward K wide first second third st = Ok st' /\
    (counts K st' (px ++ new) /\ cm_classes st' = cm_classes st /\ cm_disabled st' = false)).
  { unfold cm_forward. rewrite Hd. set (pos := for_ (samples first) (fun s => for_ (height first) (fun y => for_ (width first) (fun x => [(s, y, x)])))) in *.
    assert (En : new = map (fun p => let '(s, y, x) := p in (pm first x y s, pm second x y s, wide (wgt x y 0 s))) pos).
    { unfold new, pos. rewrite for_map_map. apply for_ext. intros s _. rewrite for_map_map. apply for_ext. intros y _. rewrite for_map_map.
      apply for_ext. intros x _. reflexivity. }
    rewrite En. clear En.
    apply (foldm_prefix _ (fun before st' => counts K st' (px ++ map (fun p => let '(s, y, x) := p in (pm first x y s, pm second x y s, wide (wgt x y 0 s))) before) /\
      cm_classes st' = cm_classes st /\ cm_disabled st' = false)); [|now rewrite app_nil_r].
    intros before [[s y] x] after st1 Epos (C1 & C2 & C3). destruct (Vp s y x) as (Hs & Hy & Hx); [rewrite Epos; apply in_elt|].
    destruct (Pm first out x y s) as [-> _]; auto. destruct (Pm second lab x y s) as [-> _]; auto; try congruence. cbn [bind].
    rewrite (contents_get third wgt x y 0 s Cw) by (repeat split; congruence). cbn [bind].
    destruct (Rng s y x Hs Hy Hx) as [R1 R2]. rewrite <- C2 in R1, R2.
    destruct (cm_pixel_counts st1 _ (pm first x y s) (pm second x y s) (wide (wgt x y 0 s)) R1 R2 C1) as (st2 & E2 & C & Cc & Cd).
    exists st2. split; [exact E2|]. rewrite map_app, app_assoc. cbn [map]. split; [exact C|]. split; congruence. }
  destruct Hst as (st' & E & C & Cc & Cd). exists new, st'. split; [|split; [|auto]].
  - exists out, lab, wgt, (pm first), (pm second). split; [exact Co|]. split; [exact Cl|]. split; [exact Cw|]. split; [|reflexivity].
    intros x y s Hx Hy Hs. split; [now apply (Pm first out)|apply (Pm second lab); auto; congruence].
  - apply Forall_forall. intros q Hin. apply in_for in Hin as (s & Hs & Hin). apply in_for in Hin as (y & Hy & Hin).
    apply in_for in Hin as (x & Hx & [<-|[]]). cbn. now apply Rng.
Qed.

Definition in_range classes (px : list (pixel W)) : Prop := Forall (fun q => given q < classes /\ actual q < classes) px.
Lemma cm_run_counts calls st px : calls_ok (cm_classes st) calls -> counts K st px -> in_range (cm_classes st) px ->
  exists st' d px', cm_run K wide calls st = Ok st' /\ seen wide (cm_disabled st) px calls d px' /\ counts K st' px' /\
    in_range (cm_classes st) px' /\ cm_classes st' = cm_classes st.
Proof.
  revert st px. induction calls as [|c calls IH]; intros st px Hok Hc Hr.
  - exists st, (cm_disabled st), px. repeat split; auto; try constructor.
  - assert (Hok' : calls_ok (cm_classes st) calls) by (intros f s t Hin; apply Hok; now right).
    unfold cm_run in *. cbn [foldm]. destruct c as [f s t| |b]; cbn [cm_call].
    + destruct (cm_disabled st) eqn:Ed.
      * unfold cm_forward at 1. rewrite Ed. cbn [bind]. destruct (IH st px Hok' Hc Hr) as (st' & d & px' & A & B & C). rewrite Ed in B.
        exists st', d, px'. split; [exact A|]. split; [now constructor|exact C].
      * destruct (cm_forward_counts f s t st px) as (new & st1 & Hb & Hn & E1 & C1 & Cc & Cd); auto. { apply Hok. now left. }
        rewrite E1. cbn [bind]. destruct (IH st1 (px ++ new)) as (st' & d & px' & A & B & C & D & E); try rewrite Cc; auto.
        { apply Forall_app. split; auto. }
        rewrite Cd in B. rewrite Cc in D, E. exists st', d, px'. split; [exact A|]. split; [now apply seen_batch with new|auto].
    + destruct Hc as (M & P & Em & Lm & Lp & _). destruct (cm_reset_counts st) as (st1 & E1 & C1 & Cc & Cd); eauto.
      rewrite E1. cbn [bind]. destruct (IH st1 []) as (st' & d & px' & A & B & C & D & E); try rewrite Cc; auto. { constructor. }
      rewrite Cc in D, E. rewrite Cd in B. exists st', d, px'. split; [exact A|]. split; [now constructor|auto].
    + cbn [bind]. destruct (IH (cm_set_disabled b st) px) as (st' & d & px' & A & B & C); auto.
      exists st', d, px'. split; [exact A|]. split; [now constructor|exact C].
Qed.

Lemma cm_connect_counts junk st : exists st', cm_connect K junk st = Ok st' /\ counts K st' [] /\ cm_classes st' = cm_classes st /\ cm_disabled st' = cm_disabled st.
Proof. unfold cm_connect. edestruct cm_reset_counts as (st' & A & B & C & D); [|exists st'; eauto]. cbn. eexists _, _. split; [reflexivity|]. rewrite !map_length, !seq_length. auto. Qed.

(** Exact arithmetic. *)
Context (HK : ring_laws K).
Lemma total_cons sel q px : total K sel (q :: px) = nadd K (if sel q then weight_of q else n0 K) (total K sel px).
Proof.
  destruct (rl_ring K HK) as [A0 AC AA M0 MC MA MD S0 O0]. unfold total. cbn [filter map]. destruct (sel q); cbn [map fold_left].
  - rewrite (fold_nadd K HK). now rewrite A0.
  - now rewrite A0.
Qed.
Lemma total_perm sel px px' : Permutation px px' -> total K sel px = total K sel px'.
Proof.
  destruct (rl_ring K HK) as [A0 AC AA M0 MC MA MD S0 O0].
  intros H. induction H as [|q l l' H IH|q r l|l l' l'' H1 IH1 H2 IH2]; [reflexivity| | |congruence].
  - rewrite !total_cons. now rewrite IH.
  - rewrite !total_cons, !AA. now rewrite (AC (if sel r then _ else _)).
Qed.
Lemma total_split (f : pixel W -> nat) n sel px : Forall (fun q => sel q = true -> f q < n) px ->
  nsum K n (fun i => total K (fun q => sel q && (f q =? i)) px) = total K sel px.
Proof.
  destruct (rl_ring K HK) as [A0 AC AA M0 MC MA MD S0 O0].
  intros H. induction H as [|q px Hq H IH].
  - unfold total. cbn. now apply (nsum_zero K HK).
  - rewrite total_cons, <- IH.
    rewrite (nsum_ext K n _ (fun i => nadd K (if sel q && (f q =? i) then weight_of q else n0 K) (total K (fun q => sel q && (f q =? i)) px)))
      by (intros; now rewrite total_cons).
    rewrite (nsum_add K HK). f_equal. destruct (sel q) eqn:Es; cbn [andb].
    + rewrite (nsum_single K HK n (f q)); [now rewrite Nat.eqb_refl|auto|].
      intros i Hi Hne. destruct (Nat.eqb_spec (f q) i); [congruence|reflexivity].
    + now apply (nsum_zero K HK).
Qed.
End CM.

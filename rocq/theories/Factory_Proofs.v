(** Proofs about [Factory_Model]. *)
From Coq Require Import Ascii String List Relations Permutation.
From Verif Require Import Base BaseFacts Str_Model Str_Proofs Config_Model Graph_Model Graph_Spec Graph_Proofs GraphAdd_Proofs
  Receptive_Model Factory_Model Factory_Spec.
Local Open Scope string_scope.
Local Open Scope list_scope.
Local Open Scope nat_scope.

(** ** Adding a new node *)
Lemma app_lt {X} (h : list X) y x : x < length h -> nth_error (h ++ [y]) x = nth_error h x.
Proof. intros H. now apply nth_error_app1. Qed.
Lemma app_at {X} (h : list X) y : nth_error (h ++ [y]) (length h) = Some y.
Proof. rewrite nth_error_app2, Nat.sub_diag; [reflexivity|lia]. Qed.

Lemma filter_never {X} (f : X -> bool) l : (forall x, In x l -> f x = false) -> filter f l = [].
Proof. induction l as [|x l IH]; intros H; [reflexivity|]. cbn [filter]. rewrite (H x (or_introl eq_refl)). apply IH. intros y Hy. apply H. now right. Qed.

Lemma inside_lt g c : healthy g -> inside g c -> exists q, c_node c = Some q /\ In q (nodes g) /\ q < length (heap g).
Proof.
  intros _ (q & m & E & Hq & Em & _). exists q. split; [exact E|]. split; [exact Hq|]. apply nth_error_Some. congruence.
Qed.

Lemma settled_app h nd c q : c_node c = Some q -> q < length h -> settled (h ++ [nd]) c = settled h c.
Proof. intros E H. unfold settled. rewrite E. unfold is_input_at. now rewrite app_lt. Qed.

(** What a new node does to the network. *)
Record grew (g g' : graph) (k : layer_kind) (cs : list connection) (bufs : nat) (out : bool) : Prop := mkGrew {
  gr_healthy : healthy g';
  gr_nodes : nodes g' = nodes g ++ [length (heap g)];
  gr_same : forall n m, nth_error (heap g) n = Some m -> exists m', nth_error (heap g') n = Some m' /\ same_node m m';
  gr_length : length (heap g') = S (length (heap g));
  gr_node : exists nd, nth_error (heap g') (length (heap g)) = Some nd /\ n_layer nd = Some k /\
     n_inputs nd = map (settled (heap g)) cs /\ n_buffers nd = bufs /\ n_is_output nd = out /\ n_is_input nd = false /\
     n_name nd = auto_name (next_uid g);
  gr_outputs : output_nodes g' = if out then output_nodes g ++ [length (heap g)] else output_nodes g;
  gr_losses : loss_nodes g' = if k_loss k then loss_nodes g ++ [length (heap g)] else loss_nodes g;
  gr_inputs : input_nodes g' = input_nodes g;
  gr_stats : stat_nodes g' = if k_stat k then stat_nodes g ++ [length (heap g)] else stat_nodes g;
  gr_training : training_nodes g' = if k_training k then training_nodes g ++ [length (heap g)] else training_nodes g }.

Lemma fresh_spec g k cs bufs out : healthy g -> Forall (inside g) cs ->
  exists g', add_node (with_heap g (heap g ++ [mkNode (Some k) cs [] bufs "" out false])) (Some (length (heap g))) = Ok g' /\
    grew g g' k cs bufs out.
Proof.
  intros Hg Hcs. set (nd := mkNode (Some k) cs [] bufs "" out false). set (p := length (heap g)).
  set (h := heap g ++ [nd]). set (g1 := with_heap g h).
  assert (Hin : forall c, In c cs -> exists q, c_node c = Some q /\ In q (nodes g) /\ q < p).
  { intros c Hc. apply inside_lt; [exact Hg|]. rewrite Forall_forall in Hcs. now apply Hcs. }
  destruct Hg as [S Ac Fn].
  assert (Hnodes : forall n, In n (nodes g) -> n < p).
  { intros n Hn. destruct (sound_closed g S n Hn) as (m & Em & _). apply nth_error_Some. congruence. }
  destruct (add_node_spec g1 p nd k) as (h2 & E & L & X).
  { apply app_at. } { reflexivity. }
  { intros c Hc _. destruct (Hin c Hc) as (q & Eq & _ & Hl). exists q. split; [exact Eq|]. cbn [g1 with_heap heap h].
    unfold h. rewrite app_length. fold p. lia. }
  cbn [nd n_is_input n_is_output n_name String.eqb] in E. rewrite E. eexists. split; [reflexivity|].
  cbn [g1 with_heap heap nodes next_uid] in X, L. cbn [g1 with_heap heap nodes input_nodes output_nodes stat_nodes loss_nodes training_nodes next_uid].
  set (g' := mkGraph _ _ _ _ _ _ _ _).
  assert (Ein : inputs_at h p = cs) by (unfold inputs_at, h, p; now rewrite app_at).
  assert (Hset : forall c, In c cs -> settled h c = settled (heap g) c).
  { intros c Hc. destruct (Hin c Hc) as (q & Eq & _ & Hl). now apply (settled_app _ _ _ q). }
  assert (Emap : map (settled h) cs = map (settled (heap g)) cs) by (apply map_ext_in; exact Hset).
  assert (Ep : nth_error h2 p = Some (added h p (next_uid g) p nd)).
  { rewrite X. unfold h, p. now rewrite app_at. }
  assert (Eold : forall x, x < p -> nth_error h2 x = option_map (added h p (next_uid g) x) (nth_error (heap g) x)).
  { intros x Hx. rewrite X. unfold h. now rewrite app_lt. }
  assert (Lh : length h2 = Datatypes.S p) by (rewrite L; unfold h; rewrite app_length; cbn [length]; fold p; lia).
  assert (Inp : forall x m, x < p -> nth_error (heap g) x = Some m -> exists m', nth_error h2 x = Some m' /\ same_node m m' /\
     n_backprop m' = n_backprop m ++ asks h x p cs).
  { intros x m Hx Em. rewrite (Eold x Hx), Em. cbn [option_map]. eexists. split; [reflexivity|].
    unfold added, same_node. cbn [n_layer n_inputs n_buffers n_name n_is_output n_is_input n_backprop].
    assert (Ne : (x =? p) = false) by (apply Nat.eqb_neq; lia). rewrite Ne, Ein. cbn [andb]. repeat split; reflexivity. }
  assert (Reads : forall x, x < p -> forall y, reads h2 x y <-> reads (heap g) x y).
  { intros x Hx y. unfold reads. split; intros (m & c & Em & Hc & Ec).
    - rewrite (Eold x Hx) in Em. destruct (nth_error (heap g) x) as [m0|] eqn:Em0; [|discriminate].
      cbn [option_map] in Em. injection Em as <-. unfold added in Hc. cbn [n_inputs] in Hc.
      assert (Ne : (x =? p) = false) by (apply Nat.eqb_neq; lia). rewrite Ne in Hc. exists m0, c. auto.
    - destruct (Inp x m Hx Em) as (m' & Em' & (_ & Ei & _) & _). exists m', c. rewrite Ei. auto. }
  assert (ReadsP : forall y, reads h2 p y -> In y (nodes g)).
  { intros y (m & c & Em & Hc & Ec). rewrite Ep in Em. injection Em as <-. unfold added in Hc. cbn [n_inputs nd] in Hc.
    rewrite Nat.eqb_refl in Hc. apply in_map_iff in Hc as (c0 & <- & Hc0). destruct (settled_parts h c0) as (E1 & _).
    rewrite E1 in Ec. destruct (Hin c0 Hc0) as (q & Eq & Hq & _). congruence. }
  assert (ReadsOld : forall x y, In x (nodes g) -> reads h2 x y -> In y (nodes g) /\ reads (heap g) x y).
  { intros x y Hx Hr. apply (Reads x (Hnodes x Hx)) in Hr. split; [|exact Hr]. destruct Hr as (m & c & Em & Hc & Ec).
    destruct (sound_closed g S x Hx) as (m' & Em' & Hcl). rewrite Em in Em'. injection Em' as <-.
    destruct (Hcl c Hc) as (q & Eq & Hq). congruence. }
  assert (Snd : sound g').
  { constructor; cbn [g' nodes heap].
    - apply Permutation_NoDup with (l := p :: nodes g); [apply Permutation_cons_append|]. constructor; [|apply (sound_once g S)].
      intros Hp. specialize (Hnodes p Hp). lia.
    - intros n m Hn Em. apply in_app_or in Hn as [Hn|[<-|[]]].
      + rewrite (Eold n (Hnodes n Hn)) in Em. destruct (nth_error (heap g) n) as [m0|] eqn:Em0; [|discriminate].
        cbn [option_map] in Em. injection Em as <-. cbn [added n_layer]. now apply (sound_layer g S n).
      + rewrite Ep in Em. injection Em as <-. cbn. discriminate.
    - intros n Hn. apply in_app_or in Hn as [Hn|[<-|[]]].
      + destruct (sound_closed g S n Hn) as (m & Em & Hcl). destruct (Inp n m (Hnodes n Hn) Em) as (m' & Em' & (_ & Ei & _) & _).
        exists m'. split; [exact Em'|]. intros c Hc. rewrite Ei in Hc. destruct (Hcl c Hc) as (q & Eq & Hq).
        exists q. split; [exact Eq|]. apply in_or_app. now left.
      + exists (added h p (next_uid g) p nd). split; [exact Ep|]. intros c Hc. unfold added in Hc. cbn [n_inputs nd] in Hc.
        rewrite Nat.eqb_refl in Hc. apply in_map_iff in Hc as (c0 & <- & Hc0). destruct (settled_parts h c0) as (E1 & _).
        destruct (Hin c0 Hc0) as (q & Eq & Hq & _). exists q. rewrite E1. split; [exact Eq|]. apply in_or_app. now left.
    - intros n m Em. cbn [g' nodes heap] in *.
      assert (Hn : n < Datatypes.S p) by (rewrite <- Lh; apply nth_error_Some; congruence).
      rewrite flat_map_app. cbn [flat_map]. rewrite app_nil_r.
      assert (Rp : requests h2 n p = asks h n p cs).
      { unfold requests. rewrite Ep. unfold added. cbn [n_inputs nd]. rewrite Nat.eqb_refl. now rewrite <- asks_requests. }
      assert (Ro : flat_map (requests h2 n) (nodes g) = flat_map (requests (heap g) n) (nodes g)).
      { assert (F : forall l, incl l (nodes g) -> flat_map (requests h2 n) l = flat_map (requests (heap g) n) l).
        { induction l as [|x l IH]; intros Hl; [reflexivity|]. cbn [flat_map]. rewrite IH by (intros y Hy; apply Hl; now right). f_equal.
          assert (Hx : In x (nodes g)) by (apply Hl; now left).
          destruct (sound_closed g S x Hx) as (m0 & Em0 & _). destruct (Inp x m0 (Hnodes x Hx) Em0) as (m' & Em' & (_ & Ei & _) & _).
          unfold requests. now rewrite Em', Em0, Ei. }
        apply F, incl_refl. }
      rewrite Rp, Ro. destruct (Nat.eq_dec n p) as [->|Ne].
      + rewrite Ep in Em. injection Em as <-. unfold added. cbn [n_backprop nd]. rewrite Ein. cbn [app].
        assert (Z : flat_map (requests (heap g) p) (nodes g) = []).
        { assert (F : forall l, incl l (nodes g) -> flat_map (requests (heap g) p) l = []).
          { induction l as [|x l IH]; intros Hl; [reflexivity|]. cbn [flat_map]. rewrite IH by (intros y Hy; apply Hl; now right).
            rewrite app_nil_r. assert (Hx : In x (nodes g)) by (apply Hl; now left).
            destruct (requests (heap g) p x) as [|bc l'] eqn:Er; [reflexivity|]. exfalso.
            assert (Hb : In bc (requests (heap g) p x)) by (rewrite Er; now left).
            apply in_requests in Hb as (m & c & Em & Hc & Ec & _).
            destruct (sound_closed g S x Hx) as (m' & Em' & Hcl). rewrite Em in Em'. injection Em' as <-.
            destruct (Hcl c Hc) as (q & Eq & Hq). specialize (Hnodes q Hq). rewrite Ec in Eq. injection Eq as <-. lia. }
          apply F, incl_refl. }
        rewrite Z. cbn [app]. apply Permutation_refl.
      + assert (Hlt : n < p) by lia. rewrite (Eold n Hlt) in Em. destruct (nth_error (heap g) n) as [m0|] eqn:Em0; [|discriminate].
        cbn [option_map] in Em. injection Em as <-. unfold added. cbn [n_backprop]. rewrite Ein.
        apply Permutation_app_tail. now apply (sound_consistent g S).
    - intros n m Em Hi.
      assert (Hn : n < Datatypes.S p) by (rewrite <- Lh; apply nth_error_Some; congruence).
      destruct (Nat.eq_dec n p) as [->|Ne]; [rewrite Ep in Em; injection Em as <-; discriminate Hi|].
      assert (Hlt : n < p) by lia. rewrite (Eold n Hlt) in Em. destruct (nth_error (heap g) n) as [m0|] eqn:Em0; [|discriminate].
      cbn [option_map] in Em. injection Em as <-. unfold added in Hi |- *. cbn [n_is_input n_backprop] in Hi |- *.
      rewrite (sound_inputs g S n m0 Em0 Hi). cbn [app]. unfold asks.
      assert (Ei : is_input_at h n = true) by (unfold is_input_at, h; rewrite app_lt by exact Hlt; now rewrite Em0).
      rewrite Ei. cbn [negb]. rewrite filter_never; [reflexivity|]. intros c _. apply andb_false_r. }
  assert (Acy : acyclic (reads h2) (nodes g ++ [p])).
  { assert (Tr : forall a b, clos_trans nat (reads h2) a b -> In a (nodes g) -> clos_trans nat (reads (heap g)) a b /\ In b (nodes g)).
    { intros a b Hab. induction Hab as [a b Hr|a b c _ IH1 _ IH2]; intros Ha.
      - destruct (ReadsOld a b Ha Hr). split; [now apply t_step|assumption].
      - destruct (IH1 Ha) as [T1 Hb]. destruct (IH2 Hb) as [T2 Hc]. split; [eapply t_trans; eassumption|exact Hc]. }
    assert (TrP : forall a b, clos_trans nat (reads h2) a b -> a = p -> In b (nodes g)).
    { intros a b Hab. induction Hab as [a b Hr|a b c Hab IH1 Hbc IH2]; intros ->.
      - now apply ReadsP.
      - specialize (IH1 eq_refl). now apply (Tr b c Hbc). }
    intros n Hn Hc. apply in_app_or in Hn as [Hn|[<-|[]]].
    - apply (Ac n Hn). now apply Tr.
    - pose proof (TrP p p Hc eq_refl) as Hp. specialize (Hnodes p Hp). lia. }
  assert (Ins : forall c, inside g c -> inside g' c).
  { intros c (q & m & Eq & Hq & Em & Hb). destruct (Inp q m (Hnodes q Hq) Em) as (m' & Em' & (_ & _ & E3 & _) & _).
    exists q, m'. cbn [g' nodes heap]. rewrite E3. split; [exact Eq|]. split; [apply in_or_app; now left|]. auto. }
  assert (Fine : forall n nd', In n (nodes g') -> nth_error (heap g') n = Some nd' ->
    n_name nd' <> "" /\ ~ (n_is_input nd' = true /\ n_is_output nd' = true) /\ Forall (inside g') (n_inputs nd')).
  { intros n nd' Hn En'. cbn [g' nodes heap] in Hn, En'. apply in_app_or in Hn as [Hn|[<-|[]]].
    - destruct (sound_closed g S n Hn) as (m & Em & _). destruct (Inp n m (Hnodes n Hn) Em) as (m' & Em' & (E1 & E2 & E3 & E4 & E5 & E6) & _).
      rewrite Em' in En'. injection En' as <-. rewrite E2, E4, E5, E6. destruct (Fn n m Hn Em) as (F1 & F2 & F3).
      split; [exact F1|]. split; [exact F2|]. eapply Forall_impl; [|exact F3]. exact Ins.
    - rewrite Ep in En'. injection En' as <-. unfold added. cbn [n_name n_is_input n_is_output n_inputs nd String.eqb].
      rewrite Nat.eqb_refl. cbn [andb]. split; [discriminate|]. split; [intros [? _]; discriminate|].
      apply Forall_forall. intros c Hc. apply in_map_iff in Hc as (c0 & <- & Hc0). destruct (settled_parts h c0) as (E1 & E2 & _).
      rewrite Forall_forall in Hcs. destruct (Ins c0 (Hcs c0 Hc0)) as (q & m & Eq & Hq & Em & Hb). exists q, m. rewrite E1, E2. auto. }
  constructor.
  - constructor; [exact Snd|exact Acy|exact Fine].
  - reflexivity.
  - intros n m Em. destruct (Inp n m) as (m' & Em' & Sm & _); [apply nth_error_Some; congruence|exact Em|].
    exists m'. split; [exact Em'|exact Sm].
  - exact Lh.
  - exists (added h p (next_uid g) p nd). split; [exact Ep|]. unfold added, nd.
    cbn [n_layer n_inputs n_buffers n_name n_is_output n_is_input String.eqb]. rewrite Nat.eqb_refl. cbn [andb].
    split; [reflexivity|]. split; [exact Emap|]. repeat split; reflexivity.
  - reflexivity.
  - reflexivity.
  - reflexivity.
  - reflexivity.
  - reflexivity.
Qed.

(** ** What a line asks for, apart from the state *)
Section Lines.
Context {D : Type} (read_datum : str -> D) (d0 d1 : D) (rand : nat -> Z).
Variables (cfg : geo) (data : connection) (classes : Z) (add_loss_layer : bool).
Notation layer := (@layer D).
Notation fstate := (@fstate D).

Inductive act : Type :=
| ANone
| ASeq (l : layer) (seeded backprop : bool)
| AActivation (l : layer)
| APrior
| AStack (l : layer) (s : stack)
| AUpscale (fx fy : Z) (out : bool).
Inductive lineact : Type :=
| KComment
| KNothing
| KPush (s : stack)
| KPop (s : stack)
| KLayer (weight : D) (out : bool) (a : act).

Definition with_seed (seed : Z) (l : layer) : layer :=
  match l with LConvolution a b c d e f g h _ x y => LConvolution a b c d e f g h seed x y | _ => l end.

Definition action (l : str) : res act :=
  if compare0 l (s_ "convolutional") then x <- make_convolution read_datum d0 d1 l 0 ;; Ok (ASeq x true true) else
  if compare0 l (s_ "lrn") then x <- make_normalization read_datum d1 l ;; Ok (ASeq x false true) else
  if compare0 l (s_ "maxpooling") then k <- parse_kernel_size l (s_ "size") 1 1 ;; Ok (ASeq (LMaxPooling (fst k) (snd k)) false true) else
  if compare0 l (s_ "downsampling") then k <- parse_kernel_size l (s_ "size") 1 1 ;; Ok (ASeq (LDownSampling (fst k) (snd k)) false false) else
  if compare0 l (s_ "amaxpooling") then
    k <- parse_kernel_size l (s_ "size") 1 1 ;; s <- parse_kernel_size l (s_ "stride") (fst k) (snd k) ;;
    Ok (ASeq (LAdvancedMaxPooling (fst k) (snd k) (fst s) (snd s)) false true) else
  if compare0 l (s_ "sigm") then Ok (AActivation LSigmoid) else
  if compare0 l (s_ "hmax") then
    mu <- parse_datum_param read_datum l (s_ "mu") d1 ;; w <- parse_datum_param read_datum l (s_ "weight") d0 ;;
    Ok (AActivation (LHMax mu w)) else
  if compare0 l (s_ "relu") then Ok (AActivation LReLU) else
  if compare0 l (s_ "tanh") then Ok (AActivation LTanh) else
  if compare0 l (s_ "spatialprior") then Ok APrior else
  if compare0 l (s_ "concat") then name <- parse_string_param l (s_ "stack") [] ;; Ok (AStack LConcatenation (if compare0 name (s_ "b") then B else A)) else
  if compare0 l (s_ "sum") then name <- parse_string_param l (s_ "stack") [] ;; Ok (AStack LSum (if compare0 name (s_ "b") then B else A)) else
  if compare0 l (s_ "upscale") then
    u <- parse_kernel_size l (s_ "factor") 1 1 ;; o <- parse_count l (s_ "is_output") 0 ;; Ok (AUpscale (fst u) (snd u) (o =? 1)%Z) else
  Ok ANone.

Definition set_stack (st : fstate) (s : stack) (c : connection) (l : list connection) : fstate :=
  match s with
  | A => mkF (f_graph st) c l (f_b st) (f_up st) (f_draws st) (f_made st) (f_out st)
  | B => mkF (f_graph st) c (f_a st) l (f_up st) (f_draws st) (f_made st) (f_out st)
  end.

Definition perform (a : act) (st : fstate) : res fstate :=
  match a with
  | ANone => Ok st
  | ASeq l true b => add_behind (draw st) (with_seed (rand (f_draws st)) l) false b
  | ASeq l false b => add_behind st l false b
  | AActivation l => add_behind st l (f_out st && (g_patch cfg || f_up st)) true
  | APrior =>
    st1 <- (if negb (f_up st) && fcn cfg
            then s <- add_behind st (LUpscale (to_uint (factorx cfg)) (to_uint (factory_ cfg))) false true ;; Ok (set_up s)
            else Ok st) ;;
    add_last st1 LConcatenation [f_last st1; mkConn (c_node data) 2 false] false true
  | AStack l s => add_last st l (stack_of st s) false true
  | AUpscale fx fy o => s <- add_behind st (LUpscale fx fy) o true ;; Ok (set_up (set_out s o))
  end.

Lemma make_seed line seed : make_convolution read_datum d0 d1 line seed =
  (x <- make_convolution read_datum d0 d1 line 0 ;; Ok (with_seed seed x)).
Proof.
  unfold make_convolution.
  repeat match goal with
  | |- context [parse_kernel_size ?a ?b ?c ?d] => destruct (parse_kernel_size a b c d); cbn [bind]; try reflexivity
  | |- context [parse_count ?a ?b ?c] => destruct (parse_count a b c); cbn [bind]; try reflexivity
  | |- context [parse_datum_param ?a ?b ?c ?d] => destruct (parse_datum_param a b c d); cbn [bind]; try reflexivity
  | |- context [if ?c then _ else _] => destruct c; cbn [bind]; try reflexivity
  end.
Qed.

Lemma bind_ok {X} (r : res X) : (x <- r ;; Ok x) = r.
Proof. now destruct r. Qed.

Ltac known :=
  repeat match goal with
  | |- context [compare0 (s_ ?q ++ ?r) (s_ ?p)] =>
    first [change (compare0 (s_ q ++ r) (s_ p)) with true | change (compare0 (s_ q ++ r) (s_ p)) with false]
  end.
Ltac try_word w l r E :=
  destruct (compare0 l (s_ w)) eqn:E;
  [let T := fresh in pose proof (proj1 (starts_app (s_ w) l) E) as T; destruct T as [r ->]; clear E; known |].

Lemma read_layer_action w l st : read_layer_line read_datum d0 d1 rand cfg data add_loss_layer w l st =
  (a <- action l ;; s <- perform a st ;; s <- final_upscale cfg s ;; add_loss data add_loss_layer w s).
Proof.
  unfold read_layer_line, action, on_convolution, on_normalization, on_maxpooling, on_downsampling, on_amaxpooling, on_activation,
    on_hmax, on_prior, on_stack, on_upscale, starts_with_identifier.
  try_word "convolutional" l r E.
  { rewrite make_seed. destruct (make_convolution _ _ _ _ 0) as [x| |]; cbn [bind perform]; try reflexivity. }
  try_word "lrn" l r E'. { destruct (make_normalization _ _ _); reflexivity. }
  try_word "maxpooling" l r E1. { destruct (parse_kernel_size _ _ _ _); reflexivity. }
  try_word "downsampling" l r E2. { destruct (parse_kernel_size _ _ _ _); reflexivity. }
  try_word "amaxpooling" l r E3.
  { destruct (parse_kernel_size _ (s_ "size") _ _) as [k| |]; cbn [bind]; try reflexivity. destruct (parse_kernel_size _ (s_ "stride") _ _); reflexivity. }
  try_word "sigm" l r E4. { reflexivity. }
  try_word "hmax" l r E5.
  { destruct (parse_datum_param _ _ (s_ "mu") _) as [k| |]; cbn [bind]; try reflexivity. destruct (parse_datum_param _ _ (s_ "weight") _); reflexivity. }
  try_word "relu" l r E6. { reflexivity. }
  try_word "tanh" l r E7. { reflexivity. }
  try_word "spatialprior" l r E8. { reflexivity. }
  try_word "concat" l r E9. { destruct (parse_string_param _ _ _) as [name| |]; cbn [bind]; try reflexivity. destruct (compare0 name (s_ "b")); reflexivity. }
  try_word "sum" l r E10. { destruct (parse_string_param _ _ _) as [name| |]; cbn [bind]; try reflexivity. destruct (compare0 name (s_ "b")); reflexivity. }
  try_word "upscale" l r E11.
  { destruct (parse_kernel_size _ _ _ _) as [k| |]; cbn [bind]; try reflexivity. destruct (parse_count _ _ _); reflexivity. }
  reflexivity.
Qed.

Definition line_action (line0 : str) : res lineact :=
  if compare0 line0 (s_ "#") then Ok KComment else
  line1 <- fill_outputs classes line0 ;;
  line2 <- fill_connected line1 ;;
  r <- read_output read_datum d1 classes (drop_flatten cfg line2) ;;
  let '(line, weight, out) := r in
  if compare0 line (s_ "pusha") then Ok (KPush A) else
  if compare0 line (s_ "pushb") then Ok (KPush B) else
  if compare0 line (s_ "popa") then Ok (KPop A) else
  if compare0 line (s_ "popb") then Ok (KPop B) else
  if compare0 line (s_ "?") then l <- substr line 1 ;; a <- action l ;; Ok (KLayer weight out a) else Ok KNothing.

Definition perform_line (k : lineact) (st : fstate) : res fstate :=
  match k with
  | KComment => Ok st
  | KNothing => Ok (set_out st false)
  | KPush s => l <- push (stack_of st s) (f_last st) ;; Ok (set_stack (set_out st false) s (f_last st) l)
  | KPop s => r <- pop (stack_of st s) ;; Ok (set_stack (set_out st false) s (fst r) (snd r))
  | KLayer w out a => s <- perform a (set_out st out) ;; s <- final_upscale cfg s ;; add_loss data add_loss_layer w s
  end.

Notation read_line := (read_config_line read_datum d0 d1 rand cfg data classes add_loss_layer).
Lemma read_line_action st line : read_line st line = (k <- line_action line ;; perform_line k st).
Proof.
  unfold read_config_line, line_action. destruct (compare0 line (s_ "#")); [reflexivity|].
  destruct (fill_outputs classes line) as [line1| |]; cbn [bind]; try reflexivity.
  destruct (fill_connected line1) as [line2| |]; cbn [bind]; try reflexivity.
  unfold read_output. destruct (compare0 (drop_flatten cfg line2) (s_ "?output")) eqn:Eo.
  - destruct (parse_datum_param _ _ _ _) as [w| |]; cbn [bind]; try reflexivity.
    destruct (classes =? 1)%Z; [change (s_ "?tanh") with (s_ "?tanh" ++ [])|change (s_ "?sigm") with (s_ "?sigm" ++ [])];
    unfold push_a, push_b, pop_a, pop_b; known; cbn [bind];
    match goal with |- context [substr ?a ?b] => destruct (substr a b) as [l| |]; cbn [bind]; try reflexivity end;
    rewrite read_layer_action; destruct (action l); reflexivity.
  - cbn [bind]. generalize (drop_flatten cfg line2) as x. intros x. clear Eo.
    unfold push_a, push_b, pop_a, pop_b.
    try_word "pusha" x r E1. { cbn [bind perform_line stack_of set_out f_a f_last]. destruct (push (f_a st) (f_last st)); reflexivity. }
    try_word "pushb" x r E2. { cbn [bind perform_line stack_of set_out f_b f_last]. destruct (push (f_b st) (f_last st)); reflexivity. }
    try_word "popa" x r E3. { cbn [bind perform_line stack_of set_out f_a f_last]. destruct (pop (f_a st)); reflexivity. }
    try_word "popb" x r E4. { cbn [bind perform_line stack_of set_out f_b f_last]. destruct (pop (f_b st)); reflexivity. }
    cbn [bind]. destruct (compare0 x (s_ "?")); [|reflexivity]. destruct (substr x 1) as [l| |]; cbn [bind]; try reflexivity.
    rewrite read_layer_action. destruct (action l); reflexivity.
Qed.
End Lines.

(** ** Words at the start of a line survive the preparation *)
Fixpoint clash (u r : str) : bool :=
  match u, r with
  | a :: u', b :: r' => if Ascii.eqb a b then clash u' r' else true
  | _, _ => false
  end.
Lemma clash_starts u r b : clash u r = true -> starts u (r ++ b) = false.
Proof.
  revert r. induction u as [|a u IH]; intros [|c r]; cbn [clash starts app]; try discriminate.
  destruct (Ascii.eqb a c); cbn [andb]; [apply IH|reflexivity].
Qed.
Definition guarded (w r : str) : Prop := forall i, i < length w -> clash (skipn i w) r = true.
Lemma guarded_check w r : forallb (fun i => clash (skipn i w) r) (seq 0 (length w)) = true -> guarded w r.
Proof. intros H i Hi. rewrite forallb_forall in H. apply H. apply in_seq. lia. Qed.
Lemma guarded_head w c r : ~ In c w -> guarded w (c :: r).
Proof.
  intros H i Hi. destruct (skipn i w) as [|a u] eqn:E.
  - apply (f_equal (@length _)) in E. rewrite skipn_length in E. cbn in E. lia.
  - cbn [clash]. destruct (Ascii.eqb_spec a c) as [->|]; [|reflexivity]. exfalso. apply H.
    rewrite <- (firstn_skipn i w), E. apply in_or_app. right. now left.
Qed.
Lemma keep w a r b : guarded w r -> starts w (a ++ r ++ b) = starts w a.
Proof.
  revert w. induction a as [|c a IH]; intros w H.
  - destruct w as [|x w]; [reflexivity|]. change (starts (x :: w) []) with false. cbn [app]. apply clash_starts. apply (H 0). cbn. lia.
  - destruct w as [|x w]; [reflexivity|]. cbn [app starts]. destruct (Ascii.eqb x c); cbn [andb]; [|reflexivity].
    apply IH. intros i Hi. apply (H (S i)). cbn. lia.
Qed.
Lemma find_split p s pos : find p s 0 = Some pos -> exists b, s = firstn pos s ++ p ++ b /\ pos <= length s.
Proof.
  unfold find. cbn [Nat.leb skipn]. intros H. pose proof (find_from_spec 0 p s) as F. rewrite H in F.
  destruct F as (k & -> & Hk & E & _). apply starts_app in E as [b E]. exists b. cbn [Nat.add]. split; [|exact Hk].
  rewrite <- E. symmetry. apply firstn_skipn.
Qed.
Lemma find_mentions p s : ~ mentions p s -> find (s_ p) s 0 = None.
Proof.
  intros H. destruct (find (s_ p) s 0) as [pos|] eqn:E; [|reflexivity]. exfalso. apply H.
  destruct (find_split _ _ _ E) as (b & Eb & _). now exists (firstn pos s), b.
Qed.
Lemma replace_keeps w p s pos n r s' : find p s 0 = Some pos -> guarded w p -> guarded w r -> replace s pos n r = Ok s' -> starts w s' = starts w s.
Proof.
  intros F Hp Hr H. destruct (find_split _ _ _ F) as (b & Eb & Hl). unfold replace in H. rewrite (proj2 (Nat.leb_le _ _) Hl) in H. injection H as <-.
  rewrite keep by exact Hr. rewrite <- (keep w (firstn pos s) p b Hp). now rewrite <- Eb.
Qed.

Definition words : list str := map s_ ["pusha"; "pushb"; "popa"; "popb"; "?output"; "?concat"; "?sum"; "?"].
Lemma print_guarded z w : In w words -> guarded w (print_int z).
Proof.
  intros Hw. assert (Hd : exists c r, print_int z = c :: r /\ (is_digit c = true \/ c = "-"%char)).
  { unfold print_int. destruct (z <? 0)%Z eqn:E; [eauto|]. apply Z.ltb_ge in E.
    destruct (decimal z) as [|c r] eqn:Ed; [now apply decimal_nonempty in Ed|]. exists c, r. split; [reflexivity|]. left.
    pose proof (decimal_digits z E) as F. rewrite Ed in F. now inversion F. }
  destruct Hd as (c & r & -> & Hc). apply guarded_head. intros Hi.
  assert (N : forallb (fun c => negb (is_digit c) && negb (Ascii.eqb c "-")) w = true).
  { assert (F : forallb (forallb (fun c => negb (is_digit c) && negb (Ascii.eqb c "-"))) words = true) by (vm_compute; reflexivity).
    rewrite forallb_forall in F. now apply F. }
  rewrite forallb_forall in N. specialize (N c Hi). apply andb_prop in N as [N1 N2]. destruct Hc as [Hc| ->]; [now rewrite Hc in N1|discriminate].
Qed.
Lemma fixed_guarded w r : In w words -> In r (map s_ ["(o)"; "fullyconnected"; "convolutional size=1x1"; "neurons="; "kernels="]) -> guarded w r.
Proof.
  intros Hw Hr. apply guarded_check.
  assert (F : forallb (fun w => forallb (fun r => forallb (fun i => clash (skipn i w) r) (seq 0 (length w)))
     (map s_ ["(o)"; "fullyconnected"; "convolutional size=1x1"; "neurons="; "kernels="])) words = true) by (vm_compute; reflexivity).
  rewrite forallb_forall in F. specialize (F w Hw). rewrite forallb_forall in F. now apply F.
Qed.
Ltac in_list := cbn [map In]; auto 10.
Lemma fill_outputs_keeps classes w line line' : In w words -> fill_outputs classes line = Ok line' -> starts w line' = starts w line.
Proof.
  intros Hw. unfold fill_outputs. destruct (find (s_ "(o)") line 0) as [pos|] eqn:E; [|now intros [= ->]].
  apply (replace_keeps w _ _ _ _ _ _ E); [apply fixed_guarded; [exact Hw|in_list]|now apply print_guarded].
Qed.
Lemma fill_connected_keeps w line line' : In w words -> fill_connected line = Ok line' -> starts w line' = starts w line.
Proof.
  intros Hw. unfold fill_connected. destruct (find (s_ "fullyconnected") line 0) as [pos|] eqn:E; [|now intros [= ->]].
  destruct (replace line pos 14 (s_ "convolutional size=1x1")) as [l| |] eqn:Er; cbn [bind]; try discriminate.
  destruct (find (s_ "neurons=") l 0) as [q|] eqn:Eq; [|discriminate]. intros H.
  transitivity (starts w l).
  - apply (replace_keeps w _ _ _ _ _ _ Eq) in H; [exact H| |]; apply fixed_guarded; try exact Hw; in_list.
  - apply (replace_keeps w _ _ _ _ _ _ E) in Er; [exact Er| |]; apply fixed_guarded; try exact Hw; in_list.
Qed.

(** What the text says about the action. *)
Section Text.
Context {D : Type} (read_datum : str -> D) (d0 d1 : D).
Variables (cfg : geo) (classes : Z).
Notation action_of := (line_action read_datum d0 d1 cfg classes).

Lemma begins_iff w line : begins w line <-> starts (s_ w) line = true.
Proof. unfold begins. symmetry. apply starts_app. Qed.
Lemma drop_starts w line : starts w (drop_flatten cfg line) = true -> w <> [] -> starts w line = true.
Proof.
  unfold drop_flatten. destruct (fcn cfg); [|auto]. destruct (find (s_ "flatten") line 0); [|auto]. destruct w; [congruence|]. discriminate.
Qed.

Definition stacking (a : @act D) : Prop := match a with AStack _ _ => True | _ => False end.

Lemma action_stacking l a : action read_datum d0 d1 l = Ok a -> stacking a -> starts (s_ "concat") l = true \/ starts (s_ "sum") l = true.
Proof.
  unfold action. intros H S.
  repeat match type of H with
  | (if compare0 ?x ?w then _ else _) = _ => destruct (compare0 x w) eqn:?
  end;
  try (left; assumption); try (right; assumption); exfalso;
  repeat match type of H with
  | bind ?r _ = _ => destruct r; cbn [bind] in H; try discriminate H
  end; injection H as <-; exact S.
Qed.

Lemma action_inv line k : action_of line = Ok k ->
  match k with
  | KComment | KNothing => True
  | KPush s => pushes s line
  | KPop s => pops s line
  | KLayer _ out a => begins "?" line /\ (out = true -> output_line line /\ exists l, a = AActivation l) /\ (stacking a -> collects line)
  end.
Proof.
  unfold line_action. destruct (compare0 line (s_ "#")); [now intros [= <-]|].
  destruct (fill_outputs classes line) as [line1| |] eqn:E1; cbn [bind]; try discriminate.
  destruct (fill_connected line1) as [line2| |] eqn:E2; cbn [bind]; try discriminate.
  assert (Keep : forall w, In w words -> w <> [] -> starts w (drop_flatten cfg line2) = true -> starts w line = true).
  { intros w Hw Hn H. apply drop_starts in H; [|exact Hn].
    now rewrite (fill_connected_keeps w _ _ Hw E2), (fill_outputs_keeps classes w _ _ Hw E1) in H. }
  assert (KeepB : forall w, In (s_ w) words -> s_ w <> [] -> starts (s_ w) (drop_flatten cfg line2) = true -> begins w line).
  { intros w Hw Hn H. apply begins_iff. now apply Keep. }
  unfold read_output. destruct (compare0 (drop_flatten cfg line2) (s_ "?output")) eqn:Eo.
  - assert (Out : output_line line) by (apply KeepB; [cbn [words map In]; auto 10|discriminate|exact Eo]).
    destruct (parse_datum_param _ _ _ _) as [wt| |]; cbn [bind]; try discriminate.
    assert (Q : begins "?" line). { destruct Out as [r Er]. exists (s_ "output" ++ r). exact Er. }
    destruct (classes =? 1)%Z; cbn; intros [= <-]; (split; [exact Q|]; split; [intros _; split; [exact Out|eauto]|intros []]).
  - cbn [bind]. destruct (compare0 _ (s_ "pusha")) eqn:Ea; [intros [= <-]; apply KeepB; [cbn [words map In]; auto 10|discriminate|exact Ea]|].
    destruct (compare0 _ (s_ "pushb")) eqn:Eb; [intros [= <-]; apply KeepB; [cbn [words map In]; auto 10|discriminate|exact Eb]|].
    destruct (compare0 _ (s_ "popa")) eqn:Ec; [intros [= <-]; apply KeepB; [cbn [words map In]; auto 10|discriminate|exact Ec]|].
    destruct (compare0 _ (s_ "popb")) eqn:Ed; [intros [= <-]; apply KeepB; [cbn [words map In]; auto 10|discriminate|exact Ed]|].
    destruct (compare0 _ (s_ "?")) eqn:Eq; [|now intros [= <-]].
    destruct (substr _ 1) as [l| |] eqn:El; cbn [bind]; try discriminate.
    destruct (action read_datum d0 d1 l) as [a| |] eqn:Ea'; cbn [bind]; try discriminate. intros [= <-].
    split; [apply KeepB; [cbn [words map In]; auto 10|discriminate|exact Eq]|]. split; [discriminate|]. intros Sa.
    assert (Hl : drop_flatten cfg line2 = "?"%char :: l).
    { pose proof (proj1 (starts_app _ _) Eq) as [x Ex]. unfold substr in El. rewrite Ex in El |- *. cbn in El. now injection El as <-. }
    destruct (action_stacking l a Ea' Sa) as [H|H]; apply starts_app in H as [r ->]; [left|right];
      (apply KeepB; [cbn [words map In]; auto 10|discriminate|rewrite Hl; apply starts_app; exists r; reflexivity]).
Qed.

Lemma plain_fill line : ~ mentions "(o)" line -> ~ mentions "fullyconnected" line -> ~ mentions "flatten" line ->
  fill_outputs classes line = Ok line /\ fill_connected line = Ok line /\ drop_flatten cfg line = line.
Proof.
  intros H1 H2 H3. unfold fill_outputs, fill_connected, drop_flatten.
  rewrite (find_mentions _ _ H1), (find_mentions _ _ H2), (find_mentions _ _ H3). destruct (fcn cfg); auto.
Qed.
Lemma action_push line s : plain line -> pushes s line -> action_of line = Ok (KPush s).
Proof.
  intros P H. destruct P as (P1 & P2 & P3); [left; exists s; now left|].
  destruct (plain_fill line P1 P2 P3) as (F1 & F2 & F3). unfold line_action. rewrite F1. cbn [bind]. rewrite F2. cbn [bind]. rewrite F3.
  destruct H as [r ->]. destruct s; reflexivity.
Qed.
Lemma action_pop line s : plain line -> pops s line -> action_of line = Ok (KPop s).
Proof.
  intros P H. destruct P as (P1 & P2 & P3); [left; exists s; now right|].
  destruct (plain_fill line P1 P2 P3) as (F1 & F2 & F3). unfold line_action. rewrite F1. cbn [bind]. rewrite F2. cbn [bind]. rewrite F3.
  destruct H as [r ->]. destruct s; reflexivity.
Qed.
Lemma action_output line k : plain line -> output_line line -> action_of line = Ok k -> exists w l, k = KLayer w true (AActivation l).
Proof.
  intros P H. destruct P as (P1 & P2 & P3); [now right|].
  destruct (plain_fill line P1 P2 P3) as (F1 & F2 & F3). unfold line_action. rewrite F1. cbn [bind]. rewrite F2. cbn [bind]. rewrite F3.
  assert (Ec : compare0 line (s_ "#") = false) by (destruct H as [r ->]; reflexivity). rewrite Ec.
  assert (Eo : compare0 line (s_ "?output") = true) by (now apply begins_iff). unfold read_output. rewrite Eo.
  destruct (parse_datum_param _ _ _ _) as [wt| |]; cbn [bind]; try discriminate.
  destruct (classes =? 1)%Z; cbn; intros [= <-]; eauto.
Qed.
Lemma push_pop_excl line s s' : (pushes s line -> pushes s' line -> s = s') /\ (pops s line -> pops s' line -> s = s') /\ (pushes s line -> pops s' line -> False).
Proof.
  split; [|split]; intros [r1 E1] [r2 E2]; rewrite E1 in E2; destruct s, s'; try reflexivity; discriminate E2.
Qed.
End Text.

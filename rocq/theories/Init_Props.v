(** C80: initial weights. *)
From Coq Require Import String List Permutation Reals Lra Relations.
From Verif Require Import Base BaseFacts Str_Model Config_Model Graph_Model Graph_Spec Graph_Props Init_Model Init_Spec Init_Proofs.
Local Open Scope string_scope.
Local Open Scope list_scope.
Local Open Scope nat_scope.

Section Init.
Context {D E : Type} (uniform : D -> D -> E -> D * E) (neg : D -> D) (range : Z -> D).

Lemma draws_drawn low high n : forall e, let '(ws, e') := draws uniform low high n e in length ws = n /\ drawn uniform low high e ws e'.
Proof.
  induction n as [|n IH]; intros e; cbn [draws]; [split; [reflexivity|constructor]|]. destruct (uniform low high e) as [x e1] eqn:Ex. specialize (IH e1).
  destruct (draws uniform low high n e1) as [ws e2]. destruct IH as [L H]. split; [cbn; now rewrite L|]. econstructor; eauto.
Qed.

(** Initialising the weights of a network succeeds, whatever the layers held before. Every convolution of the network gets as many
    weights as it had, drawn from its engine between -r and r, where r is the range for the inputs of its own units plus the fan of
    its consumers. Its other parameters stay, as do all layers outside the network and the parameters of other layers. *)
Theorem C80_initial_weights g flagged fuel (ls : list (@glayer D E)) :
  closed (heap g) (nodes g) -> consistent g -> acyclic (reads (heap g)) (nodes g) -> length (nodes g) < fuel -> length ls = length (heap g) ->
  Forall sensible (map g_kind ls) -> fits g (map g_kind ls) ->
  exists ls', initialize_layers uniform neg range fuel g flagged ls = Ok ls' /\ length ls' = length ls /\
    forall n l, nth_error ls n = Some l -> exists l', nth_error ls' n = Some l' /\
      (~ In n (nodes g) -> l' = l) /\
      g_kind l' = g_kind l /\ g_rest l' = g_rest l /\
      (In n (nodes g) -> match g_kind l with
        | GConv kw kh maps => exists z, fans g (map g_kind ls) (consumers g n) z /\ length (g_weights l') = length (g_weights l) /\
            drawn uniform (neg (range (z + kw * kh * maps)%Z)) (range (z + kw * kh * maps)%Z) (g_engine l) (g_weights l') (g_engine l')
        | _ => g_weights l' = g_weights l /\ g_engine l' = g_engine l
        end).
Proof.
  intros Hc Hk Ha Hf Hl Hs Hfit. destruct (C18_weights_order g flagged fuel Hc Hk Ha Hf) as (fl & order & Eo & Nd & M & B).
  unfold initialize_layers. rewrite Eo. cbn [bind snd].
  destruct (run_order uniform neg range g (map g_kind ls) Hs Hfit Hc Hk ls eq_refl) with (todo := order) (done := @nil nat) (ls := ls) as (ls' & E1 & L1 & H1).
  - intros n Hn. destruct (Hc n Hn) as (nd & En & _). rewrite Hl. apply nth_error_Some. congruence.
  - exact Nd.
  - intros n Hn. now apply M.
  - intros n k Hn. apply B. now apply M.
  - reflexivity.
  - intros n l En. exists l. split; [exact En|]. split; [intros []|reflexivity].
  - exists ls'. split; [exact E1|]. split; [exact L1|]. cbn [app] in H1. intros n l En. destruct (H1 n l En) as (l' & En' & I1 & I2). exists l'. split; [exact En'|].
    split; [intros Hn; apply I2; intros K; now apply Hn, M|].
    destruct (in_dec Nat.eq_dec n order) as [Hi|Hi]; [|rewrite (I2 Hi); split; [reflexivity|split; [reflexivity|]]; intros Hn; now apply M in Hn].
    destruct (I1 Hi) as (K1 & K2 & _ & K3). split; [exact K1|]. split; [exact K2|]. intros _. destruct (g_kind l) as [kw kh maps|rw rh|]; [|exact K3..].
    destruct K3 as (_ & z & Fz & Ed). exists z. split; [exact Fz|]. cbn zeta in Ed. pose proof (draws_drawn (neg (range (z + kw * kh * maps)%Z)) (range (z + kw * kh * maps)%Z) (length (g_weights l)) (g_engine l)) as Dr.
    rewrite <- Ed in Dr. exact Dr.
Qed.

(** The new weights depend on nothing but the network, the kinds of its layers, the numbers of weights and the engines: trained
    weights and gains of earlier initialisations leave no trace. *)
Theorem C80_forgets g flagged1 flagged2 fuel (ls1 ls2 : list (@glayer D E)) :
  closed (heap g) (nodes g) -> consistent g -> acyclic (reads (heap g)) (nodes g) -> length (nodes g) < fuel -> length ls1 = length (heap g) ->
  Forall sensible (map g_kind ls1) -> fits g (map g_kind ls1) ->
  Forall2 (fun l1 l2 => g_kind l1 = g_kind l2 /\ length (g_weights l1) = length (g_weights l2) /\ g_engine l1 = g_engine l2) ls1 ls2 ->
  exists ls1' ls2', initialize_layers uniform neg range fuel g flagged1 ls1 = Ok ls1' /\ initialize_layers uniform neg range fuel g flagged2 ls2 = Ok ls2' /\
    forall n l1' l2', In n (nodes g) -> nth_error ls1' n = Some l1' -> nth_error ls2' n = Some l2' ->
      (exists kw kh maps, g_kind l1' = GConv kw kh maps) -> g_weights l1' = g_weights l2' /\ g_engine l1' = g_engine l2'.
Proof.
  intros Hc Hk Ha Hf Hl Hs Hfit F.
  assert (Ek : map g_kind ls1 = map g_kind ls2) by (clear - F; induction F as [|a b la lb (H & _) _ IH]; [reflexivity|cbn; congruence]).
  pose proof (Forall2_length F) as Hl2.
  destruct (C80_initial_weights g flagged1 fuel ls1 Hc Hk Ha Hf Hl Hs Hfit) as (ls1' & E1 & L1 & H1).
  rewrite Ek in Hs, Hfit. destruct (C80_initial_weights g flagged2 fuel ls2 Hc Hk Ha Hf (eq_trans (eq_sym Hl2) Hl) Hs Hfit) as (ls2' & E2 & L2 & H2).
  exists ls1', ls2'. split; [exact E1|]. split; [exact E2|]. intros n l1' l2' Hn N1 N2 (kw & kh & maps & Ekn).
  destruct (nth_error ls1 n) as [l1|] eqn:M1; [|apply nth_error_None in M1; assert (n < length ls1') by (apply nth_error_Some; congruence); lia].
  destruct (nth_error ls2 n) as [l2|] eqn:M2; [|apply nth_error_None in M2; assert (n < length ls2') by (apply nth_error_Some; congruence); lia].
  destruct (H1 n l1 M1) as (x & X1 & _ & X2 & _ & X3). assert (x = l1') by congruence. subst x.
  destruct (H2 n l2 M2) as (y & Y1 & _ & Y2 & _ & Y3). assert (y = l2') by congruence. subst y.
  assert (Q : g_kind l1 = g_kind l2 /\ length (g_weights l1) = length (g_weights l2) /\ g_engine l1 = g_engine l2).
  { clear - F M1 M2. revert n M1 M2. induction F as [|a b la lb H _ IH]; intros [|n] M1 M2; cbn in M1, M2; try discriminate M1; [injection M1 as <-; injection M2 as <-; exact H|]. now apply (IH n). }
  destruct Q as (Q1 & Q2 & Q3). specialize (X3 Hn). specialize (Y3 Hn). rewrite <- Q1, <- X2, Ekn in Y3. rewrite <- X2, Ekn in X3.
  destruct X3 as (z & Fz & La & Da). destruct Y3 as (z' & Fz' & Lb & Db). rewrite <- Ek in Fz'. pose proof (proj2 (fan_unique g (map g_kind ls1)) _ _ Fz _ Fz') as ->.
  rewrite <- Q3 in Db. rewrite <- Q2, <- La in Lb. clear - Da Db Lb. revert Db Lb. generalize (g_weights l2'), (g_engine l2'). induction Da as [e|e x e1 ws e2 H _ IH]; intros ws' e' Db Lb.
  - inversion Db; subst; [auto|discriminate Lb].
  - inversion Db as [|? y e1' ws1 e2' H' Db']; subst; [discriminate Lb|]. rewrite H in H'. injection H' as <- <-. cbn in Lb. injection Lb as Lb. destruct (IH _ _ Db' Lb) as [-> ->]. auto.
Qed.
End Init.
Print Assumptions C80_initial_weights.
Print Assumptions C80_forgets.

(** Over the real numbers, with a distribution that stays within its bounds: no initial weight of a convolution is larger than
    sqrt (6 / (inputs of its units + fan of its consumers)). *)
Theorem C80_bounded {E} (uniform : R -> R -> E -> R * E) g flagged fuel (ls : list (@glayer R E)) :
  (forall low high e, (low <= high)%R -> (low <= fst (uniform low high e) <= high)%R) ->
  closed (heap g) (nodes g) -> consistent g -> acyclic (reads (heap g)) (nodes g) -> length (nodes g) < fuel -> length ls = length (heap g) ->
  Forall sensible (map g_kind ls) -> fits g (map g_kind ls) ->
  exists ls', initialize_layers uniform Ropp (fun x => sqrt 6 / sqrt (IZR x))%R fuel g flagged ls = Ok ls' /\
    forall n l l' kw kh maps, In n (nodes g) -> nth_error ls n = Some l -> nth_error ls' n = Some l' -> g_kind l = GConv kw kh maps -> (0 < kw * kh * maps)%Z ->
      exists z, fans g (map g_kind ls) (consumers g n) z /\ Forall (fun w => (Rabs w <= sqrt (6 / IZR (z + kw * kh * maps)))%R) (g_weights l').
Proof.
  intros Hu Hc Hk Ha Hf Hl Hs Hfit. destruct (C80_initial_weights uniform Ropp (fun x => sqrt 6 / sqrt (IZR x))%R g flagged fuel ls Hc Hk Ha Hf Hl Hs Hfit) as (ls' & E1 & _ & H1).
  exists ls'. split; [exact E1|]. intros n l l' kw kh maps Hn El El' Ek Hp. destruct (H1 n l El) as (x & X1 & _ & _ & _ & X3). assert (x = l') by congruence. subst x.
  specialize (X3 Hn). rewrite Ek in X3. destruct X3 as (z & Fz & _ & Dr). exists z. split; [exact Fz|]. pose proof (proj2 (fan_nonneg g (map g_kind ls) Hs) _ _ Fz) as Hz.
  assert (P : (0 < IZR (z + kw * kh * maps))%R) by (apply IZR_lt; lia). rewrite sqrt_div_alt by exact P. set (r := (sqrt 6 / sqrt (IZR (z + kw * kh * maps)))%R) in *.
  assert (Hr : (0 <= r)%R) by (unfold r; apply Rmult_le_pos; [apply sqrt_pos|apply Rlt_le, Rinv_0_lt_compat, sqrt_lt_R0, P]). clearbody r. clear - Dr Hr Hu.
  induction Dr as [e|e w e1 ws e2 H _ IH]; constructor; [|exact IH]. pose proof (Hu (- r)%R r e ltac:(lra)) as B. rewrite H in B. cbn [fst] in B. apply Rabs_le. lra.
Qed.
Print Assumptions C80_bounded.

(** ** Example: two convolutions with a pooling layer between them *)
Definition init_heap : list node :=
  [ mkNode (Some (mkKind false false true false)) [] [] 4 "" false true;
    mkNode (Some ex_kind) [mkConn (Some 0) 0 true] [] 1 "" false false;
    mkNode (Some ex_kind) [mkConn (Some 1) 0 true] [] 1 "" false false;
    mkNode (Some ex_kind) [mkConn (Some 2) 0 true] [] 1 "" false false;
    mkNode (Some (mkKind false true false false)) [mkConn (Some 3) 0 true; mkConn (Some 0) 1 true] [] 1 "" true false ].
Definition init_graph : graph := graph_of (add_nodes (new_graph init_heap) (map Some [0; 1; 2; 3; 4])).
(** Engines are counters and the "distribution" returns the upper bound plus the counter, so that draws can be told apart. *)
Definition count_uniform (low high e : Z) : Z * Z := (high + e, e + 1)%Z.
Definition init_layers (w b : Z) : list (@glayer Z Z) :=
  [ mkG GOther 7 [] [] 0%Z; mkG (GConv 3 3 1) 7 [w; w; w] [[b; b]] 10%Z; mkG (GPool 2 2) 7 [] [] 0%Z; mkG (GConv 5 5 2) 7 [w; w] [[b]] 20%Z; mkG GOther 7 [] [] 0%Z ].

Example init_hypotheses w b : closed (heap init_graph) (nodes init_graph) /\ consistent init_graph /\ acyclic (reads (heap init_graph)) (nodes init_graph) /\
  length (nodes init_graph) < 6 /\ length (init_layers w b) = length (heap init_graph) /\
  Forall sensible (map g_kind (init_layers w b)) /\ fits init_graph (map g_kind (init_layers w b)) /\
  fans init_graph (map g_kind (init_layers w b)) (consumers init_graph 1) 12 /\ fans init_graph (map g_kind (init_layers w b)) (consumers init_graph 3) 0.
Proof.
  assert (F4 : forall z, fans init_graph (map g_kind (init_layers w b)) (consumers init_graph 4) z -> z = 0%Z).
  { intros z H. vm_compute in H. now inversion H. }
  assert (N4 : fan init_graph (map g_kind (init_layers w b)) 4 0) by (apply fan_other; [reflexivity|vm_compute; apply fans_nil]).
  assert (N3 : fan init_graph (map g_kind (init_layers w b)) 3 50) by (apply (fan_conv init_graph _ 3 5 5 2); reflexivity).
  assert (F3 : fans init_graph (map g_kind (init_layers w b)) (consumers init_graph 3) 0) by (change (consumers init_graph 3) with [4]; apply (fans_cons _ _ 4 [] 0 0 N4), fans_nil).
  assert (F2 : fans init_graph (map g_kind (init_layers w b)) (consumers init_graph 2) 50) by (change (consumers init_graph 2) with [3]; apply (fans_cons _ _ 3 [] 50 0 N3), fans_nil).
  assert (N2 : fan init_graph (map g_kind (init_layers w b)) 2 12) by (apply (fan_pool init_graph (map g_kind (init_layers w b)) 2 2 2 50); [reflexivity|exact F2]).
  assert (F1 : fans init_graph (map g_kind (init_layers w b)) (consumers init_graph 1) 12) by (change (consumers init_graph 1) with [2]; apply (fans_cons _ _ 2 [] 12 0 N2), fans_nil).
  assert (F0 : fans init_graph (map g_kind (init_layers w b)) (consumers init_graph 0) 0) by (change (consumers init_graph 0) with (@nil nat); apply fans_nil).
  split; [|split; [|split; [|split; [|split; [|split; [|split; [|split; [exact F1|exact F3]]]]]]]].
  - intros n Hn. cbn in Hn. decompose [or] Hn; subst; try contradiction; (eexists; split; [vm_compute; reflexivity|]); cbn [n_inputs In];
      intros c Hc; decompose [or] Hc; subst; try contradiction; eexists; (split; [reflexivity|]); cbn; auto 10.
  - intros n nd E. do 5 (destruct n as [|n]; [vm_compute in E; injection E as <-; vm_compute; repeat constructor|]). cbn in E. destruct n; discriminate E.
  - assert (Dec : forall a b, clos_trans nat (reads (heap init_graph)) a b -> a < b \/ b < a).
    { assert (Hd : forall a b, reads (heap init_graph) a b -> a > b \/ False -> a > b) by tauto. clear Hd.
      intros a c H. assert (K : forall x y, clos_trans nat (reads (heap init_graph)) x y -> x > y); [|apply K in H; lia].
      clear. induction 1 as [x y (nd & cn & E & Hc & Eq)|]; [|lia].
      do 5 (destruct x as [|x]; [vm_compute in E; injection E as <-; cbn [n_inputs In] in Hc; decompose [or] Hc; subst; try contradiction; cbn in Eq; injection Eq as <-; lia|]).
      cbn in E. destruct x; discriminate E. }
    intros n _ H. apply Dec in H. lia.
  - cbn. lia.
  - reflexivity.
  - repeat constructor; cbn; lia.
  - intros n k z Hn Ek Fz. assert (U := proj2 (fan_unique init_graph (map g_kind (init_layers w b)))). cbn in Hn. decompose [or] Hn; subst; try contradiction; cbn in Ek; injection Ek as <-; cbn [own_fan].
    + rewrite (U _ _ F0 _ Fz). lia.
    + rewrite (U _ _ F1 _ Fz). lia.
    + rewrite (U _ _ F2 _ Fz). lia.
    + rewrite (U _ _ F3 _ Fz). lia.
    + rewrite (F4 z Fz). lia.
Qed.
(** The first convolution draws with the range for 12 + 9, the second with that for 50. *)
Example init_run w b : exists l0 l2 l4, initialize_layers count_uniform Z.opp (fun x => 100 * x)%Z 6 init_graph [] (init_layers w b) =
  Ok [l0; mkG (GConv 3 3 1) 7 [2110; 2111; 2112]%Z [[b; b]] 13%Z; l2; mkG (GConv 5 5 2) 7 [5020; 5021]%Z [[b]] 22%Z; l4].
Proof. do 3 eexists. vm_compute. reflexivity. Qed.
(** A distribution within its bounds exists. *)
Example middle_uniform low high : (low <= high)%R -> (low <= (low + high) / 2 <= high)%R.
Proof. intros H. lra. Qed.

(** Finding: the command "reset" of trainNetwork (tools/trainNetwork.cpp:397-400), which its help describes as "Reinitializes the
    nets parameters" (line 496), calls InitializeWeights only: this redraws the weights of convolutions (src/net/
    ConvolutionLayer.cpp:328-348) but leaves all biases, and the parameters of HMax layers, at their trained values, so training does
    not start over. *)
Theorem C80_reset_refuted :
  ~ (forall (ls1 ls2 ls1' ls2' : list (@glayer Z Z)),
      Forall2 (fun l1 l2 => g_kind l1 = g_kind l2 /\ length (g_weights l1) = length (g_weights l2) /\ map (@length Z) (g_rest l1) = map (@length Z) (g_rest l2) /\ g_engine l1 = g_engine l2) ls1 ls2 ->
      initialize_layers count_uniform Z.opp (fun x => 100 * x)%Z 6 init_graph [] ls1 = Ok ls1' ->
      initialize_layers count_uniform Z.opp (fun x => 100 * x)%Z 6 init_graph [] ls2 = Ok ls2' ->
      map (fun l => (g_weights l, g_rest l)) ls1' = map (fun l => (g_weights l, g_rest l)) ls2').
Proof.
  intros H. destruct (init_run 0 0) as (a & b & c & E1). destruct (init_run 1 1) as (d & e & f & E2). specialize (H (init_layers 0 0) (init_layers 1 1) _ _ ltac:(repeat constructor) E1 E2). discriminate H.
Qed.
Print Assumptions C80_reset_refuted.

(** Finding: a convolution built from a descriptor (LayerFactory::ConstructLayer) reads the parameter seed= into a local variable
    and never passes it to its random number engine (src/net/ConvolutionLayer.cpp:72-98; the other constructor does, line 41): the
    engine always starts in its default state. A seed in the descriptor, such as the one LayerFactory::InjectSeed puts there, has
    no effect: equal convolutions draw the same numbers, and no seed changes their initial weights. *)
Theorem C80_seed_refuted :
  ~ (forall (seeded : Z -> Z) (unseeded : Z), (forall a b, seeded a = seeded b -> a = b) ->
      exists e1 e2, engine_of_text unseeded (s_ "size=5x5 kernels=8 seed=1") = Ok e1 /\
        engine_of_text unseeded (s_ "size=5x5 kernels=8 seed=2") = Ok e2 /\
        e1 <> e2 /\ e1 = engine_of_values seeded 1 /\ e2 = engine_of_values seeded 2).
Proof.
  intros H. destruct (H (fun z => z) 0%Z (fun a b e => e)) as (e1 & e2 & E1 & E2 & Ne & _). apply Ne. vm_compute in E1, E2. congruence.
Qed.
Print Assumptions C80_seed_refuted.

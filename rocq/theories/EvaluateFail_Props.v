(** C81 and C94: a test reports numbers only if every one of its forward passes went through. *)
From Coq Require Import ZArith.
From Verif Require Import Base BaseFacts Float32 FloatOps Tensor_Model Num Trainer_Model Trainer_Props DatasetInput_Model StatLayers_Model Evaluate_Model EvaluateBinary_Model Evaluate_Props EvaluateBinary_Props.
Local Open Scope nat_scope.

Section Passes.
Context {D B : Type} (A : arith D) (pass : B -> list (list (list D)) -> res (B * list D)) (dl : data_layer D).
Let forward (w : res B) (ps : list (list (list D))) : res B * list D :=
  match (b <- w ;; pass b ps) with Ok (b, losses) => (Ok b, losses) | Fatal => (Fatal, []) | UB => (UB, []) end.
Lemma passes its : forall a (t : trainer D (res B)) es t' es' last, foldm (test_pass D A dl (res B) forward) (seq a its) (t, es) = Ok (t', es') -> world t' = Ok last ->
  exists h : nat -> B, world t = Ok (h 0) /\ h its = last /\ forall i, i < its -> exists losses, pass (h i) (map snd (layers t)) = Ok (h (S i), losses).
Proof.
  induction its as [|its IH]; intros a t es t' es' last E W; cbn [seq foldm] in E.
  - injection E as <- <-. exists (fun _ => last). split; [exact W|]. split; [reflexivity|]. intros i Hi. lia.
  - unfold test_pass at 1 in E. destruct (forward (world t) (map snd (layers t))) as [w losses] eqn:F. cbn [bind] in E.
    destruct (IH _ _ _ _ _ _ E W) as (h & H0 & Hl & H). cbn [world layers with_world] in H0, H. subst w.
    unfold forward in F. destruct (world t) as [d| |] eqn:Ed; cbn [bind] in F; try discriminate. destruct (pass d (map snd (layers t))) as [(d1, ls)| |] eqn:P; try discriminate.
    injection F as -> _. exists (fun i => match i with 0 => d | S j => h j end). split; [reflexivity|]. split; [exact Hl|]. intros [|i] Hi; [exists ls; exact P|]. apply H. lia.
Qed.
Variables (mode : bool -> res B -> res B) (scaling : nat -> D -> nat) (cfg : settings D).
Lemma test_passes (t : trainer D (res B)) es t' es' last : (forall m w b, mode m w = Ok b -> exists b0, w = Ok b0) ->
  test D A cfg dl (res B) forward mode scaling (t, es) = Ok (t', es') -> world t' = Ok last ->
  Trainer_Model.batch_size dl <> 0 /\
  exists h : nat -> B, mode true (world t) = Ok (h 0) /\
    forall i, i < scaling (testing_samples dl / Trainer_Model.batch_size dl + 1) (testing_ratio cfg) -> exists losses, pass (h i) (map snd (layers t)) = Ok (h (S i), losses).
Proof.
  intros Hm E W. unfold test, test_iterations in E. destruct (Nat.eqb_spec (Trainer_Model.batch_size dl) 0) as [|Nb]; [discriminate|]. split; [exact Nb|]. cbn [bind] in E.
  destruct (foldm _ _ _) as [[t1 es1]| |] eqn:F; try discriminate. cbn [bind] in E. injection E as <- <-. cbn [world with_world] in W.
  destruct (Hm _ _ _ W) as (b0 & W1). destruct (passes _ _ _ _ _ _ _ F W1) as (h & H0 & _ & H). exists h. auto.
Qed.
End Passes.

(** A test that reports rates has run all its passes (one after the other, each from the state the one before it left): none failed. *)
Theorem C81_every_pass {D W G} (A : arith D) (K : num W) wide zero gtb (shuffle : G -> list nat -> list nat * G) uniform training_sample testing_sample net scaling
  ltb div of_nat cfg (dl : data_layer D) (t : trainer D (res (bench W G))) es r :
  test_command A K wide zero gtb shuffle uniform training_sample testing_sample net scaling ltb div of_nat cfg dl t es = Ok r ->
  Trainer_Model.batch_size dl <> 0 /\
  exists h : nat -> bench W G, world_mode true (world t) = Ok (h 0) /\
    forall i, i < scaling (testing_samples dl / Trainer_Model.batch_size dl + 1) (testing_ratio cfg) ->
      exists losses, bench_forward K wide zero gtb shuffle uniform training_sample testing_sample net (h i) (map snd (layers t)) = Ok (h (S i), losses).
Proof.
  unfold test_command. intros E. destruct (test _ _ _ _ _ _ _ _ _) as [[t1 es1]| |] eqn:T; try discriminate. cbn [bind] in E. destruct (world t1) as [last| |] eqn:W1; try discriminate.
  refine (test_passes A _ dl _ scaling cfg t es t1 es1 last _ T W1). intros m [w| |] b; cbn; [eauto|discriminate|discriminate].
Qed.
Print Assumptions C81_every_pass.

(** The same for a network with one class. *)
Theorem C94_every_pass {D G} (A : arith D) zero gtb (shuffle : G -> list nat -> list nat * G) uniform training_sample testing_sample net scaling
  cfg (dl : data_layer D) (t : trainer D (res (detector G))) es r :
  detector_command A zero gtb shuffle uniform training_sample testing_sample net scaling cfg dl t es = Ok r ->
  Trainer_Model.batch_size dl <> 0 /\
  exists h : nat -> detector G, detector_mode true (world t) = Ok (h 0) /\
    forall i, i < scaling (testing_samples dl / Trainer_Model.batch_size dl + 1) (testing_ratio cfg) ->
      exists losses, detector_forward zero gtb shuffle uniform training_sample testing_sample net (h i) (map snd (layers t)) = Ok (h (S i), losses).
Proof.
  unfold detector_command. intros E. destruct (test _ _ _ _ _ _ _ _ _) as [[t1 es1]| |] eqn:T; try discriminate. cbn [bind] in E. destruct (world t1) as [last| |] eqn:W1; try discriminate.
  refine (test_passes A _ dl _ scaling cfg t es t1 es1 last _ T W1). intros m [w| |] b; cbn; [eauto|discriminate|discriminate].
Qed.
Print Assumptions C94_every_pass.

(** ** Tests that report *)
Example C81_every_pass_hypotheses : exists r, test_command Zarith_ Z_num (fun v => v) f32_zero fgt ex_shuffle ex_uniform (ex_testing_sample 1) (ex_testing_sample 1) (fun _ o => Ok (o_label o, []))
  (fun n r => n) Z.ltb Z.div Z.of_nat ex_cfg2 (mkData 2 2 1%Z 0 2) (new_trainer Z Zarith_ (res (bench Z unit)) (Ok (ex_bench 0%Z 1)) []) [] = Ok r.
Proof. eexists. vm_compute. reflexivity. Qed.
Example C94_every_pass_hypotheses : exists r, detector_command Zarith_ f32_zero fgt ex_shuffle ex_uniform (bin_sample 1) (bin_sample 1) (fun _ o => Ok (o_data o, [])) (fun n r => n) ex_cfg2 (mkData 2 2 1%Z 0 2)
    (new_trainer Z Zarith_ (res (detector unit)) (Ok (bin_detector 1)) []) [] = Ok r.
Proof. destruct C94_value as (t' & es' & E). eexists. exact E. Qed.

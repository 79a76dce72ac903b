(** Model of src/util/GradientTester.cpp: GradientTester::TestGradient (lines 17-117) and
    GradientTester::DoGradientTest (lines 119-178).

    The network is an oracle: a world [W] holds everything but the parameters (activations, deltas of
    activations, random states).  [forward] is NetGraph::FeedForward (Layer::FeedForward), which reads the
    parameters; [backward] is BackPropagate, which also gives the gradients; [loss] is
    NetGraph::AggregateLoss (CalculateLoss).  A pass does not write parameters.
    Counters are unbounded (the program's unsigned counters would need 2^32 tested weights to wrap), and
    the log output is left out except for the final counts. *)
From Coq Require Import ZArith Bool Floats.SpecFloat.
From Verif Require Import Base Float32 FloatOps Float64.
Local Open Scope Z_scope.

(** The literals 0.005, 1.02, 0.98, 1.2, 0.8, 0.85 and 2.0 (lines 18, 71-72, 168). *)
Definition d_0005 : double := S754_finite false 5764607523034235 (-60).
Definition d_102 : double := S754_finite false 4593671619917906 (-52).
Definition d_098 : double := S754_finite false 8827055269646172 (-53).
Definition d_12 : double := S754_finite false 5404319552844595 (-52).
Definition d_08 : double := S754_finite false 7205759403792794 (-53).
Definition d_085 : double := S754_finite false 7656119366529843 (-53).
Definition d_2 : double := S754_finite false 4503599627370496 (-51).

Inductive verdict : Type := Okay | Tolerable | Failed.

(** Lines 71-92. *)
Definition judge (ratio : double) : verdict :=
  if SFltb d_102 ratio || SFltb ratio d_098
  then if SFltb d_12 ratio || SFltb ratio d_08 then Failed else Tolerable
  else Okay.

Record counts : Type := mkCounts { c_okay : nat; c_tolerable : nat; c_failed : nat; c_total : nat }.
Definition no_counts : counts := mkCounts 0 0 0 0.
Definition count (v : verdict) (c : counts) : counts :=
  match v with
  | Okay => mkCounts (S (c_okay c)) (c_tolerable c) (c_failed c) (S (c_total c))
  | Tolerable => mkCounts (c_okay c) (S (c_tolerable c)) (c_failed c) (S (c_total c))
  | Failed => mkCounts (c_okay c) (c_tolerable c) (S (c_failed c)) (S (c_total c))
  end.
(** Lines 103-106. *)
Definition add_counts (g c : counts) : counts :=
  mkCounts (c_okay g + c_okay c) (c_tolerable g + c_tolerable c) (c_failed g + c_failed c) (c_total g + c_total c).

(** [ps[p]->data[e]], and the same with a new value. *)
Definition weight (ps : list (list f32)) (p e : nat) : res f32 := l <- load ps p ;; load l e.
Definition set_weight (ps : list (list f32)) (p e : nat) (v : f32) : res (list (list f32)) :=
  l <- load ps p ;; l' <- store l e v ;; store ps p l'.

(** Line 48: the values of e in [for (unsigned e = 0; e < elements; e += skip_weights + 1)]; e is an
    unsigned int, and so is the increment.  None: the loop has not ended after [fuel] rounds. *)
Fixpoint indices (fuel : nat) (elements stride e : Z) : option (list nat) :=
  if e <? elements
  then match fuel with
       | O => None
       | S fuel' => option_map (cons (Z.to_nat e)) (indices fuel' elements stride ((e + stride) mod 2 ^ 32))
       end
  else Some [].
Definition stride_of (skip_weights : Z) : Z := (skip_weights + 1) mod 2 ^ 32.

Section Gradient.
Variable W : Type.
Variable forward : W -> list (list f32) -> W.
Variable backward : W -> list (list f32) -> W * list (list f32).
Variable loss : W -> f32.

(** The parameters and the world during the test. *)
Record testing : Type := mkTesting { t_params : list (list f32); t_world : W; t_counts : counts }.

(** Lines 49-97, for weight [e] of parameter tensor [p]. *)
Definition test_weight (gradients : list (list f32)) (p : nat) (t : testing) (e : nat) : res testing :=
  old <- weight (t_params t) p e ;;
  plus <- set_weight (t_params t) p e (f_of_d (dadd (d_of_f old) d_0005)) ;;
  let w1 := forward (t_world t) plus in
  let plus_loss := d_of_f (loss w1) in
  minus <- set_weight plus p e (f_of_d (dsub (d_of_f old) d_0005)) ;;
  let w2 := forward w1 minus in
  let minus_loss := d_of_f (loss w2) in
  g <- weight gradients p e ;;
  let delta := d_of_f g in
  let actual_delta := ddiv (dsub plus_loss minus_loss) (dmul d_2 d_0005) in
  let ratio := ddiv actual_delta delta in
  restored <- set_weight minus p e old ;;
  Ok (mkTesting restored w2 (count (judge ratio) (t_counts t))).

(** Lines 38-107 for one parameter tensor: its own counters are added to the global ones. *)
Definition test_tensor (gradients : list (list f32)) (t : testing) (pi : nat * list nat) : res testing :=
  t' <- foldm (test_weight gradients (fst pi)) (snd pi) (mkTesting (t_params t) (t_world t) no_counts) ;;
  Ok (mkTesting (t_params t') (t_world t') (add_counts (t_counts t) (t_counts t'))).

(** Lines 33-37: the nodes and their parameters in order, as one list of parameter tensors; the tensors
    of a layer that is not gradient safe ([unsafe]) are skipped. *)
Fixpoint plan (fuel : nat) (stride : Z) (p : nat) (unsafe : list bool) (ps : list (list f32)) : option (list (nat * list nat)) :=
  match unsafe, ps with
  | true :: us, _ :: rest => plan fuel stride (S p) us rest
  | false :: us, l :: rest =>
    match indices fuel (Z.of_nat (length l)) stride 0, plan fuel stride (S p) us rest with
    | Some is, Some r => Some ((p, is) :: r)
    | _, _ => None
    end
  | _, _ => Some []
  end.

(** The result: the state afterwards, and whether FATAL was raised (lines 113-115). *)
Definition test_gradient (fuel : nat) (unsafe : list bool) (skip_weights : Z) (fatal_fail : bool) (w : W) (ps : list (list f32))
  : option (res (testing * bool)) :=
  let w1 := forward w ps in
  let (w2, gradients) := backward w1 ps in
  match plan fuel (stride_of skip_weights) 0 unsafe ps with
  | None => None
  | Some todo => Some (
      t <- foldm (test_tensor gradients) todo (mkTesting ps w2 no_counts) ;;
      Ok (t, (0 <? c_failed (t_counts t))%nat && fatal_fail))
  end.

(** ** DoGradientTest: one tensor [data] of a layer (its weights or its input). *)
(** Lines 134-165. *)
Definition test_element (epsilon : f32) (delta : list f32) (st : list f32 * W * nat) (e : nat) : res (list f32 * W * nat) :=
  let '(data, w, okay) := st in
  old <- load data e ;;
  gradient <- load delta e ;;
  plus <- store data e (fadd old epsilon) ;;
  let w1 := forward w [plus] in
  let forward_loss := loss w1 in
  minus <- store plus e (fsub old epsilon) ;;
  let w2 := forward w1 [minus] in
  let backward_loss := loss w2 in
  let fd_gradient := f_of_d (ddiv (d_of_f (fsub forward_loss backward_loss)) (dmul d_2 (d_of_f epsilon))) in
  restored <- store minus e old ;;
  let ratio := d_of_f (fdiv fd_gradient gradient) in
  Ok (restored, w2, if SFltb d_12 ratio || SFltb ratio d_08 then okay else S okay).

(** Lines 119-178.  [write_deltas] is the callback WriteLossDeltas. *)
Definition do_gradient_test (unsafe : bool) (write_deltas : W -> W) (epsilon : f32) (w : W) (data : list f32) : res (bool * list f32) :=
  if unsafe then Ok (true, data)
  else
    let w1 := write_deltas (forward w [data]) in
    let (w2, gradients) := backward w1 [data] in
    delta <- load gradients 0 ;;
    r <- foldm (test_element epsilon delta) (seq 0 (length data)) (data, w2, 0%nat) ;;
    let '(data', _, okay) := r in
    let elements := length data in
    Ok (if (okay =? elements)%nat then true
        else SFltb d_085 (ddiv (d_of_Z (Z.of_nat okay)) (d_of_Z (Z.of_nat elements))), data').
End Gradient.
Arguments mkTesting {W} _ _ _. Arguments t_params {W} _. Arguments t_world {W} _. Arguments t_counts {W} _.

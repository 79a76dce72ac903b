(** What a test of a network with one class must report, in terms of the test set and of the function the network computes (C94). *)
From Verif Require Import Base Float32 FloatOps Tensor_Model Tensor_Spec Num Trainer_Model DatasetInput_Model DatasetInput_Spec
  StatLayers_Model StatLayers_Spec Evaluate_Spec EvaluateBinary_Model FloatOps_Flocq.
Local Open Scope nat_scope.

(** The pixels of one sample, row by row: what the network says, the label and the weight. *)
Definition sample_elements (w h : nat) (f : picture -> picture -> picture) (e : example) : list (element f32) :=
  for_ h (fun y => for_ w (fun x => [(f (e_image e) (e_helper e) x y 0, e_label e x y 0, e_weight e x y 0)])).
(** All pixels of the test set, sample by sample. *)
Definition all_elements (w h n : nat) (set : nat -> example) (f : picture -> picture -> picture) : list (element f32) :=
  for_ n (fun i => sample_elements w h f (set i)).

(** The weight of the pixels that are found, claimed falsely, missed and rightly left out at a threshold, in float arithmetic. *)
Definition found (th : f32) (es : list (element f32)) : f32 := etotal f32_num (fun e => above th e && positive e) es.
Definition claimed (th : f32) (es : list (element f32)) : f32 := etotal f32_num (fun e => above th e && negb (positive e)) es.
Definition missed (th : f32) (es : list (element f32)) : f32 := etotal f32_num (fun e => negb (above th e) && positive e) es.
Definition left_out (th : f32) (es : list (element f32)) : f32 := etotal f32_num (fun e => negb (above th e) && negb (positive e)) es.

(** A share of a whole; there is none (-1) if the whole is nothing. *)
Definition share (a b : f32) : f32 := if fgt (fadd a b) f32_zero then fdiv a (fadd a b) else f_of_Z (-1).
Definition precision_at th es : f32 := share (found th es) (claimed th es).
Definition recall_at th es : f32 := share (found th es) (missed th es).
(** Twice the product over the sum; none (-1) if one of them is missing. *)
Definition f1_at th es : f32 :=
  let p := precision_at th es in let r := recall_at th es in
  if fge p f32_zero && fge r f32_zero then fdiv (fmul (fmul (f_of_Z 2) p) r) (fadd p r) else f_of_Z (-1).
(** A number that exists. *)
Definition given (v : f32) : option f32 := if fge v f32_zero then Some v else None.
Definition report_at (th : f32) (es : list (element f32)) : binary_stats :=
  mkBS (given (share (claimed th es) (left_out th es)))
       (given (if fgt (fadd (found th es) (missed th es)) f32_zero then fdiv (missed th es) (fadd (found th es) (missed th es)) else f_of_Z (-1)))
       (given (precision_at th es)) (given (recall_at th es))
       (given (fdiv (fadd (found th es) (left_out th es)) (fadd (fadd (fadd (found th es) (left_out th es)) (missed th es)) (claimed th es))))
       (given (f1_at th es)).

(** A threshold is usable if its F1 value is above -2 (it is not a number when precision and recall are 0). *)
Definition usable (es : list (element f32)) (th : f32) : Prop := fgt (f1_at th es) (f_of_Z (-2)) = true.
(** The first of the thresholds with the largest F1 value. *)
Definition best (ths : list f32) (es : list (element f32)) (t : nat) (th : f32) : Prop :=
  nth_error ths t = Some th /\ usable es th /\
  (forall t' th', nth_error ths t' = Some th' -> fgt (f1_at th' es) (f1_at th es) = false) /\
  (forall t' th', t' < t -> nth_error ths t' = Some th' -> fge (f1_at th' es) (f1_at th es) = false).

(** Outputs for [b] samples with one label and one weight per pixel. *)
Definition detectable (o0 : outputs f32) (b : nat) : Prop :=
  wf (o_label o0) /\ wf (o_weight o0) /\ maps (o_label o0) = 1 /\ maps (o_weight o0) = 1 /\ 0 < width (o_label o0) /\ 0 < height (o_label o0) /\
  samples (o_label o0) = b /\ samples (o_weight o0) = b /\ width (o_weight o0) = width (o_label o0) /\ height (o_weight o0) = height (o_label o0).
(** No sample has a negative weight (or one that is not a number). *)
Definition weighted (w h n : nat) (set : nat -> example) : Prop :=
  forall i x y, i < n -> x < w -> y < h -> f32_nonneg (e_weight (set i) x y 0).

(** Ready for a test: training mode, the layer is enabled and has counted nothing. *)
Definition ready {D G} (o0 : outputs f32) (b n : nat) (ths : list f32) (t : trainer D (res (detector G))) : Prop :=
  exists l o ds m, world t = Ok (mkDetector (l, o, ds) m) /\ shaped_like o0 o /\
    DatasetInput_Model.batch_size l = b /\ elements_testing l = n /\ testing l = false /\
    bs_thresholds m = ths /\ bs_disabled m = false /\
    length (bs_tp m) = length ths /\ length (bs_fp m) = length ths /\ length (bs_fn m) = length ths /\ length (bs_tn m) = length ths /\
    forall l, In l [bs_tp m; bs_fp m; bs_fn m; bs_tn m] -> Forall (eq f32_zero) l.

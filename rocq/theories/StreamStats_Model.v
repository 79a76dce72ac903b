(** Model of tools/tensorStreamStats.cpp.

    Sums, quotients and comparisons of long doubles are those of the real numbers; [value]
    is the number a datum stands for.  A quotient with denominator 0 is [None].  Messages
    and the correction ratio sums (lines 77-84), which nothing reads, and the
    casts to long and to per cent for printing are left out. *)
From Coq Require Import Reals.
From Verif Require Import Base Float32 Tensor_Model DatasetInput_Model Dataset_Model.
Local Open Scope nat_scope.
Local Open Scope list_scope.

Section Stats.
Variable position : nat -> nat -> f32.
Variable error_function : nat -> nat -> nat -> nat -> f32.
Variable mul : f32 -> f32 -> f32.
Variable value : f32 -> R.

(** Lines 54-58: [pixel_counts] and [pixel_counts_weighted]. *)
Definition count_pixel (d : dataset) (o : outputs f32) (counts : list R * list R) (p : nat * nat) : res (list R * list R) :=
  c <- pixel_maximum fgt f32_lowest (o_label o) (fst p) (snd p) 0 ;;
  w <- get (o_weight o) (fst p) (snd p) 0 0 ;;
  a <- load (fst counts) c ;;
  cw <- load (ds_class_weights d) c ;;
  b <- load (snd counts) c ;;
  Ok (upd (fst counts) c (a + value w)%R, upd (snd counts) c (b + value (mul w cw))%R).

(** Lines 52-60. *)
Definition positions_of (d : dataset) : list (nat * nat) :=
  flat_map (fun y => map (fun x => (x, y)) (seq 0 (ds_width d))) (seq 0 (ds_height d)).

(** Lines 49-61; whether a sample could be loaded is not looked at. *)
Definition count_sample (d : dataset) (s : outputs f32 * (list R * list R)) (sample : nat) : res (outputs f32 * (list R * list R)) :=
  r <- get_training_sample position error_function mul d (fst s) 0 sample ;;
  counts <- foldm (count_pixel d (fst r)) (positions_of d) (snd s) ;;
  Ok (fst r, counts).

(** Lines 34-61; [o] are the tensors of lines 34-37, [classes] is GetClasses(). *)
Definition count_classes (d : dataset) (classes : nat) (o : outputs f32) : res (list R * list R) :=
  r <- foldm (count_sample d) (seq 0 (length (ds_training d) / 2)) (o, (repeat 0%R classes, repeat 0%R classes)) ;;
  Ok (snd r).
End Stats.

Definition quotient (a b : R) : option R := if Req_EM_T b 0 then None else Some (a / b)%R.
Definition is_positive (x : R) : bool := if Rlt_dec 0 x then true else false.

(** One line per class (lines 91-98, 105-112): count, actual ratio, correction ratio and
    corrected count. *)
Record row : Type := mkRow { r_count : R; r_ratio : option R; r_correction : option R; r_corrected : option R }.
Record table : Type := mkTable { t_counted : nat; t_expected : option R; t_rows : list row }.

(** Lines 63-76 and 86-98 (or 100-112). *)
Definition table_of (counts : list R) : table :=
  let total := fold_left Rplus counts 0%R in
  let counted := length (filter is_positive counts) in
  let expected := quotient 1 (INR counted) in
  mkTable counted expected (map (fun c =>
    let ratio := quotient c total in
    let correction := if is_positive c then match expected, ratio with Some e, Some r => quotient e r | _, _ => None end else Some 0%R in
    mkRow c ratio correction (option_map (fun q => q * c)%R correction)) counts).

(** C39 and C40: the pooling layers. *)
From Verif Require Import Base BaseFacts Float32 FloatOps FloatInt_Proofs Tensor_Model Tensor_Spec Tensor_Proofs Num Math_Spec Conv_Proofs Pool_Model Pool_Spec Pool_Proofs.

(** * C39 *)

Theorem C39_accepts : forall rw rh w h r, 0 < rw -> 0 < rh ->
  pool_create rw rh w h = Ok (Some r) <-> w = fst r * rw /\ h = snd r * rh.
Proof.
  intros rw rh w h r Hw Hh. unfold pool_create. destruct (Nat.eqb_spec rw 0); [lia|]. destruct (Nat.eqb_spec rh 0); [lia|]. cbn [orb].
  destruct (Nat.eqb_spec (w mod rw) 0) as [E1|E1], (Nat.eqb_spec (h mod rh) 0) as [E2|E2]; cbn [negb orb];
    (split; [intros H; try discriminate|intros [A B]]).
  - injection H as <-. cbn. pose proof (Nat.div_mod w rw). pose proof (Nat.div_mod h rh). lia.
  - rewrite A, B. rewrite !Nat.div_mul by lia. now destruct r.
  - rewrite B, Nat.mod_mul in E2 by lia. lia.
  - rewrite A, Nat.mod_mul in E1 by lia. lia.
  - rewrite A, Nat.mod_mul in E1 by lia. lia.
Qed.
Print Assumptions C39_accepts.

(** Every output is the first largest element of its region (column by column), and after
    the backward pass the selected elements hold the gradients of their outputs, all others
    zero.  Regions must hold some value above -FLT_MAX; images have at most 2^24 columns and
    rows, because the layer stores positions in floats. *)
Theorem C39_pooling : forall rw rh w h mm ss (input mix miy output output_delta input_delta : tensor f32) img dl,
  0 < rw -> 0 < rh -> (Z.of_nat (w * rw) <= 2 ^ 24)%Z -> (Z.of_nat (h * rh) <= 2 ^ 24)%Z ->
  wf input -> has_shape input ss (w * rw) (h * rh) mm -> contents input img ->
  wf mix -> has_shape mix ss w h mm -> wf miy -> has_shape miy ss w h mm -> wf output -> has_shape output ss w h mm ->
  wf output_delta -> has_shape output_delta ss w h mm -> contents output_delta dl ->
  wf input_delta -> has_shape input_delta ss (w * rw) (h * rh) mm ->
  (forall ox oy m s, ox < w -> oy < h -> m < mm -> s < ss ->
     exists x y, ox * rw <= x < ox * rw + rw /\ oy * rh <= y < oy * rh + rh /\ fgt (img x y m s) f32_lowest = true) ->
  exists sel mix' miy' output' input_delta',
    pool_ff f32_order rw rh input mix miy output = Ok (mix', miy', output') /\
    pool_bp f32_num mix' miy' output_delta input_delta = Ok input_delta' /\
    (forall ox oy m s, ox < w -> oy < h -> m < mm -> s < ss ->
       first_max f32_order (columns (ox * rw) (oy * rh) rw rh) (fun p => img (fst p) (snd p) m s) (sel ox oy m s)) /\
    same_shape output' output /\ contents output' (fun ox oy m s => img (fst (sel ox oy m s)) (snd (sel ox oy m s)) m s) /\
    same_shape input_delta' input_delta /\ contents input_delta' (fun x y m s =>
      if same_cell (sel (x / rw) (y / rh) m s) (x, y) then dl (x / rw) (y / rh) m s else f32_zero).
Proof.
  intros rw rh w h mm ss input mix miy output output_delta input_delta img dl Hrw Hrh Bw Bh Wi Si Ci Wx Sx Wy Sy Wo So Wd Sd Cd Wid Sid Hab.
  destruct (pool_ff_spec f32_order f32_order_laws rw rh w h mm ss input output mix miy img) as (sel & mix' & miy' & output' & E & (A1 & A2 & A3) & (B1 & B2 & B3) & (C1 & C2 & C3) & Hsel); auto.
  destruct (pool_bp_spec f32_num rw rh w h mm ss mix' miy' output_delta input_delta sel dl) as (id' & Eb & Wb & Sb & Cb); auto.
  { destruct A2 as (F1 & F2 & F3 & F4), Sx as (G1 & G2 & G3 & G4). repeat split; congruence. }
  { destruct B2 as (F1 & F2 & F3 & F4), Sy as (G1 & G2 & G3 & G4). repeat split; congruence. }
  { intros ox oy m s H1 H2 H3 H4. apply in_columns. apply first_max_in with (1 := Hsel ox oy m s H1 H2 H3 H4). }
  exists sel, mix', miy', output', id'. split; [exact E|]. split; [exact Eb|]. split; [exact Hsel|]. split; [exact C2|]. split; [exact C3|]. split; [exact Sb|exact Cb].
Qed.
Print Assumptions C39_pooling.

(** What [first_max] means for a region: the element is in it, none is larger, and it is the
    only such element before itself in the scanning order. *)
Theorem C39_first_max : forall x0 y0 w h (val : nat * nat -> f32) p, first_max f32_order (columns x0 y0 w h) val p ->
  x0 <= fst p < x0 + w /\ y0 <= snd p < y0 + h /\
  forall x y, x0 <= x < x0 + w -> y0 <= y < y0 + h -> fgt (val (x, y)) (val p) = false.
Proof.
  intros x0 y0 w h val p H. pose proof (first_max_in _ _ _ _ H) as Hin. apply in_columns in Hin as [H1 H2].
  split; [exact H1|]. split; [exact H2|]. intros x y Hx Hy. destruct H as (b & a & _ & _ & Hm & _). apply Hm. apply in_columns. auto.
Qed.
Print Assumptions C39_first_max.

Definition ft (s w h m : nat) (l : list f32) : tensor f32 := mkTensor s w h m (s * m * h * w) (Some l).
(** 1, 2, 3 and 4 as floats. *)
Definition f_ (n : Z) : f32 := f_of_Z n.
Example C39_case :
  (r <- pool_ff f32_order 2 2 (ft 1 4 2 1 (map f_ [1; 4; 2; 2; 4; 3; 1; 2]%Z)) (ft 1 2 1 1 [0; 0]%Z) (ft 1 2 1 1 [0; 0]%Z) (ft 1 2 1 1 [0; 0]%Z) ;;
   let '(mix, miy, out) := r in d <- pool_bp f32_num mix miy (ft 1 2 1 1 (map f_ [7; 8]%Z)) (ft 1 4 2 1 (map f_ [9; 9; 9; 9; 9; 9; 9; 9]%Z)) ;; Ok (out, d)) =
  Ok (ft 1 2 1 1 (map f_ [4; 2]%Z), ft 1 4 2 1 (map f_ [0; 0; 8; 0; 7; 0; 0; 0]%Z)).
Proof. vm_compute. reflexivity. Qed.

(** FINDING: if no value of a region is above -FLT_MAX, for example if all are NaN, the
    output is -FLT_MAX, which the region does not contain, and the gradient goes to the
    top left pixel of the map, over the gradient that belongs there. *)
Theorem C39_nan_refuted : exists input mix miy output mix' miy' output' output_delta input_delta input_delta',
  pool_ff f32_order 1 1 input mix miy output = Ok (mix', miy', output') /\ pool_bp f32_num mix' miy' output_delta input_delta = Ok input_delta' /\
  at_pos output' 1 0 0 0 <> at_pos input 1 0 0 0 /\
  at_pos input_delta' 0 0 0 0 = at_pos output_delta 1 0 0 0 /\ at_pos output_delta 0 0 0 0 <> at_pos output_delta 1 0 0 0.
Proof.
  set (z := ft 1 2 1 1 [0; 0]%Z).
  exists (ft 1 2 1 1 [f_ 1; 2143289344]%Z), z, z, z, z, z, (ft 1 2 1 1 [f_ 1; f32_lowest]), (ft 1 2 1 1 [f_ 5; f_ 6]), z, (ft 1 2 1 1 [f_ 6; 0%Z]).
  split; [vm_compute; reflexivity|]. split; [vm_compute; reflexivity|]. split; [vm_compute; discriminate|].
  split; [vm_compute; reflexivity|vm_compute; discriminate].
Qed.
Print Assumptions C39_nan_refuted.

(** * C40 *)

Theorem C40_create : forall rw rh sw sh w h, 0 < sw -> 0 < sh -> rw <= w -> rh <= h ->
  apool_create rw rh sw sh w h = Ok (Z.of_nat (positions w rw sw), Z.of_nat (positions h rh sh)).
Proof.
  intros rw rh sw sh w h Hsw Hsh Hw Hh. unfold apool_create. destruct (Nat.eqb_spec sw 0); [lia|]. destruct (Nat.eqb_spec sh 0); [lia|].
  cbn [orb]. now rewrite !apool_dim_positions.
Qed.
Print Assumptions C40_create.

(** Every output is the first largest element of its window (row by row); after the backward
    pass every input element holds the sum of the gradients of the windows that selected it,
    added in the order of the outputs. *)
Theorem C40_pooling : forall rw rh sw sh w h mm ss (input mask output output_delta input_delta : tensor f32) img dl,
  0 < sw -> 0 < sh -> (Z.of_nat (w * h) <= 2 ^ 24)%Z ->
  let ow := positions w rw sw in let oh := positions h rh sh in
  wf input -> has_shape input ss w h mm -> contents input img ->
  wf mask -> has_shape mask ss ow oh mm -> wf output -> has_shape output ss ow oh mm ->
  wf output_delta -> has_shape output_delta ss ow oh mm -> contents output_delta dl ->
  wf input_delta -> has_shape input_delta ss w h mm ->
  (forall ox oy m s, ox < ow -> oy < oh -> m < mm -> s < ss ->
     exists x y, ox * sw <= x < ox * sw + rw /\ oy * sh <= y < oy * sh + rh /\ fgt (img x y m s) f32_lowest = true) ->
  exists sel mask' output' input_delta',
    apool_ff f32_order rw rh sw sh input mask output = Ok (mask', output') /\
    apool_bp f32_num rw rh sw sh mask' output_delta input_delta = Ok input_delta' /\
    (forall ox oy m s, ox < ow -> oy < oh -> m < mm -> s < ss ->
       first_max f32_order (rows (ox * sw) (oy * sh) rw rh) (fun p => img (fst p) (snd p) m s) (sel ox oy m s)) /\
    same_shape output' output /\ contents output' (fun ox oy m s => img (fst (sel ox oy m s)) (snd (sel ox oy m s)) m s) /\
    same_shape input_delta' input_delta /\ contents input_delta' (fun x y m s =>
      fold_left fadd (map (fun o => dl (fst o) (snd o) m s)
                          (filter (fun o => same_cell (sel (fst o) (snd o) m s) (x, y)) (rows 0 0 ow oh))) f32_zero).
Proof.
  intros rw rh sw sh w h mm ss input mask output output_delta input_delta img dl Hsw Hsh Hb ow oh Wi Si Ci Wm Sm Wo So Wd Sd Cd Wid Sid Hab.
  destruct (apool_ff_spec f32_order f32_order_laws rw rh sw sh w h mm ss input output mask img) as (sel & mask' & output' & E & (A1 & A2 & A3) & (C1 & C2 & C3) & Hsel); auto.
  destruct (apool_bp_spec f32_num rw rh sw sh w h mm ss mask' output_delta input_delta sel dl) as (id' & Eb & Wb & Sb & Cb); auto.
  { destruct A2 as (F1 & F2 & F3 & F4). unfold has_shape. rewrite F1, F2, F3, F4. exact Sm. }
  { intros ox oy m s H1 H2 H3 H4. apply in_rows. apply first_max_in with (1 := Hsel ox oy m s H1 H2 H3 H4). }
  exists sel, mask', output', id'. split; [exact E|]. split; [exact Eb|]. split; [exact Hsel|]. split; [exact C2|]. split; [exact C3|]. split; [exact Sb|exact Cb].
Qed.
Print Assumptions C40_pooling.

Example C40_case :
  (r <- apool_ff f32_order 2 1 1 1 (ft 1 3 1 1 (map f_ [1; 4; 2]%Z)) (ft 1 2 1 1 [0; 0]%Z) (ft 1 2 1 1 [0; 0]%Z) ;;
   d <- apool_bp f32_num 2 1 1 1 (fst r) (ft 1 2 1 1 (map f_ [7; 8]%Z)) (ft 1 3 1 1 (map f_ [9; 9; 9]%Z)) ;; Ok (snd r, d)) =
  Ok (ft 1 2 1 1 (map f_ [4; 4]%Z), ft 1 3 1 1 (map f_ [0; 15; 0]%Z)).
Proof. vm_compute. reflexivity. Qed.

(** FINDING: a stride of zero, which the constructor accepts, is divided by. *)
Theorem C40_zero_stride_refuted : forall rw rh sw sh w h, sw = 0 \/ sh = 0 -> apool_create rw rh sw sh w h = UB.
Proof. intros rw rh sw sh w h [->| ->]; unfold apool_create; [reflexivity|]. now rewrite orb_true_r. Qed.
Print Assumptions C40_zero_stride_refuted.

(** FINDING: CreateOutputs does not check that the window fits, and rounds towards zero: a
    window wider than the image is accepted and read behind the image. *)
Theorem C40_window_refuted : exists rw rh sw sh input mask output,
  wf input /\ wf mask /\ wf output /\ 0 < sw /\ 0 < sh /\
  apool_create rw rh sw sh (width input) (height input) = Ok (Z.of_nat (width output), Z.of_nat (height output)) /\
  apool_ff f32_order rw rh sw sh input mask output = UB.
Proof.
  exists 3, 1, 2, 1, (ft 1 2 1 1 [f_ 1; f_ 2]), (ft 1 1 1 1 [0%Z]), (ft 1 1 1 1 [0%Z]).
  repeat split; try (cbn; lia); vm_compute; reflexivity.
Qed.
Print Assumptions C40_window_refuted.

(** FINDING: positions from 2^24 on do not all fit into a float.  In an image with 2^24 + 2
    columns (one row, windows of two columns, stride 1) where the last window selected its
    first pixel, column 2^24, its gradient also goes to column 2^24 + 1. *)
Theorem C40_large_refuted : exists n, (Z.of_nat n = 2 ^ 24)%Z /\ forall mask output_delta d, width output_delta = n + 1 -> height output_delta = 1 ->
    get mask n 0 0 0 = Ok (uint_to_f ((n + 2) * 0 + n)) -> get output_delta n 0 0 0 = Ok d ->
    apool_sum f32_num 2 1 1 1 (n + 2) mask output_delta (n + 1) 0 0 0 = Ok (fadd f32_zero d).
Proof.
  exists (Z.to_nat (2 ^ 24)). split; [rewrite Z2Nat.id; lia|].
  assert (Hn : Z.of_nat (Z.to_nat (2 ^ 24)) = (2 ^ 24)%Z) by (rewrite Z2Nat.id; lia).
  set (n := Z.to_nat (2 ^ 24)) in *. clearbody n. intros mask od d Hw Hh Hm Hd. unfold apool_sum. rewrite Hw, Hh.
  unfold apool_start, apool_end. destruct (Nat.ltb_spec (n + 1) 2); [lia|]. change (0 <? 1) with true. cbv iota.
  rewrite !Nat.div_1_r. replace (Nat.min (n + 1 + 1) (n + 1)) with (n + 1) by lia. change (Nat.min (0 + 1) 1) with 1.
  unfold for_from, range. change (1 - 0) with 1. replace (n + 1 - (n + 1 - 2 + 1)) with 1 by lia. replace (n + 1 - 2 + 1) with n by lia.
  cbn [seq flat_map app foldm fst snd]. rewrite Hm. cbn [bind].
  replace (feq (uint_to_f ((n + 2) * 0 + n)) (uint_to_f (n + 1 + (n + 2) * 0))) with true.
  - rewrite Hd. reflexivity.
  - unfold uint_to_f. replace (Z.of_nat ((n + 2) * 0 + n)) with (2 ^ 24)%Z by lia.
    replace (Z.of_nat (n + 1 + (n + 2) * 0)) with (2 ^ 24 + 1)%Z by lia. vm_compute. reflexivity.
Qed.
Print Assumptions C40_large_refuted.

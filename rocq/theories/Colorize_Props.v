(** C51: colour images of network outputs. *)
From Verif Require Import Base BaseFacts LoopFacts Float32 FloatOps Tensor_Model Tensor_Spec Tensor_Proofs Math_Proofs Pixel_Model Pixel_Proofs Pixel_Props Colorize_Model.
Local Open Scope nat_scope.

(** The red, green and blue byte of a colour 0xRRGGBB. *)
Definition rgb (color : Z) (c : nat) : Z := ((color / 256 ^ (2 - Z.of_nat c)) mod 256)%Z.

Lemma channel_rgb color c : c < 3 -> channel color c = datum_from_uchar (rgb color c).
Proof.
  intros Hc. unfold channel, rgb. f_equal. change 255%Z with (Z.ones 8). rewrite Z.land_ones, Z.shiftr_div_pow2 by (destruct c as [|[|]]; lia).
  destruct c as [|[|[|]]]; try lia; reflexivity.
Qed.

(** The target shows the picture [color x y c s] in its first three maps and is otherwise unchanged. *)
Definition painted (target target' : tensor f32) (w h n : nat) (img : nat -> nat -> nat -> nat -> f32) : Prop :=
  wf target' /\ same_shape target' target /\
  forall x y c s, valid_pos target x y c s ->
    at_pos target' x y c s = if (x <? w) && (y <? h) && (s <? n) && (c <? 3) then Some (img x y c s) else at_pos target x y c s.

Lemma paint_spec (target : tensor f32) w h n (paint : nat -> nat -> nat -> nat -> res f32) img :
  wf target -> w <= width target -> h <= height target -> n <= samples target -> 3 <= maps target ->
  (forall s y x c, s < n -> y < h -> x < w -> c < 3 -> paint s y x c = Ok (img x y c s)) ->
  exists t', run_stores target (for_ n (fun s => for_ h (fun y => for_ w (fun x => map (fun c => (offset target x y c s, paint s y x c)) [0; 1; 2])))) = Ok t' /\
    painted target t' w h n img.
Proof.
  intros Wt Hw Hh Hn Hm Hp.
  destruct (run_stores_frame target (for_ n (fun s => for_ h (fun y => for_ w (fun x => map (fun c => (offset target x y c s, paint s y x c)) [0; 1; 2]))))
    (fun x y c s => if (x <? w) && (y <? h) && (s <? n) && (c <? 3) then Some (img x y c s) else None) Wt) as (t' & E & W' & Sh & Hat).
  - intros a rv Hi. apply in_for in Hi. destruct Hi as (s & Hs & Hi). apply in_for in Hi. destruct Hi as (y & Hy & Hi). apply in_for in Hi. destruct Hi as (x & Hx & Hi).
    apply in_map_iff in Hi. destruct Hi as (c & [= <- <-] & Hc). assert (Hc3 : c < 3) by (cbn in Hc; lia).
    exists x, y, c, s, (img x y c s). split; [unfold valid_pos; lia|]. split; [reflexivity|]. split; [now apply Hp|].
    destruct (Nat.ltb_spec x w), (Nat.ltb_spec y h), (Nat.ltb_spec s n), (Nat.ltb_spec c 3); cbn [andb]; try lia. reflexivity.
  - intros x y c s v Hv Hf.
    destruct (Nat.ltb_spec x w), (Nat.ltb_spec y h), (Nat.ltb_spec s n), (Nat.ltb_spec c 3); cbn [andb] in Hf; try discriminate. injection Hf as <-.
    apply in_for. exists s. split; [lia|]. apply in_for. exists y. split; [lia|]. apply in_for. exists x. split; [lia|].
    apply in_map_iff. exists c. split; [|cbn; lia]. f_equal. now apply Hp.
  - exists t'. split; [exact E|]. split; [exact W'|]. split; [exact Sh|]. intros x y c s Hv. rewrite (Hat x y c s Hv). now destruct (_ && _).
Qed.

(** Several classes: every pixel gets the colour of the first class with the largest output, if that output
    is above the smallest positive normal float, and otherwise the colour of class 0.  The bytes of a picture
    written from the target are those of the colour. *)
Theorem C51_strongest_class : forall classes colors (output target : tensor f32),
  wf output -> wf target -> 2 <= classes <= maps output -> classes <= length colors ->
  width output <= width target -> height output <= height target -> samples output <= samples target -> 3 <= maps target ->
  exists target' best, colorize classes colors output target = Ok target' /\
    (forall x y s, x < width output -> y < height output -> s < samples output ->
       best x y s < classes /\
       exists val, (forall k, k < classes -> at_pos output x y k s = Some (val k)) /\ first_largest classes val f32_min_positive (best x y s)) /\
    painted target target' (width output) (height output) (samples output)
      (fun x y c s => datum_from_uchar (rgb (nth (best x y s) colors 0%Z) c)) /\
    (forall k c, c < 3 -> uchar_from_datum (datum_from_uchar (rgb (nth k colors 0%Z) c)) = Ok (rgb (nth k colors 0%Z) c)).
Proof.
  intros classes colors output target Wo Wt Hc Hl Hw Hh Hn Hm.
  set (val := fun x y s k => match at_pos output x y k s with Some v => v | None => 0%Z end).
  assert (V : forall x y s k, x < width output -> y < height output -> s < samples output -> k < classes ->
    at_pos output x y k s = Some (val x y s k) /\ get output x y k s = Ok (val x y s k)).
  { intros x y s k Hx Hy Hs Hk. destruct (at_pos_some output x y k s Wo) as (v & Ev); [unfold valid_pos; lia|]. unfold val. rewrite Ev.
    split; [reflexivity|]. now apply at_pos_get. }
  set (best := fun x y s => match scan_max fgt classes (fun k => get output x y k s) f32_min_positive with Ok r => r | _ => 0 end).
  assert (B : forall x y s, x < width output -> y < height output -> s < samples output ->
    scan_max fgt classes (fun k => get output x y k s) f32_min_positive = Ok (best x y s) /\ first_largest classes (val x y s) f32_min_positive (best x y s) /\ best x y s < classes).
  { intros x y s Hx Hy Hs. destruct (scan_max_spec classes (fun k => get output x y k s) (val x y s) f32_min_positive) as (r & Er & Fr).
    { intros k Hk. now apply V. }
    unfold best. rewrite Er. split; [reflexivity|]. split; [exact Fr|]. destruct Fr as [[-> _]|[Hr _]]; lia. }
  unfold colorize. destruct (Nat.eqb_spec classes 1); [lia|]. unfold several_classes.
  destruct (paint_spec target (width output) (height output) (samples output)
    (fun s y x c => maxclass <- scan_max fgt classes (fun c => get output x y c s) f32_min_positive ;; color <- load colors maxclass ;; Ok (channel color c))
    (fun x y c s => datum_from_uchar (rgb (nth (best x y s) colors 0%Z) c)) Wt Hw Hh Hn Hm) as (t' & E & P).
  { intros s y x c Hs Hy Hx Hc3. destruct (B x y s Hx Hy Hs) as (-> & _ & Hb). cbn [bind]. rewrite (load_ok colors (best x y s) (nth (best x y s) colors 0%Z)).
    - cbn [bind]. now rewrite channel_rgb.
    - apply nth_error_nth'. lia. }
  exists t', best. split; [exact E|]. split; [|split; [exact P|]].
  - intros x y s Hx Hy Hs. destruct (B x y s Hx Hy Hs) as (_ & Fr & Hb). split; [exact Hb|]. exists (val x y s). split; [|exact Fr]. intros k Hk. now apply V.
  - intros k c _. apply C52_byte. unfold rgb. apply Z.mod_pos_bound. reflexivity.
Qed.

(** One class: the colour is scaled by (output + 1) / 2. *)
Theorem C51_single_class : forall colors color rest (output target : tensor f32),
  wf output -> wf target -> 1 <= maps output -> colors = color :: rest ->
  width output <= width target -> height output <= height target -> samples output <= samples target -> 3 <= maps target ->
  exists target' val, colorize 1 colors output target = Ok target' /\
    (forall x y s, x < width output -> y < height output -> s < samples output -> at_pos output x y 0 s = Some (val x y s)) /\
    painted target target' (width output) (height output) (samples output)
      (fun x y c s => fmul (datum_from_uchar (rgb color c)) (fdiv (fadd (val x y s) f32_one) (f_of_Z 2))).
Proof.
  intros colors color rest output target Wo Wt Hc -> Hw Hh Hn Hm.
  set (val := fun x y s => match at_pos output x y 0 s with Some v => v | None => 0%Z end).
  assert (V : forall x y s, x < width output -> y < height output -> s < samples output -> at_pos output x y 0 s = Some (val x y s) /\ get output x y 0 s = Ok (val x y s)).
  { intros x y s Hx Hy Hs. destruct (at_pos_some output x y 0 s Wo) as (v & Ev); [unfold valid_pos; lia|]. unfold val. rewrite Ev.
    split; [reflexivity|]. now apply at_pos_get. }
  unfold colorize. cbn [Nat.eqb]. unfold single_class.
  destruct (paint_spec target (width output) (height output) (samples output)
    (fun s y x c => color <- load (color :: rest) 0 ;; value <- get output x y 0 s ;; Ok (fmul (channel color c) (fdiv (fadd value f32_one) (f_of_Z 2))))
    (fun x y c s => fmul (datum_from_uchar (rgb color c)) (fdiv (fadd (val x y s) f32_one) (f_of_Z 2))) Wt Hw Hh Hn Hm) as (t' & E & P).
  { intros s y x c Hs Hy Hx Hc3. cbn [load nth_error bind]. destruct (V x y s Hx Hy Hs) as [_ ->]. cbn [bind]. now rewrite channel_rgb. }
  exists t', val. split; [exact E|]. split; [|exact P]. intros x y s Hx Hy Hs. now apply V.
Qed.

(** Outputs 0, -1, -0.5: class 0. Outputs -1, -0.5 (the second is larger): class 0 as well. *)
Definition ex_output (v : list f32) : tensor f32 := mkTensor 1 1 1 (length v) (length v) (Some v).
Definition ex_target : tensor f32 := mkTensor 1 1 1 3 3 (Some [0; 0; 0]%Z).
Example C51_witness : exists t, colorize 3 [16711680; 65280; 255]%Z (ex_output [f_of_Z (-1); f_of_Z 2; f_of_Z 1]) ex_target = Ok t /\
  data t = Some [datum_from_uchar 0; datum_from_uchar 255; datum_from_uchar 0].
Proof. eexists. split; vm_compute; reflexivity. Qed.

(** The strongest class is missed if no output is positive. *)
Theorem C51_negative_outputs_refuted : exists t, colorize 2 [16711680; 65280]%Z (ex_output [f_of_Z (-2); f_of_Z (-1)]) ex_target = Ok t /\
  data t = Some [datum_from_uchar 255; datum_from_uchar 0; datum_from_uchar 0] /\ fgt (f_of_Z (-1)) (f_of_Z (-2)) = true.
Proof. eexists. split; [vm_compute; reflexivity|split; vm_compute; reflexivity]. Qed.

Print Assumptions C51_strongest_class.
Print Assumptions C51_single_class.
Print Assumptions C51_negative_outputs_refuted.

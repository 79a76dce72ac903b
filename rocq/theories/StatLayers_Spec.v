(** What the statistics must be, in terms of the pixels that were seen. *)
From Coq Require Import Permutation.
From Verif Require Import Base Float32 Tensor_Model Tensor_Spec Num Math_Spec StatLayers_Model.

Section Seen.
Context {W : Type} (K : num W) (wide : f32 -> W).

(** A pixel: the class it was given, the class of its label, its weight. *)
Definition pixel : Type := nat * nat * W.
Definition given (p : pixel) : nat := fst (fst p).
Definition actual (p : pixel) : nat := snd (fst p).
Definition weight_of (p : pixel) : W := snd p.

(** The pixels of one batch: the class of a pixel is the first map with the largest value. *)
Definition batch_pixels (first second third : tensor f32) (px : list pixel) : Prop :=
  exists out lab wgt cls act,
    contents first out /\ contents second lab /\ contents third wgt /\
    (forall x y s, x < width first -> y < height first -> s < samples first ->
       first_largest (maps first) (fun m => out x y m s) f32_lowest (cls x y s) /\
       first_largest (maps second) (fun m => lab x y m s) f32_lowest (act x y s)) /\
    px = for_ (samples first) (fun s => for_ (height first) (fun y => for_ (width first) (fun x =>
           [(cls x y s, act x y s, wide (wgt x y 0 s))]))).

(** Outputs and labels of one shape with at most [classes] maps, and one weight per pixel. *)
Definition batch_ok (classes : nat) (first second third : tensor f32) : Prop :=
  wf first /\ wf second /\ wf third /\ 0 < maps first /\ maps first <= classes /\ 0 < maps third /\ same_shape second first /\
  samples third = samples first /\ width third = width first /\ height third = height first.
Definition calls_ok (classes : nat) (calls : list stat_call) : Prop :=
  forall f s t, In (CallForward f s t) calls -> batch_ok classes f s t.

(** The pixels seen since the last reset while enabled. *)
Inductive seen : bool -> list pixel -> list stat_call -> bool -> list pixel -> Prop :=
| seen_nil d px : seen d px [] d px
| seen_batch px f s t new calls d' px' : batch_pixels f s t new -> seen false (px ++ new) calls d' px' ->
    seen false px (CallForward f s t :: calls) d' px'
| seen_off px f s t calls d' px' : seen true px calls d' px' -> seen true px (CallForward f s t :: calls) d' px'
| seen_reset d px calls d' px' : seen d [] calls d' px' -> seen d px (CallReset :: calls) d' px'
| seen_set d b px calls d' px' : seen b px calls d' px' -> seen d px (CallSetDisabled b :: calls) d' px'.

(** The weight of the pixels selected by [sel], added in the order of the pixels. *)
Definition total (sel : pixel -> bool) (px : list pixel) : W :=
  fold_left (nadd K) (map weight_of (filter sel px)) (n0 K).

Definition is_entry (p a : nat) (q : pixel) : bool := (given q =? p) && (actual q =? a).
Definition is_actual (a : nat) (q : pixel) : bool := actual q =? a.
Definition is_given (p : nat) (q : pixel) : bool := given q =? p.
Definition is_right (q : pixel) : bool := given q =? actual q.
Definition any (q : pixel) : bool := true.

(** The statistics of a set of pixels. *)
Definition counts (st : confusion W) (px : list pixel) : Prop :=
  exists matrix per_class, cm_memory st = Some (matrix, per_class) /\
    length matrix = cm_classes st * cm_classes st /\ length per_class = cm_classes st /\
    (forall p a, p < cm_classes st -> a < cm_classes st -> nth_error matrix (p * cm_classes st + a) = Some (total (is_entry p a) px)) /\
    (forall a, a < cm_classes st -> nth_error per_class a = Some (total (is_actual a) px)) /\
    cm_total st = total any px /\ cm_right st = total is_right px.
End Seen.
Arguments pixel : clear implicits.

(** For the binary statistics: an element is an output, a label and a weight. *)
Section Elements.
Context {W : Type} (K : num W) (wide : f32 -> W).
Definition element : Type := f32 * f32 * W.
Definition batch_elements (first second third : tensor f32) (es : list element) : Prop :=
  exists a b c, data first = Some a /\ data second = Some b /\ data third = Some c /\
    es = map (fun s => (nth s a 0%Z, nth s b 0%Z, wide (nth s c 0%Z))) (seq 0 (length a)).
Definition elements_ok (first second third : tensor f32) : Prop :=
  wf first /\ wf second /\ wf third /\ 0 < elements first /\ elements second = elements first /\ elements first <= elements third.
Inductive seen_elements : bool -> list element -> list stat_call -> bool -> list element -> Prop :=
| se_nil d es : seen_elements d es [] d es
| se_batch es f s t new calls d' es' : batch_elements f s t new -> seen_elements false (es ++ new) calls d' es' ->
    seen_elements false es (CallForward f s t :: calls) d' es'
| se_off es f s t calls d' es' : seen_elements true es calls d' es' -> seen_elements true es (CallForward f s t :: calls) d' es'
| se_reset d es calls d' es' : seen_elements d [] calls d' es' -> seen_elements d es (CallReset :: calls) d' es'
| se_set d b es calls d' es' : seen_elements b es calls d' es' -> seen_elements d es (CallSetDisabled b :: calls) d' es'.

(** The element is labelled positive; its output is above the threshold. *)
Definition positive (e : element) : bool := fgt (snd (fst e)) f32_zero.
Definition above (th : f32) (e : element) : bool := fgt (fst (fst e)) th.
Definition etotal (sel : element -> bool) (es : list element) : W :=
  fold_left (nadd K) (map snd (filter sel es)) (n0 K).
Definition binary_counts (st : binary W) (es : list element) : Prop :=
  forall t th, nth_error (bs_thresholds st) t = Some th ->
    nth_error (bs_tp st) t = Some (etotal (fun e => above th e && positive e) es) /\
    nth_error (bs_fp st) t = Some (etotal (fun e => above th e && negb (positive e)) es) /\
    nth_error (bs_fn st) t = Some (etotal (fun e => negb (above th e) && positive e) es) /\
    nth_error (bs_tn st) t = Some (etotal (fun e => negb (above th e) && negb (positive e)) es).
End Elements.
Arguments element : clear implicits.

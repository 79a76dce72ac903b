(** Model of src/net/LocalResponseNormalizationLayer.cpp.

    Simplifications: sizes are unbounded; [power] is pow(., beta), [power1] is
    pow(., beta - 1), [scale n] is alpha / (datum) n, [two] and [beta] are the constants
    2 and beta; a - b is written a + (-b), which is the same in IEEE arithmetic. *)
From Verif Require Import Base Tensor_Model Num Math_Model.

(** LocalResponseNormalizationLayer.cpp:79-80, 88-89: the first and the last-but-one index
    around [c].  For size 0 the unsigned [size_ - 1] wraps and everything up to [c] is taken. *)
Definition lrn_lo (size c : nat) : nat := if size =? 0 then 0 else c - (size - 1) / 2.
Definition lrn_hi (size n c : nat) : nat := Nat.min n (c + size / 2 + 1).

(** Lines 88-89: the positions visited, row by row. *)
Definition within_region (size w h x y : nat) : list (nat * nat) :=
  for_from (lrn_lo size y) (lrn_hi size h y) (fun iy => for_from (lrn_lo size x) (lrn_hi size w x) (fun ix => [(ix, iy)])).
(** Line 109: the maps visited. *)
Definition across_region (size mm map : nat) : list nat := for_from (lrn_lo size map) (lrn_hi size mm map) (fun i => [i]).

Inductive lrn_method := Within | Across.

Section LRNModel.
Context {D : Type}.
Variable K : num D.
Variables (scale : nat -> D) (power power1 : D -> D) (ndiv : D -> D -> D) (two beta : D).

(** The positions summed up for the element at x, y, map. *)
Definition lrn_region (method : lrn_method) (size w h mm x y map : nat) : list (nat * nat * nat) :=
  match method with
  | Within => List.map (fun p => (fst p, snd p, map)) (within_region size w h x y)
  | Across => List.map (fun i => (x, y, i)) (across_region size mm map)
  end.

(** Lines 86-94, 107-113. *)
Definition lrn_sum (method : lrn_method) (size : nat) (input : tensor D) (x y map sample : nat) : res D :=
  foldm (fun acc p => let '(ix, iy, im) := p in
           v <- get input ix iy im sample ;; Ok (nadd K acc (nmul K v v)))
        (lrn_region method size (width input) (height input) (maps input) x y map) (n0 K).

(** Lines 97, 116 (and 148, 179): the divisor. *)
Definition lrn_base (n : nat) (region_sum : D) : D := nadd K (n1 K) (nmul K (scale n) region_sum).

(** Lines 82-122: one iteration of the parallel loop: what is stored into [region_sums_] and
    into the output.  The loops over x end at the height (lines 85 and 106). *)
Definition lrn_loop {A} (input : tensor D) (sample : nat) (body : nat -> nat -> nat -> list A) : list A :=
  for_ (maps input) (fun map => for_ (height input) (fun y => for_ (height input) (fun x => body x y map))).
Definition lrn_sums_sample (method : lrn_method) (size : nat) (input sums : tensor D) (sample : nat) : list (nat * res D) :=
  lrn_loop input sample (fun x y map => [(offset sums x y map sample, lrn_sum method size input x y map sample)]).
Definition lrn_ff_sample (method : lrn_method) (size : nat) (input output : tensor D) (sample : nat) : list (nat * res D) :=
  lrn_loop input sample (fun x y map =>
    [(offset output x y map sample,
      r <- lrn_sum method size input x y map sample ;;
      v <- get input x y map sample ;;
      Ok (ndiv v (power (lrn_base (length (lrn_region method size (width input) (height input) (maps input) x y map)) r))))]).
(** Lines 78-127: the new [region_sums_] and output. *)
Definition lrn_ff (method : lrn_method) (size : nat) (input sums output : tensor D) : res (tensor D * tensor D) :=
  sums' <- run_stores sums (for_ (samples input) (lrn_sums_sample method size input sums)) ;;
  output' <- run_stores output (for_ (samples input) (lrn_ff_sample method size input output)) ;;
  Ok (sums', output').

(** Lines 150-160, 181-188: what one element adds to the gradients of its neighbours, and to its own. *)
Definition lrn_bp_element (method : lrn_method) (size : nat) (input sums output_delta input_delta : tensor D) (sample x y map : nat)
  : list (nat * res D) :=
  let region := lrn_region method size (width input) (height input) (maps input) x y map in
  let base := r <- get sums x y map sample ;; Ok (lrn_base (length region) r) in
  List.map (fun p => let '(ix, iy, im) := p in
    (offset input_delta ix iy im sample,
     z <- base ;; xi <- get input x y map sample ;; dxi <- get output_delta x y map sample ;; xj <- get input ix iy im sample ;;
     Ok (nopp K (ndiv (nmul K (nmul K (nmul K (nmul K (nmul K (nmul K dxi xi) two) beta) (scale (length region))) xj) (power1 z))
                      (nmul K (power z) (power z)))))) region
  ++ [(offset input_delta x y map sample,
       z <- base ;; dxi <- get output_delta x y map sample ;; Ok (ndiv dxi (power z)))].
Definition lrn_bp_sample (method : lrn_method) (size : nat) (input sums output_delta input_delta : tensor D) (sample : nat) : list (nat * res D) :=
  lrn_loop input sample (fun x y map => lrn_bp_element method size input sums output_delta input_delta sample x y map).
(** Lines 129-191. *)
Definition lrn_bp (method : lrn_method) (size : nat) (input sums output_delta input_delta : tensor D) : res (tensor D) :=
  cleared <- clear input_delta (n0 K) None ;;
  run_with (nadd K) cleared (for_ (samples input) (lrn_bp_sample method size input sums output_delta cleared)).
End LRNModel.

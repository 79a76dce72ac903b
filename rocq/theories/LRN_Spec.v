(** Specification of local response normalization. *)
From Verif Require Import Base Tensor_Model Num Math_Spec LRN_Model.

(** Index [i] is in the window of [size] indices around [c]. *)
Definition near (size c i : nat) : Prop := c <= i + (size - 1) / 2 /\ i <= c + size / 2.

(** The neighbours of an element: pixels of the same map within a square window, or the same
    pixel in nearby maps. *)
Definition neighbour (method : lrn_method) (size w h mm x y m : nat) (p : nat * nat * nat) : Prop :=
  let '(ix, iy, im) := p in
  match method with
  | Within => im = m /\ ix < w /\ iy < h /\ near size x ix /\ near size y iy
  | Across => ix = x /\ iy = y /\ im < mm /\ near size m im
  end.

(** Sum of the squares of a list of values. *)
Definition squares {D} (K : num D) (l : list D) : D := fold_left (fun acc v => nadd K acc (nmul K v v)) l (n0 K).

(** An element divided by power(1 + scale(n) * sum of squares of its n neighbours). *)
Definition normalized {D} (K : num D) (scale : nat -> D) (power : D -> D) (ndiv : D -> D -> D)
    (f : nat -> nat -> nat -> nat -> D) (region : list (nat * nat * nat)) (x y m s : nat) : D :=
  ndiv (f x y m s) (power (nadd K (n1 K) (nmul K (scale (length region))
    (squares K (List.map (fun p => f (fst (fst p)) (snd (fst p)) (snd p) s) region))))).

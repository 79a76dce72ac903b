(** Specification vocabulary for the pooling layers. *)
From Verif Require Import Base Float32 Tensor_Model Tensor_Spec Math_Spec Pool_Model.

(** [p] is the first of the largest values in the order of the list, and above the lowest
    value, -FLT_MAX for floats. *)
Definition first_max {D} (O : order D) (cells : list (nat * nat)) (val : nat * nat -> D) (p : nat * nat) : Prop :=
  exists before after, cells = before ++ p :: after /\ o_gt O (val p) (o_lowest O) = true /\
    (forall q, In q cells -> o_gt O (val q) (val p) = false) /\
    (forall q, In q before -> o_ge O (val q) (val p) = false).

(** What is used about the comparisons; floats have it, with NaN. *)
Record order_laws {D} (O : order D) : Prop := mkOrderLaws {
  ol_irrefl : forall a, o_gt O a a = false;
  ol_trans : forall a b c, o_gt O a b = true -> o_gt O b c = true -> o_gt O a c = true;
  ol_below : forall a b c, o_gt O a b = false -> o_gt O c b = true -> o_ge O a c = false }.

(** The cells of a rectangle, column by column and row by row. *)
Definition columns (x0 y0 w h : nat) : list (nat * nat) :=
  flat_map (fun i => map (fun j => (x0 + i, y0 + j)) (seq 0 h)) (seq 0 w).
Definition rows (x0 y0 w h : nat) : list (nat * nat) :=
  flat_map (fun j => map (fun i => (x0 + i, y0 + j)) (seq 0 w)) (seq 0 h).

Definition same_cell (p q : nat * nat) : bool := (fst p =? fst q) && (snd p =? snd q).

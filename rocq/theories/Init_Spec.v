(** What C80 talks about: how many inputs the units behind a layer have. *)
From Coq Require Import List.
From Verif Require Import Base Graph_Model Graph_Spec Init_Model.
Local Open Scope list_scope.

(** The nodes that hand gradients to node [n], one entry per connection. *)
Definition consumers (g : graph) (n : nat) : list nat := map b_node (flat_map (requests (heap g) n) (nodes g)).

(** The fan of a node: for a convolution, the inputs of one of its units; a pooling layer shares the fan of its consumers among the
    pixels of a region; other layers have the fan of their consumers. *)
Inductive fan (g : graph) (kinds : list gkind) : nat -> Z -> Prop :=
| fan_conv n kw kh maps : nth_error kinds n = Some (GConv kw kh maps) -> fan g kinds n (kw * kh * maps)
| fan_pool n rw rh z : nth_error kinds n = Some (GPool rw rh) -> fans g kinds (consumers g n) z -> fan g kinds n (z / (rw * rh))
| fan_other n z : nth_error kinds n = Some GOther -> fans g kinds (consumers g n) z -> fan g kinds n z
with fans (g : graph) (kinds : list gkind) : list nat -> Z -> Prop :=
| fans_nil : fans g kinds [] 0
| fans_cons n ns z zs : fan g kinds n z -> fans g kinds ns zs -> fans g kinds (n :: ns) (z + zs).

(** Sizes as layers accept them. *)
Definition sensible (k : gkind) : Prop :=
  (match k with
   | GConv kw kh maps => 0 <= kw * kh < 2 ^ 32 /\ 0 <= maps
   | GPool rw rh => 0 < rw * rh < 2 ^ 32
   | GOther => True
   end)%Z.
Definition own_fan (k : gkind) : Z := (match k with GConv kw kh maps => kw * kh * maps | _ => 0 end)%Z.
(** All fans can be represented. *)
Definition fits (g : graph) (kinds : list gkind) : Prop :=
  forall n k z, In n (nodes g) -> nth_error kinds n = Some k -> fans g kinds (consumers g n) z -> (z + own_fan k < 2 ^ 32)%Z.

(** [ws] are successive numbers drawn from engine [e], which ends as [e']. *)
Inductive drawn {D E} (uniform : D -> D -> E -> D * E) (low high : D) : E -> list D -> E -> Prop :=
| drawn_nil e : drawn uniform low high e [] e
| drawn_cons e x e1 ws e2 : uniform low high e = (x, e1) -> drawn uniform low high e1 ws e2 -> drawn uniform low high e (x :: ws) e2.

(** What a network configuration means for the sizes of images: layers along one axis. *)
From Coq Require Import Ascii String List.
From Verif Require Import Base Math_Spec Str_Model Config_Spec.
Local Open Scope string_scope.
Local Open Scope list_scope.
Local Open Scope nat_scope.

(** Layers that change the size: convolution (kernel size, stride, padding), pooling with
    separate regions (size), pooling with windows (size, stride). *)
Inductive slayer : Type := SConv (k s p : nat) | SPool (k : nat) | SAPool (k s : nat).
Definition wf_slayer (l : slayer) : Prop :=
  match l with SConv k s p => 0 < k /\ 0 < s | SPool k => 0 < k | SAPool k s => 0 < k /\ 0 < s end.
Definition stride (l : slayer) : nat := match l with SConv _ s _ => s | SPool k => k | SAPool _ s => s end.

(** The layer accepts [n] pixels and produces [m] (see C44_accepts, C39_accepts, C40_create). *)
Definition yields (l : slayer) (n m : nat) : Prop :=
  match l with
  | SConv k s p => k <= n + 2 * p /\ m = positions (n + 2 * p) k s
  | SPool k => n = m * k
  | SAPool k s => k <= n /\ m = positions n k s
  end.
Fixpoint network_yields (ls : list slayer) (n m : nat) : Prop :=
  match ls with [] => n = m | l :: ls' => exists q, yields l n q /\ network_yields ls' q m end.

(** Output pixel [j] of a layer is computed from input pixel [i] (which may lie in the padding). *)
Definition uses (l : slayer) (j i : Z) : Prop :=
  (match l with
   | SConv k s p => j * Z.of_nat s - Z.of_nat p <= i < j * Z.of_nat s - Z.of_nat p + Z.of_nat k
   | SPool k => j * Z.of_nat k <= i < j * Z.of_nat k + Z.of_nat k
   | SAPool k s => j * Z.of_nat s <= i < j * Z.of_nat s + Z.of_nat k
   end)%Z.
Fixpoint depends (ls : list slayer) (j i : Z) : Prop :=
  match ls with [] => i = j | l :: ls' => exists q, uses l q i /\ depends ls' j q end.

(** The product of all strides. *)
Definition product (ls : list slayer) : Z := fold_right (fun l f => (Z.of_nat (stride l) * f)%Z) 1%Z ls.

(** The pixels lost at the border: [border ls + product ls * m] pixels give [m] (C48_exact). *)
Definition ext (l : slayer) : Z :=
  (match l with SConv k _ p => Z.of_nat k - 1 - 2 * Z.of_nat p | SPool _ => 0 | SAPool k _ => Z.of_nat k - 1 end)%Z.
Definition border (ls : list slayer) : Z := fold_right (fun l b => (ext l + Z.of_nat (stride l) * b)%Z) 0%Z ls.
(** No layer adds more padding than its kernel takes away. *)
Definition modest (l : slayer) : Prop := match l with SConv k _ p => 2 * p < k | _ => True end.

(** ** Configuration lines *)
(** The line sets the pair [name] to [v]; without the name it has the value [d]. *)
Definition pair_text (a b : nat) : str := decimal (Z.of_nat a) ++ s_ "x" ++ decimal (Z.of_nat b).
Definition pair_setting (line name : str) (d v : nat * nat) : Prop :=
  has_value line name (pair_text (fst v) (snd v)) \/ (absent name line /\ v = d).

(** The layers (horizontal and vertical) a line describes. *)
Inductive describes : str -> option (slayer * slayer) -> Prop :=
| d_conv tail k s p : has_value (s_ "convolutional" ++ tail) (s_ "size") (pair_text (fst k) (snd k)) ->
    pair_setting (s_ "convolutional" ++ tail) (s_ "stride") (1, 1) s -> pair_setting (s_ "convolutional" ++ tail) (s_ "pad") (0, 0) p ->
    describes (s_ "?convolutional" ++ tail) (Some (SConv (fst k) (fst s) (fst p), SConv (snd k) (snd s) (snd p)))
| d_pool tail k : has_value (s_ "maxpooling" ++ tail) (s_ "size") (pair_text (fst k) (snd k)) ->
    describes (s_ "?maxpooling" ++ tail) (Some (SPool (fst k), SPool (snd k)))
| d_down tail k : has_value (s_ "downsampling" ++ tail) (s_ "size") (pair_text (fst k) (snd k)) ->
    describes (s_ "?downsampling" ++ tail) (Some (SPool (fst k), SPool (snd k)))
| d_apool tail k s : has_value (s_ "amaxpooling" ++ tail) (s_ "size") (pair_text (fst k) (snd k)) ->
    pair_setting (s_ "amaxpooling" ++ tail) (s_ "stride") k s ->
    describes (s_ "?amaxpooling" ++ tail) (Some (SAPool (fst k) (fst s), SAPool (snd k) (snd s)))
| d_comment tail : describes (s_ "#" ++ tail) None
| d_other line : Forall (fun w => forall tail, line <> s_ w ++ tail) ["manual"; "?convolutional"; "?maxpooling"; "?downsampling"; "?amaxpooling"] ->
    describes line None.

(** Numbers that can be read. *)
Definition small (n : nat) : Prop := (Z.of_nat n <= 2147483647)%Z.
Definition numbers (l : slayer) : Prop := match l with SConv k s p => small k /\ small s /\ small p | SPool k => small k | SAPool k s => small k /\ small s end.
Definition both (f : slayer -> Prop) (o : option (slayer * slayer)) : Prop := match o with None => True | Some l => f (fst l) /\ f (snd l) end.
Definition somes (os : list (option (slayer * slayer))) : list (slayer * slayer) := flat_map (fun o => match o with Some l => [l] | None => [] end) os.

(** Some line that is not a comment has method=patch... *)
Definition patch_method (lines : list str) : Prop :=
  exists line v, In line lines /\ (forall tail, line <> s_ "#" ++ tail) /\ has_value line (s_ "method") (s_ "patch" ++ v).

(** The file format of the run-length codec, stated without reference to the code. *)
From Verif Require Import Base Float32 Bytes_Model.
Local Open Scope Z_scope.

Inductive token : Type :=
| Literal (b : byte)                      (* any byte except 'X', stands for itself *)
| Marker                                  (* "XX": one byte 'X' *)
| Run (len : nat) (b0 b1 b2 b3 : byte).   (* "XY", length byte, four bytes: repeated *)

Definition token_ok (t : token) : Prop :=
  match t with
  | Literal b => b <> 88
  | Marker => True
  | Run len _ _ _ _ => (len <= 255)%nat
  end.

Definition token_bytes (t : token) : list byte :=
  match t with
  | Literal b => [b]
  | Marker => [88; 88]
  | Run len b0 b1 b2 b3 => [88; 89; Z.of_nat len; b0; b1; b2; b3]
  end.

Definition token_output (t : token) : list byte :=
  match t with
  | Literal b => [b]
  | Marker => [88]
  | Run len b0 b1 b2 b3 => concat (repeat [b0; b1; b2; b3] len)
  end.

Definition encoded (ts : list token) : list byte := flat_map token_bytes ts.
Definition decoded (ts : list token) : list byte := flat_map token_output ts.

(** How a byte sequence can go on after complete tokens. *)
Inductive tail_kind : list byte -> Type :=
| Complete : tail_kind []
(** a run of length zero whose four bytes are cut off still ends cleanly *)
| EmptyRun bs : (length bs < 4)%nat -> tail_kind (88 :: 89 :: 0 :: bs)
| CutEscape : tail_kind [88]
| CutRunLength : tail_kind [88; 89]
| CutRun len bs : len <> 0 -> (length bs < 4)%nat -> tail_kind (88 :: 89 :: len :: bs)
| BadEscape c bs : c <> 88 -> c <> 89 -> tail_kind (88 :: c :: bs).

(** Two floats that compare equal although their bits may differ: the zeros. *)
Definition is_zero (a : f32) : Prop := a = f32_zero \/ a = f32_neg_zero.
Definition same_value (a b : f32) : Prop := a = b \/ (is_zero a /\ is_zero b).

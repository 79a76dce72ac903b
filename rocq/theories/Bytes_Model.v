(** Bytes, little-endian words and input streams (std::istream on a byte buffer). *)
From Verif Require Import Base Float32.
Local Open Scope Z_scope.

Definition byte := Z.
Definition is_byte (b : byte) : Prop := 0 <= b < 256.

(** Memory representation of an n-byte unsigned integer on a little-endian machine
    ([(char* )&x], used for datum and uint64_t throughout the code). *)
Fixpoint le_bytes (n : nat) (v : Z) : list byte :=
  match n with O => [] | S n' => v mod 256 :: le_bytes n' (v / 256) end.
Fixpoint le_value (bs : list byte) : Z :=
  match bs with [] => 0 | b :: bs' => b + 256 * le_value bs' end.

(** The bytes of one datum (Config.h:27: float, 4 bytes) and of one uint64_t. *)
Definition f32_bytes (v : f32) : list byte := le_bytes 4 v.
Definition u64_bytes (v : Z) : list byte := le_bytes 8 v.

(** Splits a byte buffer into datums; a rest shorter than four bytes is dropped. *)
Fixpoint f32s_of_bytes (bs : list byte) : list f32 :=
  match bs with
  | b0 :: b1 :: b2 :: b3 :: rest => le_value [b0; b1; b2; b3] :: f32s_of_bytes rest
  | _ => []
  end.

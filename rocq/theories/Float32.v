(** 32-bit IEEE floats (the C++ type [datum], Config.h:27) as bit patterns.
    Comparisons are defined on the patterns; [Float32_Flocq] proves that they are
    the IEEE-754 comparisons of Flocq's binary32. *)
From Coq Require Import ZArith Bool Lia.
Local Open Scope Z_scope.

Definition f32 := Z.
Definition f32_range (b : f32) : Prop := 0 <= b < 2 ^ 32.

(** Magnitude field (exponent and mantissa) and NaN test. *)
Definition f32_mag (b : f32) : Z := b mod 2 ^ 31.
Definition f32_nan (b : f32) : bool := 2139095040 <? f32_mag b.
(** Monotone integer key of a number: both zeros have key 0. *)
Definition f32_key (b : f32) : Z := if b <? 2 ^ 31 then f32_mag b else - f32_mag b.

(** C++ [a > b], [a == b], [a != b], [a >= b]. *)
Definition fgt (a b : f32) : bool := negb (f32_nan a) && negb (f32_nan b) && (f32_key b <? f32_key a).
Definition feq (a b : f32) : bool := negb (f32_nan a) && negb (f32_nan b) && (f32_key b =? f32_key a).
Definition fge (a b : f32) : bool := fgt a b || feq a b.

Definition f32_zero : f32 := 0.
Definition f32_neg_zero : f32 := 2 ^ 31.
Definition f32_one : f32 := 1065353216.
(** std::numeric_limits<float>::lowest() = -FLT_MAX, ::min() = 2^-126. *)
Definition f32_lowest : f32 := 4286578687.
Definition f32_min_positive : f32 := 8388608.
(** std::fabs: clears the sign bit. *)
Definition f32_abs (b : f32) : f32 := f32_mag b.

Lemma fgt_trans a b c : fgt a b = true -> fgt b c = true -> fgt a c = true.
Proof.
  unfold fgt. rewrite !andb_true_iff, !Z.ltb_lt, !negb_true_iff. intuition lia.
Qed.

Lemma fgt_irrefl a : fgt a a = false.
Proof. unfold fgt. rewrite Z.ltb_irrefl. apply andb_false_r. Qed.

(** a not above b, and c above b: then a is not at least c. *)
Lemma fgt_not_above a b c : fgt a b = false -> fgt c b = true -> fge a c = false.
Proof.
  unfold fge, fgt, feq. rewrite !andb_true_iff, !Z.ltb_lt, !negb_true_iff.
  intros H [[Hc Hb] Hk]. rewrite Hb, Hc in *. simpl in *.
  destruct (f32_nan a); simpl in *; auto.
  apply orb_false_iff. rewrite Z.ltb_ge, Z.eqb_neq. apply Z.ltb_ge in H. lia.
Qed.

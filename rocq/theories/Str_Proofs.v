From Coq Require Import Ascii ZArith Lia List.
From Verif Require Import Base Str_Model.
Local Open Scope nat_scope.

Lemma starts_app p s : starts p s = true <-> exists r, s = p ++ r.
Proof.
  revert s. induction p as [|a p IH]; intros s; cbn; [split; eauto|]. destruct s as [|b s].
  - split; [discriminate|]. intros [r H]. discriminate.
  - rewrite andb_true_iff, Ascii.eqb_eq, IH. split.
    + intros [-> [r ->]]. now exists r.
    + intros [r H]. injection H as -> ->. eauto.
Qed.
Lemma starts_self p r : starts p (p ++ r) = true.
Proof. apply starts_app. eauto. Qed.

Lemma find_from_spec i p s : match find_from i p s with
  | Some n => exists k, n = i + k /\ k <= length s /\ starts p (skipn k s) = true /\ forall j, j < k -> starts p (skipn j s) = false
  | None => forall j, j <= length s -> starts p (skipn j s) = false
  end.
Proof.
  revert i. induction s as [|c s IH]; intros i; cbn [find_from].
  - destruct (starts p []) eqn:E.
    + exists 0. repeat split; auto with arith; intros; lia.
    + intros j Hj. cbn in Hj. now replace j with 0 by lia.
  - destruct (starts p (c :: s)) eqn:E.
    + exists 0. repeat split; auto with arith; intros; lia.
    + specialize (IH (S i)). destruct (find_from (S i) p s) as [n|].
      * destruct IH as (k & -> & Hk & H1 & H2). exists (S k). split; [lia|]. split; [cbn; lia|]. split; [exact H1|].
        intros [|j] Hj; [exact E|apply H2; lia].
      * intros [|j] Hj; [exact E|apply IH; cbn in Hj; lia].
Qed.
(** The first occurrence. *)
Lemma find_at p pre rest : (forall j, j < length pre -> starts p (skipn j (pre ++ p ++ rest)) = false) ->
  find p (pre ++ p ++ rest) 0 = Some (length pre).
Proof.
  intros H. unfold find. cbn [Nat.leb skipn]. pose proof (find_from_spec 0 p (pre ++ p ++ rest)) as S. destruct (find_from 0 p (pre ++ p ++ rest)) as [n|].
  - destruct S as (k & -> & Hk & H1 & H2). cbn. f_equal. destruct (Nat.lt_trichotomy k (length pre)) as [L|[L|L]]; auto.
    + now rewrite H in H1.
    + specialize (H2 (length pre) L). rewrite skipn_app, skipn_all, Nat.sub_diag in H2. cbn [app skipn] in H2. now rewrite starts_self in H2.
  - specialize (S (length pre)). rewrite skipn_app, skipn_all, Nat.sub_diag in S. cbn [app skipn] in S. rewrite starts_self in S.
    specialize (S ltac:(rewrite app_length; lia)). discriminate.
Qed.
Lemma find_none p s : (forall j, starts p (skipn j s) = false) -> find p s 0 = None.
Proof.
  intros H. unfold find. cbn [Nat.leb skipn]. pose proof (find_from_spec 0 p s) as S. destruct (find_from 0 p s) as [n|]; [|reflexivity].
  destruct S as (k & _ & _ & H1 & _). now rewrite H in H1.
Qed.
Lemma find_char_from c s i : Forall (fun x => x <> c) s -> forall rest, find_from i [c] (s ++ c :: rest) = Some (i + length s).
Proof.
  intros H. revert i. induction H as [|x s Hx Hs IH]; intros i rest; cbn [find_from app starts length].
  - rewrite Ascii.eqb_refl. cbn. now rewrite Nat.add_0_r.
  - destruct (Ascii.eqb_spec c x); [congruence|]. cbn [andb]. rewrite IH. f_equal. lia.
Qed.
Lemma find_char_none c s i : Forall (fun x => x <> c) s -> find_from i [c] s = None.
Proof.
  intros H. revert i. induction H as [|x s Hx Hs IH]; intros i; cbn [find_from starts]; [reflexivity|].
  destruct (Ascii.eqb_spec c x); [congruence|]. cbn [andb]. apply IH.
Qed.

(** ** Decimal numbers *)
Lemma digit_char_digit z : (0 <= z < 10)%Z -> is_digit (digit_char z) = true /\ digit_value (digit_char z) = z.
Proof.
  intros H. assert (D : (z = 0 \/ z = 1 \/ z = 2 \/ z = 3 \/ z = 4 \/ z = 5 \/ z = 6 \/ z = 7 \/ z = 8 \/ z = 9)%Z) by lia.
  repeat (destruct D as [->|D]; [split; reflexivity|]). subst. split; reflexivity.
Qed.
Lemma decimal_loop_digits fuel z acc : (0 <= z)%Z -> Forall (fun c => is_digit c = true) acc -> Forall (fun c => is_digit c = true) (decimal_loop fuel z acc).
Proof.
  revert z acc. induction fuel as [|f IH]; intros z acc Hz Ha; cbn [decimal_loop]; [exact Ha|].
  assert (Ha' : Forall (fun c => is_digit c = true) (digit_char (z mod 10) :: acc)).
  { constructor; [apply digit_char_digit, Z.mod_pos_bound; lia|exact Ha]. }
  destruct (z <? 10)%Z; [exact Ha'|]. apply IH; [|exact Ha']. apply Z.div_pos; lia.
Qed.
Lemma decimal_digits z : (0 <= z)%Z -> Forall (fun c => is_digit c = true) (decimal z).
Proof. intros H. apply decimal_loop_digits; auto. Qed.
Lemma decimal_loop_nonempty fuel z acc : decimal_loop (S fuel) z acc <> [].
Proof.
  revert z acc. induction fuel as [|f IH]; intros z acc; [cbn; now destruct (z <? 10)%Z|].
  change (decimal_loop (S (S f)) z acc) with (if (z <? 10)%Z then digit_char (z mod 10) :: acc else decimal_loop (S f) (z / 10) (digit_char (z mod 10) :: acc)).
  destruct (z <? 10)%Z; [discriminate|apply IH].
Qed.
Lemma decimal_nonempty z : decimal z <> [].
Proof. apply decimal_loop_nonempty. Qed.

Lemma digits_value_acc s acc : Forall (fun c => is_digit c = true) s -> digits_value acc s = (acc * 10 ^ Z.of_nat (length s) + digits_value 0 s)%Z.
Proof.
  intros H. revert acc. induction H as [|c s Hc Hs IH]; intros acc; cbn [digits_value length]; [lia|]. rewrite Hc.
  rewrite IH, (IH (10 * 0 + digit_value c)%Z), Nat2Z.inj_succ, Z.pow_succ_r by lia. ring.
Qed.
Lemma decimal_loop_value fuel z acc : (0 <= z < 2 ^ Z.of_nat fuel)%Z -> Forall (fun c => is_digit c = true) acc ->
  digits_value 0 (decimal_loop fuel z acc) = (z * 10 ^ Z.of_nat (length acc) + digits_value 0 acc)%Z.
Proof.
  revert z acc. induction fuel as [|f IH]; intros z acc Hz Ha.
  - cbn in Hz. replace z with 0%Z by lia. cbn. lia.
  - cbn [decimal_loop]. pose proof (Z.mod_pos_bound z 10 ltac:(lia)) as Hm. destruct (digit_char_digit (z mod 10)%Z Hm) as [Hd Hv].
    assert (Ha' : Forall (fun c => is_digit c = true) (digit_char (z mod 10) :: acc)) by now constructor.
    destruct (Z.ltb_spec z 10).
    + cbn [digits_value]. rewrite Hd, Hv, (digits_value_acc acc _ Ha), Z.mod_small by lia. ring.
    + rewrite IH; [|split; [apply Z.div_pos; lia|]|exact Ha'].
      * cbn [length digits_value]. rewrite Hd, Hv, (digits_value_acc acc _ Ha), Nat2Z.inj_succ, Z.pow_succ_r by lia.
        pose proof (Z.div_mod z 10 ltac:(lia)). set (q := (z / 10)%Z) in *. set (r := (z mod 10)%Z) in *. rewrite H0. ring.
      * rewrite Nat2Z.inj_succ, Z.pow_succ_r in Hz by lia. apply Z.div_lt_upper_bound; lia.
Qed.
Lemma decimal_value z : (0 <= z)%Z -> digits_value 0 (decimal z) = z.
Proof.
  intros H. unfold decimal. rewrite decimal_loop_value; auto.
  - cbn. lia.
  - rewrite Nat2Z.inj_succ, Z2Nat.id by apply Z.log2_nonneg. destruct (Z.eq_dec z 0) as [->|]; [cbn; lia|].
    pose proof (Z.log2_spec z ltac:(lia)). lia.
Qed.
Lemma digit_not_space c : is_digit c = true -> is_space c = false /\ c <> "-"%char /\ c <> "+"%char.
Proof.
  intros H. unfold is_digit, is_space, ascii_in in *. apply andb_true_iff in H as [H1 H2]. apply Nat.leb_le in H1, H2. cbn in H1, H2.
  repeat split.
  - apply orb_false_iff. split; [apply Ascii.eqb_neq; intros ->; cbn in H1; lia|]. apply andb_false_iff. right. apply Nat.leb_gt. cbn. lia.
  - intros ->. cbn in H1. lia.
  - intros ->. cbn in H1. lia.
Qed.
(** atoi reads what was printed. *)
Lemma digits_value_stop s rest acc : Forall (fun c => is_digit c = true) s -> (rest = [] \/ exists c r, rest = c :: r /\ is_digit c = false) ->
  digits_value acc (s ++ rest) = digits_value acc s.
Proof.
  intros H Hr. revert acc. induction H as [|c s Hc Hs IH]; intros acc; cbn [app digits_value].
  - destruct Hr as [->|(c & r & -> & E)]; [reflexivity|]. cbn. now rewrite E.
  - rewrite Hc. apply IH.
Qed.
Lemma atoi_digits s rest : s <> [] -> Forall (fun c => is_digit c = true) s -> (rest = [] \/ exists c r, rest = c :: r /\ is_digit c = false) ->
  atoi (s ++ rest) = if int_range (digits_value 0 s) then Ok (digits_value 0 s) else UB.
Proof.
  intros Hn H Hr. destruct s as [|c s]; [congruence|]. pose proof H as H0. inversion H as [|? ? Hc Hs]; subst.
  destruct (digit_not_space c Hc) as (S1 & S2 & S3). unfold atoi. cbn [app skip_spaces]. rewrite S1.
  assert (E : match c :: s ++ rest with "-"%char :: s2 => (- digits_value 0 s2)%Z | "+"%char :: s2 => digits_value 0 s2 | _ => digits_value 0 (c :: s ++ rest) end
    = digits_value 0 ((c :: s) ++ rest)).
  { destruct c as [[] [] [] [] [] [] [] []]; try reflexivity; exfalso; congruence. }
  cbn [app] in E. rewrite E. change (c :: s ++ rest) with ((c :: s) ++ rest). now rewrite digits_value_stop.
Qed.
Lemma atoi_decimal z rest : (0 <= z <= 2147483647)%Z -> (rest = [] \/ exists c r, rest = c :: r /\ is_digit c = false) -> atoi (decimal z ++ rest) = Ok z.
Proof.
  intros H Hr. rewrite atoi_digits; auto using decimal_nonempty; [|apply decimal_digits; lia]. rewrite decimal_value by lia.
  unfold int_range. destruct (Z.leb_spec (-2147483648) z); [|lia]. destruct (Z.leb_spec z 2147483647); [reflexivity|lia].
Qed.

(** C47: configuration lines. *)
From Coq Require Import Ascii String List.
From Verif Require Import Base Str_Model Str_Proofs LayerFactory_Spec Config_Model Config_Spec Config_Proofs Seed_Proofs.
Local Open Scope string_scope.
Local Open Scope list_scope.
Local Open Scope nat_scope.

(** A line without [name=] leaves every kind of setting unchanged. *)
Theorem C47_absent : forall line name, absent name line ->
  (forall s, parse_string_param line name s = Ok s) /\
  (forall k, parse_count line name k = Ok k) /\
  (forall (D : Type) (read : str -> D) k, parse_datum_param read line name k = Ok k) /\
  (forall kx ky, parse_kernel_size line name kx ky = Ok (kx, ky)).
Proof.
  intros line name H. unfold parse_string_param, parse_count, parse_datum_param. rewrite param_text_absent by exact H. cbn [bind].
  repeat split; auto. intros. now apply kernel_size_absent.
Qed.
Print Assumptions C47_absent.

(** The value of the first [name=] is read up to the next space. *)
Theorem C47_string : forall line name value old, has_value line name value -> parse_string_param line name old = Ok value.
Proof. intros line name value old H. unfold parse_string_param. now rewrite (param_text_value _ _ _ H). Qed.
Print Assumptions C47_string.

Lemma decimal_stop z rest : (0 <= z <= 2147483647)%Z -> (rest = [] \/ exists c r, rest = c :: r /\ is_digit c = false) ->
  (x <- atoi (decimal z ++ rest) ;; Ok (to_uint x)) = Ok z.
Proof. intros Hz Hr. rewrite atoi_decimal by assumption. cbn [bind]. unfold to_uint. f_equal. apply Z.mod_small. lia. Qed.
(** A number is read as that number, as long as it fits into an int; text behind the digits is ignored. *)
Theorem C47_count : forall line name z rest old, (0 <= z <= 2147483647)%Z -> (rest = [] \/ exists c r, rest = c :: r /\ is_digit c = false) ->
  has_value line name (decimal z ++ rest) -> parse_count line name old = Ok z.
Proof. intros line name z rest old Hz Hr H. unfold parse_count. rewrite (param_text_value _ _ _ H). cbn [bind]. now apply decimal_stop. Qed.
Print Assumptions C47_count.
Theorem C47_datum : forall (D : Type) (read : str -> D) line name value old, has_value line name value -> parse_datum_param read line name old = Ok (read value).
Proof. intros D read line name value old H. unfold parse_datum_param. now rewrite (param_text_value _ _ _ H). Qed.
Print Assumptions C47_datum.

Lemma digit_not_x s : Forall (fun c => is_digit c = true) s -> Forall (fun c => c <> "x"%char) s.
Proof. intros H. eapply Forall_impl; [|exact H]. intros c Hc ->. discriminate. Qed.
(** A size is written as two numbers with an x between them. *)
Theorem C47_kernel_size : forall line name a b old_x old_y, (0 <= a <= 2147483647)%Z -> (0 <= b <= 2147483647)%Z -> Forall (fun c => c <> "x"%char) name ->
  has_value line name (decimal a ++ s_ "x" ++ decimal b) -> parse_kernel_size line name old_x old_y = Ok (a, b).
Proof.
  intros line name a b ox oy Ha Hb Hn H. rewrite (kernel_size_value line name (decimal a) (decimal b) ox oy H Hn) by (apply digit_not_x, decimal_digits; lia).
  rewrite <- (app_nil_r (decimal a)), <- (app_nil_r (decimal b)), !atoi_decimal by (auto; now left). cbn [bind]. unfold to_uint. now rewrite !Z.mod_small by lia.
Qed.
Print Assumptions C47_kernel_size.

(** Every line falls under one of the two cases, and the value is unique: the settings are read predictably whatever the line. *)
Lemma span_space (s : str) : exists v r, s = v ++ r /\ Forall (fun c => c <> " "%char) v /\ (r = [] \/ exists r', r = " "%char :: r').
Proof.
  induction s as [|c s (v & r & -> & Hv & Hr)]; [exists [], []; auto|]. destruct (ascii_dec c " ") as [->|Hc].
  - exists [], (" "%char :: v ++ r). repeat split; [constructor|right; eauto].
  - exists (c :: v), r. auto.
Qed.
Theorem C47_cases : forall line name, Forall (fun c => c <> " "%char) name ->
  (absent name line \/ exists value, has_value line name value) /\
  (forall value, has_value line name value -> ~ absent name line /\ forall value', has_value line name value' -> value = value').
Proof.
  intros line name Hn. split.
  - pose proof (find_from_spec 0 (name ++ s_ "=") line) as F. destruct (find_from 0 (name ++ s_ "=") line) as [n|].
    + right. destruct F as (k & -> & Hk & Hs & Hf). cbn [plus] in *. apply starts_occurs in Hs as (b & a & E & Hl); [|exact Hk].
      destruct (span_space a) as (v & r & -> & Hv & Hr). exists v, b, r. repeat split; auto. intros j Hj.
      destruct (Nat.le_gt_cases (length b) j); [assumption|]. apply occurs_starts in Hj. rewrite Hf in Hj by lia. discriminate.
    + left. intros j Hj. pose proof Hj as (b & a & E & Hl). apply occurs_starts in Hj. rewrite F in Hj; [discriminate|]. subst. rewrite !app_length. lia.
  - intros v H. split.
    + destruct H as (b & r & E & _). intros A. apply (A (length b)). exists b, (v ++ r). auto.
    + intros v' H'. pose proof (C47_string line name v [] H) as E1. pose proof (C47_string line name v' [] H') as E2. congruence.
Qed.
Print Assumptions C47_cases.

(** Reading from the parameters of a layer descriptor: the first parameter whose name ends in the given one. *)
Theorem C47_descriptor : forall ps name old, Forall wf_param ps -> word is_lower name ->
  (exists before n value after, ps = before ++ (n, value) :: after /\ ends_in name n /\ (forall p, In p before -> ~ ends_in name (fst p)) /\
     parse_string_param (render_params ps) name old = Ok value) \/
  ((forall p, In p ps -> ~ ends_in name (fst p)) /\ parse_string_param (render_params ps) name old = Ok old).
Proof.
  intros ps name old Hps Hn. unfold parse_string_param. rewrite param_text_params by assumption. cbn [bind]. clear Hps. unfold lookup.
  induction ps as [|p ps IH]; [right; cbn; split; [tauto|reflexivity]|]. cbn [List.find]. destruct (ends_b name (fst p)) eqn:E.
  - left. exists [], (fst p), (snd p), ps. rewrite <- surjective_pairing. split; [reflexivity|]. split; [now apply ends_b_spec|]. split; [intros q []|reflexivity].
  - assert (Hp : ~ ends_in name (fst p)) by (intros H; apply ends_b_spec in H; congruence). destruct IH as [(b & n & v & a & -> & H1 & H2 & H3)|[H1 H2]].
    + left. exists (p :: b), n, v, a. split; [reflexivity|]. split; [exact H1|]. split; [|exact H3]. intros q [<-|Hq]; auto.
    + right. split; [|exact H2]. intros q [<-|Hq]; auto.
Qed.
Print Assumptions C47_descriptor.

(** Settings at the start of a line: the identifier, one separating character, the value. *)
Theorem C47_setting : forall name sep value,
  (forall old, parse_string_if_possible (name ++ sep :: value) name old = Ok value) /\
  (forall z rest old, value = decimal z ++ rest -> (0 <= z <= 2147483647)%Z -> (rest = [] \/ exists c r, rest = c :: r /\ is_digit c = false) ->
     parse_uint_if_possible (name ++ sep :: value) name old = Ok z) /\
  (forall (D : Type) (read : str -> D) zero old, parse_datum_if_possible read zero (name ++ sep :: value) name old = Ok (read value)).
Proof.
  intros name sep value. unfold parse_string_if_possible, parse_uint_if_possible, parse_datum_if_possible, parse_string, parse_uint, parse_datum, starts_with_identifier, compare0.
  rewrite starts_self, prefix_text. cbn [bind]. repeat split; auto. intros z rest old -> Hz Hr. now apply decimal_stop.
Qed.
Print Assumptions C47_setting.
Theorem C47_setting_absent : forall line name, (forall tail, line <> name ++ tail) ->
  (forall old, parse_string_if_possible line name old = Ok old) /\ (forall old, parse_uint_if_possible line name old = Ok old) /\
  (forall (D : Type) (read : str -> D) zero old, parse_datum_if_possible read zero line name old = Ok old).
Proof.
  intros line name H. unfold parse_string_if_possible, parse_uint_if_possible, parse_datum_if_possible.
  destruct (starts_with_identifier line name) eqn:E; [apply starts_iff in E as [t E]; now apply H in E|]. auto.
Qed.
Print Assumptions C47_setting_absent.

Example C47_witness :
  has_value (s_ "?convolutional kernels=16 size=7x5 llr=0.5") (s_ "size") (decimal 7 ++ s_ "x" ++ decimal 5) /\
  parse_kernel_size (s_ "?convolutional kernels=16 size=7x5 llr=0.5") (s_ "size") 0 0 = Ok (7, 5)%Z /\
  parse_count (s_ "?convolutional kernels=16 size=7x5 llr=0.5") (s_ "kernels") 0 = Ok 16%Z /\
  parse_count (s_ "?convolutional kernels=16 size=7x5 llr=0.5") (s_ "seed") 8 = Ok 8%Z /\
  parse_uint_if_possible (s_ "iterations=100") (s_ "iterations") 3 = Ok 100%Z.
Proof.
  split; [|repeat split].
  exists (s_ "?convolutional kernels=16 "), (s_ " llr=0.5"). split; [reflexivity|]. split; [repeat constructor; discriminate|]. split; [repeat constructor; discriminate|].
  split; [right; eexists; reflexivity|]. intros j Hj. destruct (Nat.le_gt_cases 26 j) as [H|H]; [exact H|]. exfalso. apply occurs_starts in Hj.
  assert (C : forallb (fun j => negb (starts (s_ "size" ++ s_ "=") (skipn j (s_ "?convolutional kernels=16 size=7x5 llr=0.5")))) (seq 0 26) = true) by (vm_compute; reflexivity).
  rewrite forallb_forall in C. assert (Hin : In j (seq 0 26)) by (apply in_seq; lia). specialize (C j Hin). cbn [app] in C, Hj. rewrite Hj in C. discriminate.
Qed.

(** Findings.  A longer name that ends in the given one is read instead of it. *)
Theorem C47_suffix_refuted : exists line, line = s_ "?l xsize=3 size=5" /\ parse_count line (s_ "size") 1 = Ok 3%Z.
Proof. eexists. split; reflexivity. Qed.
(** A size without an x takes the x of a later word: the setting is overwritten by something that is not a size. *)
Theorem C47_size_without_x_refuted : exists line, line = s_ "size=3 maxpool=2" /\ parse_kernel_size line (s_ "size") 9 9 = Ok (3, 0)%Z.
Proof. eexists. split; reflexivity. Qed.
(** A parameter whose own name has an x throws out_of_range. *)
Theorem C47_name_with_x_refuted : exists line, line = s_ "xsize=3x3" /\ parse_kernel_size line (s_ "xsize") 9 9 = Fatal.
Proof. eexists. split; reflexivity. Qed.
(** A line with nothing but the identifier throws out_of_range. *)
Theorem C47_bare_setting_refuted : exists line, line = s_ "iterations" /\ parse_uint_if_possible line (s_ "iterations") 5 = Fatal.
Proof. eexists. split; reflexivity. Qed.
(** A longer word at the start of a line is taken for the setting. *)
Theorem C47_longer_setting_refuted : exists line, line = s_ "l2weight=5" /\ parse_uint_if_possible line (s_ "l2") 1 = Ok 0%Z.
Proof. eexists. split; reflexivity. Qed.
Print Assumptions C47_longer_setting_refuted.

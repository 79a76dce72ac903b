(** C68: dataset configuration files. *)
From Coq Require Import Ascii String ZArith.
From Verif Require Import Base BaseFacts Str_Model Str_Proofs Config_Model Config_Spec Config_Proofs DatasetConfig_Model.
Local Open Scope list_scope.
Local Open Scope nat_scope.

(** ** Specification *)
(** Hexadecimal numbers. *)
Definition digit_of (c : ascii) (d : Z) : Prop :=
  let n := Z.of_nat (nat_of_ascii c) in
  (48 <= n <= 57 /\ d = n - 48)%Z \/ (97 <= n <= 102 /\ d = n - 87)%Z \/ (65 <= n <= 70 /\ d = n - 55)%Z.
Inductive hex_text : str -> Z -> Prop :=
| hex_one c d : digit_of c d -> hex_text [c] d
| hex_more s z c d : hex_text s z -> digit_of c d -> hex_text (s ++ [c]) (16 * z + d).
(** A color: up to 32 bits, with or without 0x. *)
Definition color_text (s : str) (z : Z) : Prop := (0 <= z < 2 ^ 32)%Z /\ (hex_text s z \/ exists s', s = s_ "0x" ++ s' /\ hex_text s' z).

(** The parts of a configuration file behind the classes. *)
Inductive part : Type :=
| Colors (texts : list str) (values : list Z)
| Weights (texts : list str)
| Error (sep : ascii) (name : str)
| Training (sep : ascii) (file : str)
| Testing (sep : ascii) (file : str)
| NoMmap (tail : str)
| Other (line : str).
Definition part_lines (p : part) : list str :=
  match p with
  | Colors texts _ => s_ "colors" :: texts
  | Weights texts => s_ "weights" :: texts
  | Error sep name => [s_ "localized_error" ++ sep :: name]
  | Training sep file => [s_ "training" ++ sep :: file]
  | Testing sep file => [s_ "testing" ++ sep :: file]
  | NoMmap tail => [s_ "nommap" ++ tail]
  | Other line => [line]
  end.
Definition words : list str := [s_ "nommap"; s_ "classes"; s_ "colors"; s_ "weights"; s_ "localized_error"; s_ "training"; s_ "testing"].
Definition part_ok (classes : nat) (p : part) : Prop :=
  match p with
  | Colors texts values => length texts = classes /\ Forall2 color_text texts values
  | Weights texts => length texts = classes
  | Other line => forall w, In w words -> forall tail, line <> w ++ tail
  | _ => True
  end.
Definition file_lines (names : list str) (ps : list part) : list str :=
  (s_ "classes=" ++ decimal (Z.of_nat (length names))) :: names ++ concat (map part_lines ps).

(** What the file says. *)
Definition all_colors (ps : list part) : list Z := concat (map (fun p => match p with Colors _ v => v | _ => [] end) ps).
Definition all_weights (ps : list part) : list str := concat (map (fun p => match p with Weights t => t | _ => [] end) ps).
Definition last_of {A} (f : part -> option A) (ps : list part) (default : A) : A := fold_left (fun a p => match f p with Some b => b | None => a end) ps default.
Definition training_of (p : part) : option str := match p with Training _ f => Some f | _ => None end.
Definition testing_of (p : part) : option str := match p with Testing _ f => Some f | _ => None end.
(** The error function: kitti selects the KITTI function, any other name but default the default function. *)
Definition error_of (p : part) : option error_function :=
  match p with
  | Error _ n => if list_eq_dec ascii_dec n (s_ "kitti") then Some KittiError else if list_eq_dec ascii_dec n (s_ "default") then None else Some DefaultError
  | _ => None
  end.
Definition has_nommap (ps : list part) : bool := existsb (fun p => match p with NoMmap _ => true | _ => false end) ps.

(** ** Proofs *)
Lemma hex_digit_ok c d : digit_of c d -> hex_digit c = Some d /\ (0 <= d < 16)%Z /\ is_space c = false /\ c <> "-"%char /\ c <> "+"%char /\ c <> "x"%char /\ c <> "X"%char.
Proof.
  unfold digit_of, hex_digit, is_digit, is_space, ascii_in. change (nat_of_ascii "0") with 48. change (nat_of_ascii "9") with 57. change (nat_of_ascii "a") with 97.
  change (nat_of_ascii "f") with 102. change (nat_of_ascii "A") with 65. change (nat_of_ascii "F") with 70. change (nat_of_ascii "009") with 9. change (nat_of_ascii "013") with 13.
  set (n := nat_of_ascii c). intros H.
  assert (X : forall k, nat_of_ascii k <> n -> c <> k) by (intros k E ->; now apply E).
  assert (Sp : Ascii.eqb c " " = false) by (apply Ascii.eqb_neq, X; cbn; lia).
  rewrite Sp. cbn [orb].
  destruct H as [[B ->]|[[B ->]|[B ->]]].
  - replace (48 <=? n) with true by (symmetry; apply Nat.leb_le; lia). replace (n <=? 57) with true by (symmetry; apply Nat.leb_le; lia). cbn [andb].
    replace (n <=? 13) with false by (symmetry; apply Nat.leb_gt; lia). rewrite Bool.andb_false_r.
    repeat split; try lia; try (apply X; cbn; lia).
  - replace (n <=? 57) with false by (symmetry; apply Nat.leb_gt; lia). rewrite Bool.andb_false_r.
    replace (97 <=? n) with true by (symmetry; apply Nat.leb_le; lia). replace (n <=? 102) with true by (symmetry; apply Nat.leb_le; lia). cbn [andb].
    replace (n <=? 13) with false by (symmetry; apply Nat.leb_gt; lia). rewrite Bool.andb_false_r. repeat split; try lia; try (apply X; cbn; lia).
  - replace (n <=? 57) with false by (symmetry; apply Nat.leb_gt; lia). rewrite Bool.andb_false_r.
    replace (97 <=? n) with false by (symmetry; apply Nat.leb_gt; lia). cbn [andb].
    replace (65 <=? n) with true by (symmetry; apply Nat.leb_le; lia). replace (n <=? 70) with true by (symmetry; apply Nat.leb_le; lia). cbn [andb].
    replace (n <=? 13) with false by (symmetry; apply Nat.leb_gt; lia). rewrite Bool.andb_false_r. repeat split; try lia; try (apply X; cbn; lia).
Qed.
Definition hexy (c : ascii) : Prop := exists d, digit_of c d.
Lemma hex_text_chars s z : hex_text s z -> s <> [] /\ Forall hexy s.
Proof.
  induction 1 as [c d H|s z c d H [IH1 IH2] Hd].
  - split; [discriminate|]. repeat constructor. now exists d.
  - split; [now destruct s|]. apply Forall_app. split; [exact IH2|]. repeat constructor. now exists d.
Qed.
Lemma hex_digits_app s t acc : Forall hexy s -> hex_digits acc (s ++ t) = hex_digits (hex_digits acc s) t.
Proof.
  intros F. revert acc. induction F as [|c s [d Hd] F IH]; intros acc; [reflexivity|]. destruct (hex_digit_ok c d Hd) as [E _]. cbn [app hex_digits]. rewrite E. apply IH.
Qed.
Lemma hex_digits_value s z : hex_text s z -> hex_digits 0 s = z.
Proof.
  induction 1 as [c d H|s z c d H IH Hd].
  - destruct (hex_digit_ok c d H) as [E _]. cbn [hex_digits]. rewrite E. lia.
  - rewrite hex_digits_app by now apply hex_text_chars in H. rewrite IH. destruct (hex_digit_ok c d Hd) as [E _]. cbn [hex_digits]. now rewrite E.
Qed.
Lemma skip_0x_hex s : Forall hexy s -> skip_0x s = s.
Proof.
  intros F. unfold skip_0x. destruct s as [|c1 [|c2 s]]; auto.
  - now destruct c1 as [[] [] [] [] [] [] [] []].
  - inversion F as [|? ? H1 F1]; inversion F1 as [|? ? [d H2] F2]; subst. destruct (hex_digit_ok c2 d H2) as (_ & _ & _ & _ & _ & N1 & N2).
    replace (Ascii.eqb c2 "x") with false by (symmetry; now apply Ascii.eqb_neq). replace (Ascii.eqb c2 "X") with false by (symmetry; now apply Ascii.eqb_neq). cbn [orb].
    now destruct c1 as [[] [] [] [] [] [] [] []].
Qed.
Lemma no_sign {A} (c : ascii) (s : str) (a b d : A) : c <> "-"%char -> c <> "+"%char -> (match c :: s with "-"%char :: _ => a | "+"%char :: _ => b | _ => d end) = d.
Proof. intros H1 H2. destruct c as [[] [] [] [] [] [] [] []]; try reflexivity; congruence. Qed.
Lemma strtoul_color s z : color_text s z -> strtoul16 s = z.
Proof.
  intros (B & H).
  assert (X : exists c r, s = c :: r /\ is_space c = false /\ c <> "-"%char /\ c <> "+"%char).
  { destruct H as [H|(s' & -> & H)].
    - destruct (hex_text_chars s z H) as [N F]. destruct s as [|c r]; [easy|]. inversion F as [|? ? [d Hd] F1]; subst. destruct (hex_digit_ok c d Hd) as (_ & _ & ? & ? & ? & _). exists c, r. auto.
    - exists "0"%char, (s_ "x" ++ s'). split; [reflexivity|]. split; [reflexivity|]. split; discriminate. }
  destruct X as (c & r & Es & Sp & N1 & N2). unfold strtoul16. replace (skip_spaces s) with s by (rewrite Es; cbn [skip_spaces]; now rewrite Sp).
  assert (E : (match s with "-"%char :: r0 => (true, r0) | "+"%char :: r0 => (false, r0) | _ => (false, s) end) = (false, s)).
  { rewrite Es. destruct c as [[] [] [] [] [] [] [] []]; try reflexivity; congruence. }
  rewrite E. assert (V : hex_digits 0 (skip_0x s) = z).
  { destruct H as [H|(s' & -> & H)].
    - destruct (hex_text_chars s z H) as [_ F]. rewrite skip_0x_hex by exact F. now apply hex_digits_value.
    - cbn. now apply hex_digits_value. }
  rewrite V. destruct (Z.ltb_spec ulong_max z); [unfold ulong_max in *; lia|reflexivity].
Qed.

Lemma strtoul_hex s z : hex_text s z \/ (exists s', s = s_ "0x" ++ s' /\ hex_text s' z) -> strtoul16 s = Z.min z (2 ^ 64 - 1).
Proof.
  intros H.
  assert (X : exists c r, s = c :: r /\ is_space c = false /\ c <> "-"%char /\ c <> "+"%char).
  { destruct H as [H|(s' & -> & H)].
    - destruct (hex_text_chars s z H) as [N F]. destruct s as [|c r]; [easy|]. inversion F as [|? ? [d Hd] F1]; subst. destruct (hex_digit_ok c d Hd) as (_ & _ & ? & ? & ? & _). exists c, r. auto.
    - exists "0"%char, (s_ "x" ++ s'). split; [reflexivity|]. split; [reflexivity|]. split; discriminate. }
  destruct X as (c & r & Es & Sp & N1 & N2). unfold strtoul16. replace (skip_spaces s) with s by (rewrite Es; cbn [skip_spaces]; now rewrite Sp).
  assert (E : (match s with "-"%char :: r0 => (true, r0) | "+"%char :: r0 => (false, r0) | _ => (false, s) end) = (false, s)).
  { rewrite Es. destruct c as [[] [] [] [] [] [] [] []]; try reflexivity; congruence. }
  rewrite E. assert (V : hex_digits 0 (skip_0x s) = z).
  { destruct H as [H|(s' & -> & H)].
    - destruct (hex_text_chars s z H) as [_ F]. rewrite skip_0x_hex by exact F. now apply hex_digits_value.
    - cbn. now apply hex_digits_value. }
  rewrite V. change (2 ^ 64 - 1)%Z with ulong_max. destruct (Z.ltb_spec ulong_max z); lia.
Qed.
(** A number of more than 32 bits is no colour, however large it is. *)
Theorem C68_large_color {D} (c : @config D) s z : hex_text s z \/ (exists s', s = s_ "0x" ++ s' /\ hex_text s' z) -> (2 ^ 32 <= z)%Z -> push_color c s = Fatal.
Proof.
  intros H Hz. unfold push_color. rewrite (strtoul_hex s z H). destruct (Z.ltb_spec (Z.min z (2 ^ 64 - 1)) 4294967296) as [L|L]; [lia|reflexivity].
Qed.
Example large_color : hex_text (s_ "1ffffffff") 8589934591.
Proof.
  assert (F : digit_of "f"%char 15) by (vm_compute; intuition congruence || eauto 20).
  assert (O : digit_of "1"%char 1) by (vm_compute; intuition congruence || eauto 20).
  exact (hex_more _ _ _ _ (hex_more _ _ _ _ (hex_more _ _ _ _ (hex_more _ _ _ _ (hex_more _ _ _ _ (hex_more _ _ _ _ (hex_more _ _ _ _ (hex_more _ _ _ _ (hex_one _ _ O) F) F) F) F) F) F) F) F).
Qed.

Lemma exact_spec f name : compare0 f (s_ name) && (length f =? length (s_ name)) = if list_eq_dec ascii_dec f (s_ name) then true else false.
Proof.
  destruct (list_eq_dec ascii_dec f (s_ name)) as [->|N].
  - rewrite Nat.eqb_refl, Bool.andb_true_r. unfold compare0. rewrite <- (app_nil_r (s_ name)) at 2. apply starts_self.
  - destruct (compare0 f (s_ name)) eqn:E; [|reflexivity]. cbn [andb]. apply Nat.eqb_neq. intros L. apply N. apply starts_app in E as [r ->].
    rewrite app_length in L. destruct r; [apply app_nil_r|cbn in L; lia].
Qed.

Section Run.
Context {D : Type} (read_datum : str -> D) (one : D).
Notation config := (config (D := D)).
Notation read_lines := (read_lines read_datum).
Notation read_config := (read_config read_datum one).

Lemma names_lines k lines rest (c : config) : length lines = S k ->
  read_lines (lines ++ rest) (Name k) c = read_lines rest Line (mkConfig (c_classes c) (c_names c ++ lines) (c_colors c) (c_weights c) (c_error c) (c_training c) (c_testing c) (c_no_mmap c)).
Proof.
  revert k c. induction lines as [|l lines IH]; intros k c L; [discriminate|]. cbn [app DatasetConfig_Model.read_lines]. destruct k as [|k]; cbn [next].
  - destruct lines; [|discriminate]. reflexivity.
  - rewrite IH by (cbn in L; lia). cbn. now rewrite <- app_assoc.
Qed.
Lemma weights_lines k lines rest (c : config) : length lines = S k ->
  read_lines (lines ++ rest) (Weight k) c = read_lines rest Line (mkConfig (c_classes c) (c_names c) (c_colors c) (c_weights c ++ map read_datum lines) (c_error c) (c_training c) (c_testing c) (c_no_mmap c)).
Proof.
  revert k c. induction lines as [|l lines IH]; intros k c L; [discriminate|]. cbn [app DatasetConfig_Model.read_lines]. destruct k as [|k]; cbn [next].
  - destruct lines; [|discriminate]. reflexivity.
  - rewrite IH by (cbn in L; lia). cbn. now rewrite <- app_assoc.
Qed.
Lemma colors_lines k lines values rest (c : config) : length lines = S k -> Forall2 color_text lines values ->
  read_lines (lines ++ rest) (Color k) c = read_lines rest Line (mkConfig (c_classes c) (c_names c) (c_colors c ++ values) (c_weights c) (c_error c) (c_training c) (c_testing c) (c_no_mmap c)).
Proof.
  intros L F. revert k c L. induction F as [|l v lines values H F IH]; intros k c L; [discriminate|]. cbn [app DatasetConfig_Model.read_lines]. unfold push_color. rewrite (strtoul_color l v H).
  destruct (Z.ltb_spec v 4294967296); [|destruct H; lia]. cbn [bind]. destruct k as [|k]; cbn [next].
  - destruct lines; [|discriminate]. inversion F. reflexivity.
  - rewrite IH by (cbn in L; lia). cbn. now rewrite <- app_assoc.
Qed.

Definition after (c : config) (p : part) : config :=
  mkConfig (c_classes c) (c_names c) (c_colors c ++ match p with Colors _ v => v | _ => [] end)
    (c_weights c ++ map read_datum (match p with Weights t => t | _ => [] end))
    (match error_of p with Some e => e | None => c_error c end) (match training_of p with Some f => f | None => c_training c end)
    (match testing_of p with Some f => f | None => c_testing c end) (c_no_mmap c || match p with NoMmap _ => true | _ => false end).
Lemma config_eta (c : config) : c = mkConfig (c_classes c) (c_names c) (c_colors c) (c_weights c) (c_error c) (c_training c) (c_testing c) (c_no_mmap c).
Proof. now destruct c. Qed.
Lemma part_step n p rest (c : config) : c_classes c = Z.of_nat (S n) -> part_ok (S n) p -> read_lines (part_lines p ++ rest) Line c = read_lines rest Line (after c p).
Proof.
  intros Hc W. destruct p as [texts values|texts|sep name|sep file|sep file|tail|line]; cbn [part_lines part_ok app] in *; unfold after; cbn [error_of training_of testing_of]; cbn [map];
    rewrite ?app_nil_r, ?Bool.orb_false_r, ?Bool.orb_true_r.
  - destruct W as [L F]. cbn [DatasetConfig_Model.read_lines]. unfold config_line. cbn [starts_with_identifier compare0 starts s_ list_ascii_of_string Ascii.eqb Bool.eqb andb bind fst snd parse_string_if_possible].
    cbn -[read_lines Z.to_nat]. rewrite Hc, Nat2Z.id. cbn [next]. rewrite <- Hc, <- config_eta. now apply colors_lines.
  - cbn [DatasetConfig_Model.read_lines]. unfold config_line. cbn -[read_lines Z.to_nat]. rewrite Hc, Nat2Z.id. cbn [next]. rewrite <- Hc, <- config_eta. now apply weights_lines.
  - cbn [DatasetConfig_Model.read_lines]. unfold config_line. set (line := s_ "localized_error" ++ sep :: name).
    change (starts_with_identifier line (s_ "nommap")) with false. change (starts_with_identifier line (s_ "classes")) with false. change (starts_with_identifier line (s_ "colors")) with false.
    change (starts_with_identifier line (s_ "weights")) with false. change (starts_with_identifier line (s_ "localized_error")) with true.
    change (parse_string_if_possible line (s_ "localized_error") []) with (Ok name). change (parse_string_if_possible line (s_ "training") (c_training c)) with (Ok (c_training c)).
    change (parse_string_if_possible line (s_ "testing") (c_testing c)) with (Ok (c_testing c)). cbn [bind fst snd].
    pose proof (exact_spec name "kitti") as E1. pose proof (exact_spec name "default") as E2. change (length (s_ "kitti")) with 5 in E1. change (length (s_ "default")) with 7 in E2. rewrite E1, E2.
    destruct (list_eq_dec ascii_dec name (s_ "kitti")); [reflexivity|]. destruct (list_eq_dec ascii_dec name (s_ "default")); reflexivity.
  - reflexivity.
  - reflexivity.
  - reflexivity.
  - assert (F : forall w, In w words -> starts_with_identifier line w = false).
    { intros w Hw. destruct (starts_with_identifier line w) eqn:E; [|reflexivity]. apply starts_iff in E as [t ->]. now destruct (W w Hw t). }
    cbn [DatasetConfig_Model.read_lines]. unfold config_line, parse_string_if_possible.
    rewrite (F (s_ "nommap")), (F (s_ "classes")), (F (s_ "colors")), (F (s_ "weights")), (F (s_ "localized_error")), (F (s_ "training")), (F (s_ "testing")) by (cbn; tauto).
    cbn [bind fst snd]. now rewrite <- config_eta.
Qed.
Lemma parts_run n ps (c : config) : c_classes c = Z.of_nat (S n) -> Forall (part_ok (S n)) ps -> read_lines (concat (map part_lines ps)) Line c = Ok (fold_left after ps c).
Proof.
  intros Hc F. revert c Hc. induction F as [|p ps W F IH]; intros c Hc; [reflexivity|]. cbn [map concat fold_left]. rewrite (part_step n) by auto. apply IH. exact Hc.
Qed.
Lemma fold_after ps (c : config) : fold_left after ps c =
  mkConfig (c_classes c) (c_names c) (c_colors c ++ all_colors ps) (c_weights c ++ map read_datum (all_weights ps)) (last_of error_of ps (c_error c))
    (last_of training_of ps (c_training c)) (last_of testing_of ps (c_testing c)) (c_no_mmap c || has_nommap ps).
Proof.
  revert c. induction ps as [|p ps IH]; intros c.
  - cbn. rewrite !app_nil_r, Bool.orb_false_r. apply config_eta.
  - cbn [fold_left]. rewrite IH. unfold after, all_colors, all_weights, last_of, has_nommap. cbn [c_classes c_names c_colors c_weights c_error c_training c_testing c_no_mmap map concat fold_left existsb].
    rewrite map_app, !app_assoc, Bool.orb_assoc. reflexivity.
Qed.
Lemma classes_line names rest : names <> [] -> (Z.of_nat (length names) <= 2147483647)%Z ->
  read_lines ((s_ "classes=" ++ decimal (Z.of_nat (length names))) :: names ++ rest) Line no_config = read_lines rest Line (mkConfig (Z.of_nat (length names)) names [] [] DefaultError [] [] false).
Proof.
  intros N B. set (z := Z.of_nat (length names)) in *. cbn [DatasetConfig_Model.read_lines]. unfold config_line.
  assert (P : parse_count (s_ "classes=" ++ decimal z) (s_ "classes") 0 = Ok z).
  { unfold parse_count. rewrite (param_text_value _ _ (decimal z)).
    - cbn [bind]. rewrite <- (app_nil_r (decimal z)), atoi_decimal by (auto; lia). cbn [bind]. unfold to_uint. f_equal. apply Z.mod_small. lia.
    - exists [], []. rewrite app_nil_r. split; [reflexivity|]. split; [repeat constructor; discriminate|]. split.
      + eapply Forall_impl; [|apply decimal_digits; lia]. intros c Hc ->. discriminate.
      + split; [auto|]. cbn. lia. }
  set (line := s_ "classes=" ++ decimal z) in *.
  change (starts_with_identifier line (s_ "nommap")) with false. change (starts_with_identifier line (s_ "classes")) with true. change (starts_with_identifier line (s_ "localized_error")) with false.
  unfold parse_string_if_possible. change (starts_with_identifier line (s_ "training")) with false. change (starts_with_identifier line (s_ "testing")) with false.
  cbn [c_classes no_config]. rewrite P. cbn [bind fst snd]. destruct names as [|a names]; [easy|]. unfold z. rewrite Nat2Z.id. cbn [length next].
  change (a :: names) with ([a] ++ names) at 1. rewrite (names_lines (length names) ([a] ++ names)) by reflexivity. reflexivity.
Qed.

(** A file that starts with the classes and their names is read back exactly: names are not interpreted, colors and weights are those of all the parts in their order
    (missing weights are 1), and for the files and the error function the last line counts. *)
Theorem C68_config names ps : names <> [] -> (Z.of_nat (length names) <= 2147483647)%Z -> Forall (part_ok (length names)) ps ->
  exists c, read_config (file_lines names ps) = Ok c /\
    c_classes c = Z.of_nat (length names) /\ c_names c = names /\ c_colors c = all_colors ps /\
    c_weights c = (if length (all_weights ps) =? length names then map read_datum (all_weights ps) else map read_datum (all_weights ps) ++ repeat one (length names)) /\
    c_error c = last_of error_of ps DefaultError /\ c_training c = last_of training_of ps [] /\ c_testing c = last_of testing_of ps [] /\ c_no_mmap c = has_nommap ps.
Proof.
  intros N B F. unfold DatasetConfig_Model.read_config, file_lines. rewrite classes_line by auto.
  destruct names as [|a names]; [easy|]. rewrite (parts_run (length names)); [|reflexivity|exact F]. cbn [bind]. rewrite fold_after. eexists. split; [reflexivity|].
  unfold fill_weights. cbn [c_classes c_names c_colors c_weights c_error c_training c_testing c_no_mmap app orb]. repeat split.
  rewrite map_length, Nat2Z.id. match goal with |- (if (?x =? ?y)%Z then _ else _) = if ?p =? ?q then _ else _ => destruct (Nat.eqb_spec p q) as [E|E]; destruct (Z.eqb_spec x y) as [E'|E'] end; try reflexivity.
  - destruct E'. now rewrite E.
  - destruct E. now apply Nat2Z.inj.
Qed.
(** With one list of colors and at most one list of weights there are as many of each as classes, as the dataset requires (C30). *)
Theorem C68_counts names ps c : names <> [] -> (Z.of_nat (length names) <= 2147483647)%Z -> Forall (part_ok (length names)) ps -> read_config (file_lines names ps) = Ok c ->
  length (c_names c) = length names /\
  (length (filter (fun p => match p with Colors _ _ => true | _ => false end) ps) = 1 -> length (c_colors c) = length names) /\
  (length (filter (fun p => match p with Weights _ => true | _ => false end) ps) <= 1 -> length (c_weights c) = length names).
Proof.
  intros N B F E. destruct (C68_config names ps N B F) as (c' & E' & _ & H1 & H2 & H3 & _). assert (c' = c) by congruence. subst c'. rewrite H1, H2, H3. split; [reflexivity|]. split.
  - intros K. unfold all_colors. assert (X : length (concat (map (fun p => match p with Colors _ v => v | _ => [] end) ps)) = length (filter (fun p => match p with Colors _ _ => true | _ => false end) ps) * length names).
    { clear - F. induction F as [|p ps W F IH]; [reflexivity|]. cbn [map concat filter]. rewrite app_length, IH. destruct p; cbn [length Nat.add Nat.mul]; auto. cbn in W. destruct W as [W1 W2].
      apply Forall2_length in W2. lia. }
    rewrite X, K. lia.
  - intros K. assert (X : length (all_weights ps) = length (filter (fun p => match p with Weights _ => true | _ => false end) ps) * length names).
    { unfold all_weights. clear - F. induction F as [|p ps W F IH]; [reflexivity|]. cbn [map concat filter]. rewrite app_length, IH. destruct p; cbn [length Nat.add Nat.mul]; auto. }
    destruct (Nat.eqb_spec (length (all_weights ps)) (length names)) as [E1|E1]; [now rewrite map_length|]. rewrite app_length, map_length, repeat_length, X.
    destruct (length (filter (fun p => match p with Weights _ => true | _ => false end) ps)) as [|[|k]]; lia.
Qed.

(** Which files are opened: those that are named, unless loading is switched off for them. *)
Theorem C68_sources (c : config) dont_load s :
  (training_source c dont_load s = if dont_load then None else match s, c_training c with LoadTestingOnly, _ => None | _, [] => None | _, f => Some f end) /\
  (testing_source c dont_load s = if dont_load then None else match s, c_testing c with LoadTrainingOnly, _ => None | _, [] => None | _, f => Some f end).
Proof.
  unfold training_source, testing_source. split.
  - destruct dont_load; [reflexivity|]. destruct (c_training c), s; reflexivity.
  - destruct dont_load; [reflexivity|]. destruct (c_testing c), s; reflexivity.
Qed.
Variable good : str -> bool.
Variable open : str -> Z.
(** The patch dataset opens the files it needs, or fails. *)
Theorem C68_patch_sources (c : config) dont_load s a b fa fb : patch_sources good open c dont_load s = Ok (a, b, fa, fb) ->
  a = training_source c dont_load s /\ b = testing_source c dont_load s /\ (forall f, a = Some f \/ b = Some f -> good f = true) /\
  (c_no_mmap c = true -> fa = 0%Z /\ fb = 0%Z) /\ (0 <= fa)%Z /\ (0 <= fb)%Z.
Proof.
  unfold patch_sources. destruct (training_source c dont_load s) as [f1|], (testing_source c dont_load s) as [f2|].
  - destruct (good f1) eqn:G1; cbn [negb bind]; [|discriminate]. destruct (c_no_mmap c).
    + cbn. destruct (good f2) eqn:G2; cbn; [|discriminate]. injection 1 as <- <- <- <-. repeat split; auto; try lia. intros f [E|E]; congruence.
    + destruct (Z.ltb_spec (open (c_training c)) 0); cbn [bind]; [discriminate|]. destruct (good f2) eqn:G2; cbn [negb bind]; [|discriminate]. cbn. injection 1 as <- <- <- <-.
      repeat split; auto; try discriminate. intros f [E|E]; congruence.
  - destruct (good f1) eqn:G1; cbn [negb bind]; [|discriminate]. destruct (c_no_mmap c).
    + cbn. injection 1 as <- <- <- <-. repeat split; auto; try lia. intros f [E|E]; congruence.
    + destruct (Z.ltb_spec (open (c_training c)) 0); cbn [bind]; [discriminate|]. cbn. injection 1 as <- <- <- <-. repeat split; auto; try discriminate; try lia. intros f [E|E]; congruence.
  - cbn [bind]. destruct (good f2) eqn:G2; cbn [negb bind]; [|discriminate]. destruct (c_no_mmap c).
    + cbn. injection 1 as <- <- <- <-. repeat split; auto; try lia. intros f [E|E]; congruence.
    + destruct (Z.ltb_spec (open (c_training c)) 0); cbn [bind]; [discriminate|]. cbn. injection 1 as <- <- <- <-. repeat split; auto; try discriminate; try lia. intros f [E|E]; congruence.
  - cbn. injection 1 as <- <- <- <-. repeat split; auto; try lia. intros f [E|E]; congruence.
Qed.
(** Finding: the descriptor for mapping the test file is one of the training file (line 441), so mapped test tensors show the contents of the training file. *)
Theorem C68_testing_descriptor_refuted (c : config) f g : c_no_mmap c = false -> c_training c = f -> c_testing c = g -> f <> [] -> g <> [] -> good f = true -> good g = true -> (0 <= open f)%Z ->
  patch_sources good open c false LoadBoth = Ok (Some f, Some g, open f, open f).
Proof.
  intros H1 <- <- N1 N2 G1 G2 O. unfold patch_sources, training_source, testing_source. cbn [negb andb]. destruct (c_training c) as [|x l]; [easy|]. destruct (c_testing c) as [|y l']; [easy|].
  cbn [length Nat.ltb Nat.leb]. rewrite G1, G2, H1. cbn [negb]. destruct (Z.ltb_spec (open (x :: l)) 0); [lia|]. reflexivity.
Qed.
End Run.

(** Findings: the name default does not select the default error function. *)
Theorem C68_default_error_refuted : exists names ps, Forall (part_ok (length names)) ps /\ ps = [Error "=" (s_ "kitti"); Error "=" (s_ "default")] /\
  exists c, read_config (fun _ => 0%Z) 1%Z (file_lines names ps) = Ok c /\ c_error c = KittiError.
Proof. exists [s_ "a"]. eexists. split; [|split; [reflexivity|]]; [repeat constructor|]. exists (mkConfig 1%Z [s_ "a"] [] [1%Z] KittiError [] [] false). split; vm_compute; reflexivity. Qed.
(** Weights that are given twice give three weights per class. *)
Theorem C68_weights_twice_refuted : exists c, read_config (fun _ => 0%Z) 1%Z (file_lines [s_ "a"] [Weights [s_ "1"]; Weights [s_ "2"]]) = Ok c /\ length (c_weights c) = 3.
Proof. exists (mkConfig 1%Z [s_ "a"] [] [0; 0; 1]%Z DefaultError [] [] false). split; vm_compute; reflexivity. Qed.
(** Colors in front of the classes are not read. *)
Theorem C68_colors_first_refuted : exists c, read_config (fun _ => 0%Z) 1%Z [s_ "colors"; s_ "ff0000"; s_ "classes=1"; s_ "a"] = Ok c /\ c_colors c = [].
Proof. exists (mkConfig 1%Z [s_ "a"] [] [1%Z] DefaultError [] [] false). split; vm_compute; reflexivity. Qed.

(** A file with names that look like settings, colors in both notations, weights, a comment and files. *)
Example sample_config : exists names ps, Forall (part_ok (length names)) ps /\ length names = 2 /\
  names = [s_ "training=x"; s_ "road"] /\ all_colors ps = [16711680; 255]%Z /\ last_of training_of ps [] = s_ "b.Tensor" /\ last_of error_of ps DefaultError = KittiError.
Proof.
  exists [s_ "training=x"; s_ "road"], [Colors [s_ "0xFF0000"; s_ "ff"] [16711680; 255]%Z; Weights [s_ "1"; s_ "2.5"]; Other (s_ "# comment"); Training "=" (s_ "a.Tensor"); Training "=" (s_ "b.Tensor"); Error "=" (s_ "kitti")].
  split; [|repeat split].
  assert (H1 : color_text (s_ "0xFF0000") 16711680).
  { split; [lia|]. right. exists (s_ "FF0000"). split; [reflexivity|].
    change 16711680%Z with (16 * (16 * (16 * (16 * (16 * 15 + 15) + 0) + 0) + 0) + 0)%Z. change (s_ "FF0000") with (((((s_ "F" ++ s_ "F") ++ s_ "0") ++ s_ "0") ++ s_ "0") ++ s_ "0").
    do 5 (apply hex_more; [|unfold digit_of; cbn; lia]). apply hex_one. unfold digit_of. cbn. lia. }
  assert (H2 : color_text (s_ "ff") 255).
  { split; [lia|]. left. change 255%Z with (16 * 15 + 15)%Z. change (s_ "ff") with (s_ "f" ++ s_ "f"). apply hex_more; [apply hex_one|]; unfold digit_of; cbn; lia. }
  apply Forall_cons; [split; [reflexivity|auto]|]. apply Forall_cons; [reflexivity|]. apply Forall_cons; [|repeat (apply Forall_cons; [exact I|]); apply Forall_nil].
  intros w Hw tail. cbn in Hw. destruct Hw as [<-|[<-|[<-|[<-|[<-|[<-|[<-|[]]]]]]]]; discriminate.
Qed.

Print Assumptions C68_large_color.
Print Assumptions C68_config.
Print Assumptions C68_counts.
Print Assumptions C68_sources.
Print Assumptions C68_patch_sources.
Print Assumptions C68_testing_descriptor_refuted.
Print Assumptions C68_default_error_refuted.
Print Assumptions C68_weights_twice_refuted.
Print Assumptions C68_colors_first_refuted.

(** C67: training settings in a configuration file. *)
From Coq Require Import Ascii String.
From Verif Require Import Base BaseFacts Str_Model Str_Proofs Config_Model Config_Proofs Settings_Model.
Local Open Scope list_scope.
Local Open Scope nat_scope.

(** ** Specification *)
Inductive datum_key : Type := LR | L1 | L2 | Exponent | Gamma | Momentum | Mu | Eta.
Inductive uint_key : Type := PBatch | SBatch | Iterations.
Inductive key : Type := KD (k : datum_key) | KU (k : uint_key) | KMethod.
Definition key_text (k : key) : str :=
  s_ match k with
     | KD LR => "lr" | KD L1 => "l1" | KD L2 => "l2" | KD Exponent => "exponent" | KD Gamma => "gamma" | KD Momentum => "momentum" | KD Mu => "mu" | KD Eta => "eta"
     | KU PBatch => "pbatchsize" | KU SBatch => "sbatchsize" | KU Iterations => "iterations" | KMethod => "optimization"
     end%string.
(** A line is a comment, a setting (key, any separating character, value) or something else. *)
Inductive entry : Type := Comment (text : str) | Setting (k : key) (sep : ascii) (value : str) | Unrelated (text : str).
Definition render (e : entry) : str :=
  match e with Comment t => s_ "#" ++ t | Setting k sep v => key_text k ++ sep :: v | Unrelated t => t end.
(** The decimal number at the start of [v]. *)
Definition number (v : str) (z : Z) : Prop :=
  exists rest, v = decimal z ++ rest /\ (0 <= z <= 2147483647)%Z /\ (rest = [] \/ exists c r, rest = c :: r /\ is_digit c = false).
Definition starts_text (name line : str) : Prop := exists tail, line = name ++ tail.
Definition well_formed (e : entry) : Prop :=
  match e with
  | Comment _ => True
  | Setting (KU _) _ v => exists z, number v z
  | Setting _ _ _ => True
  | Unrelated t => forall k, ~ starts_text (key_text k) t
  end.
Definition key_eqb (a b : key) : bool :=
  match a, b with
  | KD x, KD y => match x, y with LR, LR | L1, L1 | L2, L2 | Exponent, Exponent | Gamma, Gamma | Momentum, Momentum | Mu, Mu | Eta, Eta => true | _, _ => false end
  | KU x, KU y => match x, y with PBatch, PBatch | SBatch, SBatch | Iterations, Iterations => true | _, _ => false end
  | KMethod, KMethod => true
  | _, _ => false
  end.
(** The value in the last line that sets [k]. *)
Fixpoint last_value (k : key) (es : list entry) : option str :=
  match es with
  | [] => None
  | e :: rest =>
    match last_value k rest with
    | Some v => Some v
    | None => match e with Setting k' _ v => if key_eqb k k' then Some v else None | _ => None end
    end
  end.
(** The last known method that was named. *)
Fixpoint last_method (es : list entry) : option method :=
  match es with
  | [] => None
  | e :: rest =>
    match last_method rest with
    | Some m => Some m
    | None => match e with
              | Setting KMethod _ v => if starts (s_ "gradient_descent") v then Some GradientDescent else if starts (s_ "quickprop") v then Some QuickProp else None
              | _ => None end
    end
  end.
Definition get_datum {D} (o : options D) (k : datum_key) : D :=
  match k with LR => o_lr o | L1 => o_l1 o | L2 => o_l2 o | Exponent => o_exponent o | Gamma => o_gamma o | Momentum => o_momentum o | Mu => o_mu o | Eta => o_eta o end.
Definition get_uint {D} (o : options D) (k : uint_key) : Z :=
  match k with PBatch => o_pbatchsize o | SBatch => o_sbatchsize o | Iterations => o_iterations o end.

(** ** Proofs *)
Lemma number_atoi v z : number v z -> atoi v = Ok z.
Proof. intros (rest & -> & B & R). now apply atoi_decimal. Qed.
Lemma key_eqb_spec a b : reflect (a = b) (key_eqb a b).
Proof. destruct a as [[]|[]|], b as [[]|[]|]; cbn; constructor; congruence. Qed.

Section Run.
Context {D : Type} (read_datum : str -> D) (zero : D).
Notation settings_line := (settings_line read_datum zero).
Notation init_settings := (init_settings read_datum zero).

(** What one line does. *)
Definition line_effect (o o' : options D) (e : entry) : Prop :=
  (forall k, get_datum o' k = match e with Setting k' _ v => if key_eqb (KD k) k' then read_datum v else get_datum o k | _ => get_datum o k end) /\
  (forall k, match e with Setting k' _ v => if key_eqb (KU k) k' then number v (get_uint o' k) else get_uint o' k = get_uint o k | _ => get_uint o' k = get_uint o k end) /\
  o_method o' = match e with
                | Setting KMethod _ v => if starts (s_ "gradient_descent") v then GradientDescent else if starts (s_ "quickprop") v then QuickProp else o_method o
                | _ => o_method o end.
Lemma unrelated_line (o : options D) t : (forall k, ~ starts_text (key_text k) t) -> settings_line o t = Ok o.
Proof.
  intros H. unfold Settings_Model.settings_line. destruct (compare0 t (s_ "#")); [reflexivity|].
  assert (F : forall k, starts_with_identifier t (key_text k) = false).
  { intros k. destruct (starts_with_identifier t (key_text k)) eqn:E; [|reflexivity]. apply starts_iff in E. now apply H in E. }
  unfold parse_datum_if_possible, parse_uint_if_possible, parse_string_if_possible.
  pose proof (F (KD L1)) as F0; unfold key_text in F0.
  pose proof (F (KD L2)) as F1; unfold key_text in F1.
  pose proof (F (KD LR)) as F2; unfold key_text in F2.
  pose proof (F (KD Gamma)) as F3; unfold key_text in F3.
  pose proof (F (KD Momentum)) as F4; unfold key_text in F4.
  pose proof (F (KD Exponent)) as F5; unfold key_text in F5.
  pose proof (F (KD Eta)) as F6; unfold key_text in F6.
  pose proof (F (KD Mu)) as F7; unfold key_text in F7.
  pose proof (F (KU Iterations)) as F8; unfold key_text in F8.
  pose proof (F (KU SBatch)) as F9; unfold key_text in F9.
  pose proof (F (KU PBatch)) as F10; unfold key_text in F10.
  pose proof (F (KMethod)) as F11; unfold key_text in F11.
  rewrite F0, F1, F2, F3, F4, F5, F6, F7, F8, F9, F10, F11.
  cbn. now destruct o.
Qed.
Lemma line_ok (o : options D) e : well_formed e -> exists o', settings_line o (render e) = Ok o' /\ line_effect o o' e.
Proof.
  intros W. destruct e as [t|k sep v|t]; cbn [render well_formed] in *.
  - exists o. split; [reflexivity|]. repeat split; auto.
  - destruct k as [k|k|].
    + destruct k; (eexists; split; [reflexivity|]; split; [intros []; reflexivity|split; [intros []; reflexivity|reflexivity]]).
    + destruct W as (z & Hz). pose proof (number_atoi v z Hz) as A. assert (U : to_uint z = z) by (destruct Hz as (rest & _ & B & _); unfold to_uint; apply Z.mod_small; lia).
      destruct k; unfold Settings_Model.settings_line, parse_uint_if_possible, parse_uint; cbn; rewrite A; cbn;
        (eexists; split; [reflexivity|]; split; [intros []; reflexivity|split; [intros []; cbn; try reflexivity; rewrite U; exact Hz|reflexivity]]).
    + unfold Settings_Model.settings_line, parse_string_if_possible, parse_string. cbn -[starts]. change (starts (s_ "#") _) with false. cbn -[starts].
      eexists. split; [reflexivity|]. split; [intros []; reflexivity|]. split; [intros []; reflexivity|]. reflexivity.
  - exists o. split; [now apply unrelated_line|]. repeat split; auto.
Qed.

(** Every setting has the value of the last line that sets it, and the value it had before if there is no such line; comments and other lines
    change nothing. *)
Theorem C67_settings es o : Forall well_formed es -> exists o', init_settings (map render es) o = Ok o' /\
  (forall k, get_datum o' k = match last_value (KD k) es with Some v => read_datum v | None => get_datum o k end) /\
  (forall k, match last_value (KU k) es with Some v => number v (get_uint o' k) | None => get_uint o' k = get_uint o k end) /\
  o_method o' = match last_method es with Some m => m | None => o_method o end.
Proof.
  intros F. revert o. induction F as [|e es W F IH]; intros o.
  - exists o. repeat split; reflexivity.
  - destruct (line_ok o e W) as (o1 & E1 & D1 & U1 & M1). destruct (IH o1) as (o2 & E2 & D2 & U2 & M2). exists o2. split; [|split; [|split]].
    + unfold Settings_Model.init_settings in *. cbn [map foldm]. rewrite E1. exact E2.
    + intros k. rewrite D2. cbn [last_value]. destruct (last_value (KD k) es); [reflexivity|]. rewrite D1. destruct e as [t|k' sep v|t]; auto. now destruct (key_eqb (KD k) k').
    + intros k. specialize (U2 k). specialize (U1 k). cbn [last_value]. destruct (last_value (KU k) es); [exact U2|]. rewrite U2.
      destruct e as [t|k' sep v|t]; auto. now destruct (key_eqb (KU k) k').
    + rewrite M2. cbn [last_method]. destruct (last_method es); [reflexivity|]. rewrite M1. destruct e as [t|k' sep v|t]; auto. destruct k'; auto.
      destruct (starts (s_ "gradient_descent") v); auto. now destruct (starts (s_ "quickprop") v).
Qed.
(** A number is what its digits say. *)
Theorem C67_number v z z' : number v z -> number v z' -> z = z'.
Proof. intros A B. apply number_atoi in A, B. congruence. Qed.

(** Findings: a line with nothing but the name of a setting ends the program with an exception, ... *)
Theorem C67_bare_refuted o : init_settings [s_ "lr"] o = Fatal.
Proof. reflexivity. Qed.
(** ... and so does a number that is not an int: its conversion is undefined. *)
Theorem C67_large_number_refuted o : init_settings [s_ "iterations=3000000000"] o = UB.
Proof. reflexivity. Qed.
End Run.

(** A configuration with a comment, a layer, settings of all three kinds and a setting that is given twice. *)
Definition sample_entries : list entry :=
  [Comment (s_ " lr=1"); Unrelated (s_ "?convolutional size=3x3 kernels=8"); Setting (KD LR) "=" (s_ "0.1"); Setting (KU Iterations) "=" (s_ "100");
   Setting KMethod "=" (s_ "quickprop"); Setting (KD LR) "=" (s_ "0.2"); Unrelated []].
Example sample_settings : Forall well_formed sample_entries /\ last_value (KD LR) sample_entries = Some (s_ "0.2") /\ last_method sample_entries = Some QuickProp.
Proof.
  split; [|split; reflexivity]. repeat constructor; cbn [well_formed]; auto.
  - intros k [t E]. destruct k as [[]|[]|]; discriminate.
  - exists 100%Z, []. split; [reflexivity|]. split; [lia|auto].
  - intros k [t E]. destruct k as [[]|[]|]; discriminate.
Qed.

Print Assumptions C67_settings.
Print Assumptions C67_number.
Print Assumptions C67_bare_refuted.
Print Assumptions C67_large_number_refuted.

(** C95: the OpenCL device a program uses is the one its configuration file names. *)
From Coq Require Import Ascii String.
From Verif Require Import Base BaseFacts Str_Model Str_Proofs Config_Model Config_Proofs Receptive_Model Settings_Props System_Model System_Spec.
Local Open Scope list_scope.
Local Open Scope nat_scope.

(** ** Proofs *)
Lemma rfind_slash_none s : rfind_slash s = None <-> ~ In "/"%char s.
Proof.
  induction s as [|c s IH]; cbn [rfind_slash In]; [tauto|]. destruct (rfind_slash s) as [i|] eqn:E.
  - split; [discriminate|]. intros H. exfalso. assert (N : ~ In "/"%char s) by tauto. apply IH in N. discriminate.
  - destruct (Ascii.eqb_spec c "/"%char) as [->|N]; [split; [discriminate|tauto]|]. split; [|reflexivity]. intros _ [F|F]; [congruence|]. now apply IH.
Qed.
Lemma rfind_slash_some s i : rfind_slash s = Some i -> exists a b, s = a ++ "/"%char :: b /\ length a = i /\ ~ In "/"%char b.
Proof.
  revert i. induction s as [|c s IH]; cbn [rfind_slash]; intros i H; [discriminate|]. destruct (rfind_slash s) as [j|] eqn:E.
  - injection H as <-. destruct (IH j eq_refl) as (a & b & -> & <- & N). exists (c :: a), b. auto.
  - destruct (Ascii.eqb_spec c "/"%char) as [->|N]; [|discriminate]. injection H as <-. exists [], s. repeat split. now apply rfind_slash_none.
Qed.
Lemma number_uint v z : number v z -> to_uint z = z.
Proof. intros (_ & _ & B & _). unfold to_uint. apply Z.mod_small. lia. Qed.

Lemma keys_apart k t : compare0 (number_text k ++ t) (number_text (match k with Platform => Device | Device => Platform end)) = false.
Proof. destruct k; reflexivity. Qed.
Lemma parse_number k sep v z old : number v z -> parse_uint_if_possible (number_text k ++ sep :: v) (number_text k) old = Ok z.
Proof.
  intros H. unfold parse_uint_if_possible. rewrite (proj2 (starts_iff _ _)) by eauto. unfold parse_uint. change (compare0 ?a ?b) with (starts_with_identifier a b).
  rewrite (proj2 (starts_iff _ _)) by eauto. rewrite prefix_text. cbn [bind]. rewrite (number_atoi v z H). cbn [bind]. now rewrite (number_uint v z H).
Qed.
Lemma parse_other line k old : ~ starts_text (number_text k) line -> parse_uint_if_possible line (number_text k) old = Ok old.
Proof.
  intros H. unfold parse_uint_if_possible. destruct (starts_with_identifier line (number_text k)) eqn:E; [|reflexivity]. apply starts_iff in E. contradiction.
Qed.
Definition get (k : number_key) (p : Z * Z) : Z := match k with Platform => fst p | Device => snd p end.
Lemma line_spec p line m : line_means line m -> exists p', system_line p line = Ok p' /\
  forall k, get k p' = match m with Some (k', z) => (match k, k' with Platform, Platform | Device, Device => z | _, _ => get k p end) | None => get k p end.
Proof.
  unfold system_line. change (s_ "opencl_platform") with (number_text Platform). change (s_ "opencl_device") with (number_text Device). intros [k sep v z H|l H].
  - pose proof (keys_apart k (sep :: v)) as N. destruct k.
    + rewrite (parse_number Platform sep v z _ H). cbn [bind]. unfold parse_uint_if_possible, starts_with_identifier. rewrite N. cbn [bind]. eexists. split; [reflexivity|]. now intros [].
    + unfold parse_uint_if_possible at 1. unfold starts_with_identifier. rewrite N. cbn [bind]. rewrite (parse_number Device sep v z _ H). cbn [bind]. eexists. split; [reflexivity|]. now intros [].
  - rewrite !parse_other by auto. cbn [bind]. eexists. split; [reflexivity|]. now intros [].
Qed.
Lemma lines_spec lines ms p : Forall2 line_means lines ms -> exists p', foldm system_line lines p = Ok p' /\
  forall k, (exists before after, ms = before ++ Some (k, get k p') :: after /\ forall z', ~ In (Some (k, z')) after) \/ ((forall z', ~ In (Some (k, z')) ms) /\ get k p' = get k p).
Proof.
  intros H. revert p. induction H as [|l m lines ms Hl H IH]; intros p; [exists p; split; [reflexivity|]; intros k; right; split; [intros z' []|reflexivity]|].
  destruct (line_spec p l m Hl) as (p1 & E1 & G1). destruct (IH p1) as (p2 & E2 & G2). exists p2. cbn [foldm]. rewrite E1. cbn [bind]. split; [exact E2|]. intros k.
  destruct (G2 k) as [(a & b & -> & N)|(N & E)]; [left; exists (m :: a), b; auto|]. specialize (G1 k). destruct m as [(k', z)|].
  - assert (D : k = k' \/ k <> k') by (destruct k, k'; auto; right; discriminate). destruct D as [<-|D].
    + left. exists [], ms. split; [|exact N]. cbn [app]. f_equal. rewrite E, G1. now destruct k.
    + right. split; [|rewrite E, G1; destruct k, k'; congruence]. intros z' [F|F]; [congruence|now apply (N z')].
  - right. split; [|congruence]. intros z' [F|F]; [discriminate|now apply (N z')].
Qed.

(** ** Theorems *)
(** The program looks for its configuration in the directory it lies in, wherever it was started from. *)
Theorem C95_directory room path : length path <= room ->
  directory_of path (executable_path room (Some path)) /\ forall dir, directory_of path dir -> dir = executable_path room (Some path).
Proof.
  intros L. unfold executable_path. rewrite firstn_all2 by exact L. unfold substr0.
  assert (X : exists dir, firstn (match rfind_slash path with Some i => i + 1 | None => 0 end) path = dir /\ directory_of path dir).
  { destruct (rfind_slash path) as [i|] eqn:E.
    - apply rfind_slash_some in E as (a & b & -> & <- & N). exists (a ++ ["/"%char]). split.
      + change ("/"%char :: b) with (["/"%char] ++ b). rewrite app_assoc. rewrite firstn_app. replace (length a + 1) with (length (a ++ ["/"%char])) by (rewrite app_length; reflexivity).
        rewrite firstn_all, Nat.sub_diag. cbn [firstn]. apply app_nil_r.
      + split; [exists b; split; [now rewrite <- app_assoc|exact N]|right; now exists a].
    - apply rfind_slash_none in E. exists []. split; [reflexivity|]. split; [now exists path|now left]. }
  destruct X as (dir & -> & H). split; [exact H|]. intros dir' H'.
  destruct H as ((n1 & E1 & N1) & S1), H' as ((n2 & E2 & N2) & S2).
  assert (K : forall d d' a b : str, d ++ a = d' ++ b -> ~ In "/"%char a -> (d' = [] \/ exists x, d' = x ++ ["/"%char]) -> length d' <= length d).
  { intros d d' a b E N [->|(x & ->)]; [cbn; lia|]. destruct (Nat.le_gt_cases (length (x ++ ["/"%char])) (length d)) as [|G]; [assumption|exfalso]. apply N.
    rewrite app_length in G. cbn [length] in G. assert (Q : nth_error (d ++ a) (length x) = Some "/"%char).
    { rewrite E, nth_error_app1 by (rewrite app_length; cbn [length]; lia). rewrite nth_error_app2, Nat.sub_diag by lia. reflexivity. }
    rewrite nth_error_app2 in Q by lia. now apply nth_error_In in Q. }
  rewrite E1 in E2. assert (Q : length dir = length dir') by (pose proof (K _ _ _ _ E2 N1 S2); pose proof (K _ _ _ _ (eq_sym E2) N2 S1); lia).
  assert (F : firstn (length dir) (dir ++ n1) = firstn (length dir') (dir' ++ n2)) by (rewrite E2; congruence).
  rewrite !firstn_app, !firstn_all, !Nat.sub_diag in F. cbn [firstn] in F. now rewrite !app_nil_r in F.
Qed.
Print Assumptions C95_directory.

Lemma numbers_spec room path files dir text ms a b :
  length path <= room -> directory_of path dir -> configuration files dir = Some text -> Forall2 line_means (lines_of text) ms ->
  last_number Platform ms a -> last_number Device ms b ->
  system_numbers room (Some path) files = Ok (a, b).
Proof.
  intros L Hd Ht Hm Ha Hb. destruct (C95_directory room path L) as (_ & U). apply U in Hd. unfold system_numbers, config_path. rewrite <- Hd.
  assert (T : files (match files (dir ++ s_ "config") with Some _ => dir ++ s_ "config" | None => dir ++ s_ "../config" end) = Some text).
  { unfold configuration in Ht. destruct (files (dir ++ s_ "config")) eqn:E; congruence. }
  cbn zeta. rewrite T. destruct (lines_spec _ _ (0, 0)%Z Hm) as (p & -> & G).
  assert (V : forall k z, last_number k ms z -> get k p = z).
  { intros k z H. destruct (G k) as [(x & y & E & N)|(N & E)], H as [(x' & y' & E' & N')|(N' & ->)].
    - destruct (Nat.lt_trichotomy (length x) (length x')) as [Lt|[Eq|Gt]].
      + exfalso. apply (N z). assert (Q : nth_error ms (length x') = Some (Some (k, z))) by (rewrite E', nth_error_app2, Nat.sub_diag by lia; reflexivity).
        rewrite E, nth_error_app2 in Q by lia. destruct (length x' - length x) as [|j] eqn:J; [lia|]. cbn [nth_error] in Q. now apply nth_error_In in Q.
      + assert (Q : nth_error ms (length x) = Some (Some (k, get k p))) by (rewrite E, nth_error_app2, Nat.sub_diag by lia; reflexivity).
        rewrite Eq, E', nth_error_app2, Nat.sub_diag in Q by lia. cbn [nth_error] in Q. congruence.
      + exfalso. apply (N' (get k p)). assert (Q : nth_error ms (length x) = Some (Some (k, get k p))) by (rewrite E, nth_error_app2, Nat.sub_diag by lia; reflexivity).
        rewrite E', nth_error_app2 in Q by lia. destruct (length x - length x') as [|j] eqn:J; [lia|]. cbn [nth_error] in Q. now apply nth_error_In in Q.
    - exfalso. apply (N' (get k p)). rewrite E. apply in_elt.
    - exfalso. apply (N z). rewrite E'. apply in_elt.
    - rewrite E. now destruct k. }
  pose proof (V _ _ Ha) as Va. pose proof (V _ _ Hb) as Vb. destruct p as (p1, p2). cbn [get fst snd] in Va, Vb. congruence.
Qed.

(** The device is the one with the numbers in the configuration: for each number its last line counts; without a line, and without a file, it is 0. *)
Theorem C95_device {Dev} verbose requested room path files platforms dir text ms a b devices (d : Dev) :
  length path <= room -> directory_of path dir -> configuration files dir = Some text -> Forall2 line_means (lines_of text) ms ->
  last_number Platform ms a -> last_number Device ms b -> nth_error platforms (Z.to_nat a) = Some devices -> nth_error devices (Z.to_nat b) = Some d ->
  system_init verbose requested room (Some path) files platforms = Ok (log_level verbose requested, d).
Proof.
  intros L Hd Ht Hm Ha Hb Ep Ed. unfold system_init. rewrite (numbers_spec room path files dir text ms a b L Hd Ht Hm Ha Hb). cbn [bind]. unfold select_device. cbn [fst snd].
  destruct platforms as [|d0 ds]; [destruct (Z.to_nat a); discriminate|]. unfold load at 1. rewrite Ep. cbn [bind].
  destruct devices as [|e0 es]; [destruct (Z.to_nat b); discriminate|]. unfold load. rewrite Ed. reflexivity.
Qed.
Print Assumptions C95_device.

(** Without a platform, or without a device of the platform that is named, the program ends with an error. *)
Theorem C95_no_device {Dev} verbose requested room path files (platforms : list (list Dev)) dir text ms a b :
  length path <= room -> directory_of path dir -> configuration files dir = Some text -> Forall2 line_means (lines_of text) ms ->
  last_number Platform ms a -> last_number Device ms b -> platforms = [] \/ nth_error platforms (Z.to_nat a) = Some [] ->
  system_init verbose requested room (Some path) files platforms = Fatal.
Proof.
  intros L Hd Ht Hm Ha Hb Hp. unfold system_init. rewrite (numbers_spec room path files dir text ms a b L Hd Ht Hm Ha Hb). cbn [bind]. unfold select_device. cbn [fst snd].
  destruct Hp as [->|Ep]; [reflexivity|]. destruct platforms as [|d0 ds]; [reflexivity|]. unfold load at 1. now rewrite Ep.
Qed.
Print Assumptions C95_no_device.

(** Without a configuration it is the first device of the first platform. *)
Theorem C95_default {Dev} verbose requested room path files dir (d : Dev) devices platforms :
  length path <= room -> directory_of path dir -> configuration files dir = None ->
  system_init verbose requested room (Some path) files ((d :: devices) :: platforms) = Ok (log_level verbose requested, d).
Proof.
  intros L Hd Ht. destruct (C95_directory room path L) as (_ & U). apply U in Hd. unfold system_init, system_numbers, config_path. rewrite <- Hd. cbn zeta.
  unfold configuration in Ht. destruct (files (dir ++ s_ "config")) eqn:E; [discriminate|]. rewrite Ht. reflexivity.
Qed.
Print Assumptions C95_default.

(** The log level is the requested one; -1 asks for the default of the build. *)
Theorem C95_log_level verbose requested : (requested = -1 -> log_level verbose requested = if verbose then 3 else 2)%Z /\ (requested <> (-1)%Z -> log_level verbose requested = requested).
Proof. unfold log_level. destruct (Z.eqb_spec requested (-1)) as [->|]; split; congruence || now destruct verbose. Qed.
Print Assumptions C95_log_level.

(** Only the two places are looked at: other files do not matter, nor does the file above when there is one beside the program. *)
Theorem C95_files {Dev} verbose requested room path files files' (platforms : list (list Dev)) dir :
  length path <= room -> directory_of path dir -> configuration files dir = configuration files' dir ->
  system_init verbose requested room (Some path) files platforms = system_init verbose requested room (Some path) files' platforms.
Proof.
  intros L Hd Ht. destruct (C95_directory room path L) as (_ & U). apply U in Hd. unfold system_init, system_numbers, config_path. rewrite <- Hd. cbn zeta.
  assert (T : forall f : str -> option str, f (match f (dir ++ s_ "config") with Some _ => dir ++ s_ "config" | None => dir ++ s_ "../config" end) = configuration f dir).
  { intros f. unfold configuration. destruct (f (dir ++ s_ "config")) eqn:E; congruence. }
  now rewrite !T, Ht.
Qed.
Print Assumptions C95_files.

(** Finding: a device number for which there is no device is not reported: CLHelper::Init reads behind the end of the array of devices (also with a platform number). *)
Theorem C95_missing_device_refuted : exists files, files (s_ "/cn24/config") = Some (s_ "opencl_device=1") /\
  system_init false 2 20 (Some (s_ "/cn24/trainNetwork")) files [[tt]] = UB.
Proof. exists (fun f => if starts (s_ "/cn24/config") f then Some (s_ "opencl_device=1") else None). split; vm_compute; reflexivity. Qed.
Print Assumptions C95_missing_device_refuted.
(** Finding: a line of the configuration that consists of the word opencl_device alone ends the program with an uncaught exception. *)
Theorem C95_bare_refuted p : system_line p (s_ "opencl_device") = Fatal.
Proof. reflexivity. Qed.
Print Assumptions C95_bare_refuted.
(** Finding: a line that only begins like a setting, such as opencl_device_name=Tahiti, sets the number to 0. *)
Theorem C95_longer_refuted : foldm system_line (lines_of (s_ "opencl_device=1" ++ ["010"%char] ++ s_ "opencl_device_name=Tahiti")) (0, 0)%Z = Ok (0, 0)%Z.
Proof. vm_compute. reflexivity. Qed.
Print Assumptions C95_longer_refuted.

(** ** Example: two platforms; the configuration names the second device of the second one. *)
Definition c95_text : str := concat (map (fun l => s_ l ++ ["010"%char]) ["# my machine"; "opencl_platform=0"; "opencl_platform=1"; "opencl_device 1"]%string).
Definition c95_files (f : str) : option str := if starts (s_ "/cn24/build/../config") f then Some c95_text else None.
Lemma decimal_number z rest : (0 <= z <= 2147483647)%Z -> (rest = [] \/ exists c r, rest = c :: r /\ is_digit c = false) -> number (decimal z ++ rest) z.
Proof. intros B R. exists rest. auto. Qed.
Example C95_hypotheses : length (s_ "/cn24/build/trainNetwork") <= 30 /\ directory_of (s_ "/cn24/build/trainNetwork") (s_ "/cn24/build/") /\
  configuration c95_files (s_ "/cn24/build/") = Some c95_text /\
  Forall2 line_means (lines_of c95_text) [None; Some (Platform, 0%Z); Some (Platform, 1%Z); Some (Device, 1%Z); None] /\
  last_number Platform [None; Some (Platform, 0%Z); Some (Platform, 1%Z); Some (Device, 1%Z); None] 1 /\
  last_number Device [None; Some (Platform, 0%Z); Some (Platform, 1%Z); Some (Device, 1%Z); None] 1.
Proof.
  split; [cbn; lia|]. split.
  { split; [exists (s_ "trainNetwork"); split; [reflexivity|cbn; intuition discriminate]|right; exists (s_ "/cn24/build"); reflexivity]. }
  split; [vm_compute; reflexivity|]. split.
  - replace (lines_of c95_text) with [s_ "# my machine"; number_text Platform ++ "="%char :: decimal 0 ++ []; number_text Platform ++ "="%char :: decimal 1 ++ []; number_text Device ++ " "%char :: decimal 1 ++ []; []]
      by (vm_compute; reflexivity).
    repeat constructor; try (apply decimal_number; [lia|now left]); intros [] (t & E); discriminate.
  - split; left.
    + exists [None; Some (Platform, 0%Z)], [Some (Device, 1%Z); None]. split; [reflexivity|]. cbn. intuition discriminate.
    + exists [None; Some (Platform, 0%Z); Some (Platform, 1%Z)], [None]. split; [reflexivity|]. cbn. intuition discriminate.
Qed.
Example C95_value : system_init false (-1) 30 (Some (s_ "/cn24/build/trainNetwork")) c95_files [[1; 2]; [3; 4; 5]] = Ok (2%Z, 4).
Proof. vm_compute. reflexivity. Qed.

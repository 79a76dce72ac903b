(** C59: file names select the file format. *)
From Coq Require Import Ascii String ZArith.
From Verif Require Import Base BaseFacts Str_Model Files_Model.
Local Open Scope nat_scope.
Local Open Scope list_scope.

(** ** Specification *)
Definition ends_with (name : str) (suffix : String.string) : Prop := exists front, name = front ++ s_ suffix.
Definition png_name (name : str) : Prop := ends_with name "png" \/ ends_with name "PNG".
Definition jpg_name (name : str) : Prop := ends_with name "jpg" \/ ends_with name "JPG".
(** std::string::max_size. *)
Definition name_fits (name : str) : Prop := (Z.of_nat (length name) < 2 ^ 63)%Z.

Lemma str_eqb_spec a b : reflect (a = b) (str_eqb a b).
Proof. unfold str_eqb. destruct list_eq_dec; now constructor. Qed.

Lemma tail_pos_ok name : name_fits name -> 3 <= length name -> tail_pos name = Z.of_nat (length name - 3).
Proof. unfold tail_pos, name_fits. intros H L. rewrite Z.mod_small by lia. lia. Qed.
Lemma tail_short name other : length name < 3 -> tail_is name other = Fatal.
Proof.
  intros L. unfold tail_is, compare_at, tail_pos. replace ((Z.of_nat (length name) - 3) mod 2 ^ 64)%Z with (2 ^ 64 + (Z.of_nat (length name) - 3))%Z.
  - destruct (Z.ltb_spec (Z.of_nat (length name)) (2 ^ 64 + (Z.of_nat (length name) - 3))); [reflexivity|lia].
  - rewrite <- (Z.mod_small (2 ^ 64 + (Z.of_nat (length name) - 3)) (2 ^ 64)) by lia. rewrite Z.add_mod by lia. rewrite Z.mod_same, Z.add_0_l, Z.mod_mod by lia. reflexivity.
Qed.
Lemma tail_is_ok name other : name_fits name -> 3 <= length name -> tail_is name other = Ok (str_eqb (skipn (length name - 3) name) (s_ other)).
Proof.
  intros H L. unfold tail_is, compare_at. rewrite tail_pos_ok by auto. destruct (Z.ltb_spec (Z.of_nat (length name)) (Z.of_nat (length name - 3))); [lia|].
  rewrite Nat2Z.id. rewrite firstn_all2 by (rewrite skipn_length; lia). reflexivity.
Qed.
Lemma ends_tail name suffix : length (s_ suffix) = 3 -> 3 <= length name -> (skipn (length name - 3) name = s_ suffix <-> ends_with name suffix).
Proof.
  intros E L. split.
  - intros H. exists (firstn (length name - 3) name). rewrite <- H. now rewrite firstn_skipn.
  - intros (front & ->). rewrite app_length, E, Nat.add_sub, skipn_app, skipn_all2, Nat.sub_diag by lia. reflexivity.
Qed.
Lemma ends_length name suffix : length (s_ suffix) = 3 -> ends_with name suffix -> 3 <= length name.
Proof. intros E (front & ->). rewrite app_length. lia. Qed.
Lemma tail3 (name : str) : 3 <= length name -> length (skipn (length name - 3) name) = 3.
Proof. intros. rewrite skipn_length. lia. Qed.
Lemma tail_long (name : str) other : length (s_ other) <> 3 -> 3 <= length name -> str_eqb (skipn (length name - 3) name) (s_ other) = false.
Proof. intros N L. destruct (str_eqb_spec (skipn (length name - 3) name) (s_ other)) as [E|]; [|reflexivity]. apply tail3 in L. congruence. Qed.

Lemma png_tail name : name_fits name -> 3 <= length name -> exists b, any_tail name png_names = Ok b /\ (b = true <-> png_name name).
Proof.
  intros H L. unfold any_tail, png_names. rewrite !tail_is_ok by auto. cbn [bind]. unfold png_name.
  pose proof (ends_tail name "png" eq_refl L) as X1. pose proof (ends_tail name "PNG" eq_refl L) as X2.
  destruct (str_eqb_spec (skipn (length name - 3) name) (s_ "png")) as [E|N]; cbn [bind]; [exists true; tauto|].
  destruct (str_eqb_spec (skipn (length name - 3) name) (s_ "PNG")) as [E|N']; cbn [bind]; [exists true; tauto|]. exists false. split; [reflexivity|]. split; [discriminate|tauto].
Qed.
Lemma jpg_tail name : name_fits name -> 3 <= length name -> exists b, any_tail name jpg_names = Ok b /\ (b = true <-> jpg_name name).
Proof.
  intros H L. unfold any_tail, jpg_names. rewrite !tail_is_ok by auto. rewrite (tail_long name "jpeg"), (tail_long name "JPEG") by (cbn; auto). cbn [bind]. unfold jpg_name.
  pose proof (ends_tail name "jpg" eq_refl L) as X1. pose proof (ends_tail name "JPG" eq_refl L) as X2.
  destruct (str_eqb_spec (skipn (length name - 3) name) (s_ "jpg")) as [E|N]; cbn [bind]; [exists true; tauto|].
  destruct (str_eqb_spec (skipn (length name - 3) name) (s_ "JPG")) as [E|N']; cbn [bind]; [exists true; tauto|]. exists false. split; [reflexivity|]. split; [discriminate|tauto].
Qed.
Lemma not_both name : 3 <= length name -> png_name name -> jpg_name name -> False.
Proof. intros L [P|P] [J|J]; apply ends_tail in P; apply ends_tail in J; auto; rewrite P in J; discriminate. Qed.

Section Props.
Variable T : Type.
Variable png_built jpg_built : bool.
Variable png_decode : list Z -> option T.
Variable jpg_decode : list Z -> res T.
Variable deserialize : list Z -> res T.
Variable png_encode : T -> option (list Z).
Variable jpg_encode : T -> res (list Z).
Variable serialize : T -> list Z.
Notation load_file := (load_file T png_built jpg_built png_decode jpg_decode deserialize).
Notation write_file := (write_file T png_built jpg_built png_encode jpg_encode serialize).

Lemma files_png name : png_built = true -> name_fits name -> png_name name -> any_tail name png_names = Ok true.
Proof.
  intros B H P. assert (L : 3 <= length name) by (destruct P as [P|P]; now apply ends_length in P). destruct (png_tail name H L) as (b & -> & E). now rewrite (proj2 E P).
Qed.
Lemma files_not_png name : name_fits name -> 3 <= length name -> (png_built = true -> ~ png_name name) -> (if png_built then any_tail name png_names else Ok false) = Ok false.
Proof. intros H L N. destruct png_built; [|reflexivity]. destruct (png_tail name H L) as ([|] & -> & E); [|reflexivity]. destruct (N eq_refl). now apply E. Qed.
Lemma files_not_jpg name : name_fits name -> 3 <= length name -> (jpg_built = true -> ~ jpg_name name) -> (if jpg_built then any_tail name jpg_names else Ok false) = Ok false.
Proof. intros H L N. destruct jpg_built; [|reflexivity]. destruct (jpg_tail name H L) as ([|] & -> & E); [|reflexivity]. destruct (N eq_refl). now apply E. Qed.

(** A name that ends in png or PNG is read as a PNG file: a missing file is an error, otherwise the tensor becomes the decoded image
    (and stays as it is if the image cannot be decoded). *)
Theorem C59_load_png fs t name : png_built = true -> name_fits name -> png_name name ->
  load_file fs t name = match fs name with None => Fatal | Some c => Ok (match png_decode c with Some t' => t' | None => t end) end.
Proof. intros B H P. unfold Files_Model.load_file. rewrite (files_png name B H P), B. reflexivity. Qed.
(** A name that ends in jpg or JPG is read as a JPG file; a missing file leaves the tensor as it is. *)
Theorem C59_load_jpg fs t name : jpg_built = true -> name_fits name -> jpg_name name ->
  load_file fs t name = match fs name with None => Ok t | Some c => jpg_decode c end.
Proof.
  intros B H P. assert (L : 3 <= length name) by (destruct P as [P|P]; now apply ends_length in P). unfold Files_Model.load_file.
  rewrite files_not_png by (auto; intros _ Q; eapply not_both; eauto). rewrite B. cbn [bind]. destruct (jpg_tail name H L) as (b & -> & E). rewrite (proj2 E P). reflexivity.
Qed.
(** Writing: the file gets the coded image, other files keep their contents. *)
Theorem C59_write_png writable fs t name c : png_built = true -> name_fits name -> png_name name -> writable name = true -> png_encode t = Some c ->
  exists fs', write_file writable fs t name = Ok fs' /\ fs' name = Some c /\ forall other, other <> name -> fs' other = fs other.
Proof.
  intros B H P W E. unfold Files_Model.write_file. rewrite (files_png name B H P), B, W, E. cbn [bind]. eexists. split; [reflexivity|]. unfold put_file. split.
  - destruct (str_eqb_spec name name); [reflexivity|tauto].
  - intros other N. destruct (str_eqb_spec other name); [tauto|reflexivity].
Qed.
Theorem C59_write_jpg writable fs t name c : jpg_built = true -> name_fits name -> jpg_name name -> writable name = true -> jpg_encode t = Ok c ->
  exists fs', write_file writable fs t name = Ok fs' /\ fs' name = Some c /\ forall other, other <> name -> fs' other = fs other.
Proof.
  intros B H P W E. assert (L : 3 <= length name) by (destruct P as [P|P]; now apply ends_length in P). unfold Files_Model.write_file.
  rewrite files_not_png by (auto; intros _ Q; eapply not_both; eauto). rewrite B. cbn [bind]. destruct (jpg_tail name H L) as (b & -> & E'). rewrite (proj2 E' P). cbn [bind].
  rewrite W, E. cbn [bind]. eexists. split; [reflexivity|]. unfold put_file. split.
  - destruct (str_eqb_spec name name); [reflexivity|tauto].
  - intros other N. destruct (str_eqb_spec other name); [tauto|reflexivity].
Qed.
(** Every other name is an error, also if its format was not built in, for reading and for writing. *)
Theorem C59_unsupported writable fs t name : name_fits name -> (png_built = true -> ~ png_name name) -> (jpg_built = true -> ~ jpg_name name) ->
  load_file fs t name = Fatal /\ write_file writable fs t name = Fatal.
Proof.
  intros H P J. destruct (Nat.ltb_spec (length name) 3) as [L|L].
  - assert (S : forall o, tail_is name o = Fatal) by (intros; now apply tail_short). unfold Files_Model.load_file, Files_Model.write_file.
    destruct png_built; [unfold any_tail, png_names; rewrite S; cbn; auto|]. cbn [bind]. destruct jpg_built; [unfold any_tail, jpg_names; rewrite S; cbn; auto|]. cbn [bind]. rewrite S. cbn. auto.
  - unfold Files_Model.load_file, Files_Model.write_file. rewrite files_not_png, files_not_jpg by auto. cbn [bind]. rewrite tail_is_ok by auto. rewrite (tail_long name "Tensor") by (cbn; auto). cbn [bind]. auto.
Qed.
(** Finding: three characters are compared with six, so files named .Tensor can be neither loaded nor written, whatever they hold; likewise names
    that end in jpeg or JPEG. *)
Theorem C59_tensor_refuted writable fs t name : name_fits name -> (ends_with name ".Tensor" \/ ends_with name ".jpeg" \/ ends_with name ".JPEG") ->
  load_file fs t name = Fatal /\ write_file writable fs t name = Fatal.
Proof.
  intros H E. assert (X : exists front c1 c2 c3, name = front ++ [c1; c2; c3] /\ In [c1; c2; c3] [s_ "sor"; s_ "peg"; s_ "PEG"]).
  { destruct E as [(f & ->)|[(f & ->)|(f & ->)]].
    - exists (f ++ s_ ".Ten"), "s"%char, "o"%char, "r"%char. rewrite <- app_assoc. cbn. auto.
    - exists (f ++ s_ ".j"), "p"%char, "e"%char, "g"%char. rewrite <- app_assoc. cbn. auto.
    - exists (f ++ s_ ".J"), "P"%char, "E"%char, "G"%char. rewrite <- app_assoc. cbn. auto. }
  destruct X as (f & c1 & c2 & c3 & -> & I). apply C59_unsupported; [exact H| |]; intros _ [P|P];
    (apply ends_tail in P; [|reflexivity|rewrite app_length; cbn; lia]);
    rewrite app_length in P; cbn [length] in P; rewrite Nat.add_sub, skipn_app, skipn_all2, Nat.sub_diag in P by lia; cbn in P; cbn in I;
    destruct I as [I|[I|[I|[]]]]; injection I as <- <- <-; discriminate.
Qed.
(** Finding: writing a tensor that the PNG coder refuses (more than one sample, or other than three maps: C52_png_refused) reports success and leaves
    an empty file, even over an older image. *)
Theorem C59_refused_png_refuted writable fs t name : png_built = true -> name_fits name -> png_name name -> writable name = true -> png_encode t = None ->
  exists fs', write_file writable fs t name = Ok fs' /\ fs' name = Some [].
Proof.
  intros B H P W E. unfold Files_Model.write_file. rewrite (files_png name B H P), B, W, E. cbn [bind]. eexists. split; [reflexivity|]. unfold put_file.
  destruct (str_eqb_spec name name); [reflexivity|tauto].
Qed.
(** Finding: a JPG file that cannot be opened for writing is not reported. *)
Theorem C59_lost_jpg_refuted writable fs t name : jpg_built = true -> name_fits name -> jpg_name name -> writable name = false -> write_file writable fs t name = Ok fs.
Proof.
  intros B H P W. assert (L : 3 <= length name) by (destruct P as [P|P]; now apply ends_length in P). unfold Files_Model.write_file.
  rewrite files_not_png by (auto; intros _ Q; eapply not_both; eauto). rewrite B. cbn [bind]. destruct (jpg_tail name H L) as (b & -> & E'). rewrite (proj2 E' P). cbn [bind]. now rewrite W.
Qed.
(** What was written as PNG or JPG is what the coder reads back. *)
Theorem C59_round_trip writable fs t t0 name c t' : name_fits name -> writable name = true ->
  (png_built = true /\ png_name name /\ png_encode t = Some c /\ png_decode c = Some t') \/
  (jpg_built = true /\ jpg_name name /\ jpg_encode t = Ok c /\ jpg_decode c = Ok t') ->
  exists fs', write_file writable fs t name = Ok fs' /\ load_file fs' t0 name = Ok t'.
Proof.
  intros H W [(B & P & E & De)|(B & P & E & De)].
  - destruct (C59_write_png writable fs t name c B H P W E) as (fs' & Ew & F & _). exists fs'. split; [exact Ew|]. rewrite C59_load_png by auto. now rewrite F, De.
  - destruct (C59_write_jpg writable fs t name c B H P W E) as (fs' & Ew & F & _). exists fs'. split; [exact Ew|]. rewrite C59_load_jpg by auto. now rewrite F, De.
Qed.
End Props.

(** The names meet the hypotheses. *)
Example png_example : png_name (s_ "dir/image.png") /\ name_fits (s_ "dir/image.png").
Proof. split; [left; exists (s_ "dir/image."); reflexivity|]. unfold name_fits. cbn. lia. Qed.
Example jpg_example : jpg_name (s_ "a.JPG") /\ ~ png_name (s_ "a.JPG") /\ ends_with (s_ "net.Tensor") ".Tensor".
Proof.
  split; [right; exists (s_ "a."); reflexivity|]. split; [|exists (s_ "net"); reflexivity].
  intros [P|P]; apply ends_tail in P; try reflexivity; try discriminate; cbn; lia.
Qed.

Print Assumptions C59_load_png.
Print Assumptions C59_load_jpg.
Print Assumptions C59_write_png.
Print Assumptions C59_write_jpg.
Print Assumptions C59_unsupported.
Print Assumptions C59_tensor_refuted.
Print Assumptions C59_refused_png_refuted.
Print Assumptions C59_lost_jpg_refuted.
Print Assumptions C59_round_trip.

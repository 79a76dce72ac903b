(** C71: the tools that turn lists of images and labels into files of tensors. *)
From Flocq Require Import Core BinarySingleNaN.
From Coq Require Import Floats.SpecFloat.
From Verif Require Import Base BaseFacts Float32 FloatOps FloatOps_Flocq Float64 Float64_Flocq Bytes_Model Tensor_Model Tensor_Spec Tensor_Proofs Codec_Model Stream_Model Stream_Spec StreamFiles_Spec Stream_Proofs Stream_Props
  Dataset_Spec List_Model Single_Model List_Props UBFacts MakeStream_Model.
Local Open Scope nat_scope.

(** What the label of an image of colours [rgb] shows: its three channels (direct), a number for every pixel
    (one class), or 1 for the classes whose colour the pixel has and 0 for the others. *)
Definition label_for (direct : bool) (colors : list Z) (rgb lab : tensor f32) : Prop :=
  shape_is lab 1 (width rgb) (height rgb) (if direct then 3 else length colors) /\
  forall x y c, x < width rgb -> y < height rgb -> c < maps lab ->
    if direct then at_pos lab x y c 0 = at_pos rgb x y c 0
    else forall r g b, shows rgb x y (r, g, b) ->
      at_pos lab x y c 0 = match colors with [color] => Some (single_class r g b color) | _ => one_hot colors (r, g, b) c end.

(** Images the tools can write, and label images they can read. *)
Definition image_ok (t : tensor f32) : Prop := f32_tensor t /\ sizes_fit t /\ non_empty t.
Definition label_ok (direct : bool) (t : tensor f32) : Prop := image_ok t /\ if direct then 3 <= maps t else maps t = 3 \/ maps t = 1.

(** The tensors of a file: image and label for each pair of names. *)
Inductive tensors_of (file : name -> tensor f32) (direct : bool) (colors : list Z) (idir ldir : name) : list (name * name) -> list (tensor f32) -> Prop :=
| tensors_nil : tensors_of file direct colors idir ldir [] []
| tensors_cons i l lab ps ts : label_for direct colors (file (ldir ++ l)) lab -> tensors_of file direct colors idir ldir ps ts ->
    tensors_of file direct colors idir ldir ((i, l) :: ps) (file (idir ++ i) :: lab :: ts).

Lemma f_of_d_range x : f32_range (f_of_d x).
Proof.
  unfold f_of_d. destruct x as [s|s| |s m e].
  - destruct s; unfold f32_range; cbn; lia.
  - destruct s; unfold f32_range; cbn; lia.
  - unfold f32_range; cbn; lia.
  - rewrite binary_normalize_equiv. apply bits_range.
Qed.

Lemma non_empty_sizes (t : tensor f32) : wf t -> non_empty t -> 0 < samples t /\ 0 < width t /\ 0 < height t /\ 0 < maps t.
Proof.
  intros [E W] Hd. unfold non_empty in Hd. destruct (data t); [|congruence]. destruct W as [_ W]. rewrite E in W.
  destruct (samples t), (width t), (height t), (maps t); cbn in W |- *; lia.
Qed.

Lemma single_class_range r g b color : f32_range (single_class r g b color).
Proof. unfold single_class. cbv zeta. apply f_of_d_range. Qed.

Opaque single_class.
Section Make.
Variable junk : nat -> f32.

Lemma direct_spec rgb : label_ok true rgb -> exists lab, direct_label junk rgb = Ok lab /\ label_for true [] rgb lab.
Proof.
  intros [((W & _) & _ & Hn) Hm]. destruct (non_empty_sizes rgb W Hn) as (P1 & P2 & P3 & P4). unfold direct_label.
  set (lab := new_tensor junk 1 (width rgb) (height rgb) 3).
  assert (W0 : wf lab) by (apply wf_resize, wf_empty).
  destruct (resize_data junk empty_tensor 1 (width rgb) (height rgb) 3) as (E1 & E2 & E3 & E4 & _); [nia|].
  fold (new_tensor junk 1 (width rgb) (height rgb) 3) in E1, E2, E3, E4. fold lab in E1, E2, E3, E4.
  assert (V : forall x y c, x < width rgb -> y < height rgb -> c < 3 -> exists v, at_pos rgb x y c 0 = Some v /\ get rgb x y c 0 = Ok v).
  { intros x y c Hx Hy Hc. destruct (at_pos_some rgb x y c 0 W) as (v & Ev); [unfold valid_pos; lia|]. exists v. split; [exact Ev|now apply at_pos_get]. }
  match goal with |- context [run_stores lab ?o] => destruct (run_stores_frame lab o (fun x y c s => at_pos rgb x y c 0) W0) as (t & E & Wt & (Q1 & Q2 & Q3 & Q4) & Hat) end.
  - intros a rv Hi. apply in_for in Hi as (y & Hy & Hi). apply in_for in Hi as (x & Hx & Hi).
    destruct Hi as [Hi|[Hi|[Hi|[]]]]; injection Hi as <- <-;
      [destruct (V x y 0) as (v & A1 & A2); try lia; exists x, y, 0, 0, v|destruct (V x y 1) as (v & A1 & A2); try lia; exists x, y, 1, 0, v|destruct (V x y 2) as (v & A1 & A2); try lia; exists x, y, 2, 0, v];
      (split; [unfold valid_pos; lia|]; auto).
  - intros x y c s v (Hx & Hy & Hc & Hs) Hv. destruct (V x y c) as (v' & A1 & A2); try lia. rewrite A1 in Hv. injection Hv as ->.
    apply in_for. exists y. split; [lia|]. apply in_for. exists x. split; [lia|]. assert (s = 0) as -> by lia. rewrite <- A2.
    destruct c as [|[|[|c]]]; [left|right; left|right; right; left|lia]; reflexivity.
  - exists t. split; [exact E|]. split; [split; [exact Wt|]; repeat split; congruence|]. intros x y c Hx Hy Hc.
    destruct (V x y c) as (v & A1 & _); try lia. rewrite Hat by (unfold valid_pos; lia). now rewrite A1.
Qed.

Lemma made_spec direct colors rgb : label_ok direct rgb -> 1 <= length colors -> exists lab, made_label junk direct colors rgb = Ok lab /\ label_for direct colors rgb lab.
Proof.
  intros H Hc. destruct direct.
  { destruct (direct_spec rgb H) as (lab & E & S & X). exists lab. split; [exact E|]. split; [exact S|]. intros x y c Hx Hy Hc'. exact (X x y c Hx Hy Hc'). }
  destruct H as (((W & _) & _ & Hn) & Hm).
  destruct (non_empty_sizes rgb W Hn) as (P1 & P2 & P3 & P4). unfold made_label.
  destruct colors as [|color [|color2 rest]]; [cbn in Hc; lia| |].
  - destruct (label_one_spec junk single_class color rgb W Hm P1 P2 P3) as (lab & E & Wl & L1 & L2 & L3 & L4 & Hat). exists lab. split; [exact E|].
    split; [split; auto|]. intros x y c Hx Hy Hc' r g b Hs. assert (c = 0) as -> by lia.
    pose proof (Hat x y (r, g, b) Hx Hy Hs) as X. unfold class_value in X. exact X.
  - destruct (label_of_spec junk single_class (color :: color2 :: rest) rgb W Hm P1 P2 P3) as (lab & E & Wl & L1 & L2 & L3 & L4 & Hat); [cbn; lia|].
    exists lab. split; [exact E|]. split; [split; auto|]. intros x y c Hx Hy Hc' r g b Hs. apply Hat; auto; lia.
Qed.
End Make.

Lemma label_unique direct colors rgb lab lab' : label_ok direct rgb -> 1 <= length colors -> label_for direct colors rgb lab -> label_for direct colors rgb lab' -> lab = lab'.
Proof.
  intros (((W & _) & _ & Hn) & Hm) Hc ((Wl & L1 & L2 & L3 & L4) & Ha) ((Wl' & M1 & M2 & M3 & M4) & Hb).
  destruct (non_empty_sizes rgb W Hn) as (P1 & P2 & P3 & P4).
  apply tensor_ext; auto; [repeat split; congruence|]. intros x y m s.
  destruct (Nat.lt_ge_cases x (width rgb)) as [Hx|Hx]; [destruct (Nat.lt_ge_cases y (height rgb)) as [Hy|Hy]; [destruct (Nat.lt_ge_cases m (maps lab)) as [Hm'|Hm']; [destruct (Nat.lt_ge_cases s 1) as [Hs|Hs]|]|]|];
    [|unfold at_pos; rewrite L1, L2, L3, L4, M1, M2, M3, M4; repeat match goal with |- context [?a <? ?b] => destruct (Nat.ltb_spec a b) end; cbn [andb]; auto; lia ..].
  assert (s = 0) as -> by lia.
  specialize (Ha x y m Hx Hy Hm'). specialize (Hb x y m Hx Hy ltac:(lia)). destruct direct; [congruence|].
  destruct (pixel_rgb_spec rgb x y W Hm P1 Hx Hy) as ([[r g] b] & _ & Hp). rewrite (Ha r g b Hp), (Hb r g b Hp). reflexivity.
Qed.

Lemma values_range (t : tensor f32) : wf t -> (forall x y m s v, valid_pos t x y m s -> at_pos t x y m s = Some v -> f32_range v) -> f32_tensor t.
Proof.
  intros W H. split; [exact W|]. pose proof W as [El Wd]. destruct (data t) as [l|] eqn:Ed; [|exact I]. apply Forall_forall. intros v Hin.
  apply In_nth_error in Hin as [e He]. assert (Lt : e < length l) by (apply nth_error_Some; congruence). destruct Wd as [Ll _].
  destruct (offset_surj t e) as (x & y & m & s & V & Eo); [lia|]. apply (H x y m s v V). pose proof V as (V1 & V2 & V3 & V4). unfold at_pos.
  rewrite (proj2 (Nat.ltb_lt _ _) V1), (proj2 (Nat.ltb_lt _ _) V2), (proj2 (Nat.ltb_lt _ _) V3), (proj2 (Nat.ltb_lt _ _) V4). cbn [andb]. now rewrite Ed, Eo.
Qed.
Lemma value_range (t : tensor f32) x y m s v : f32_tensor t -> at_pos t x y m s = Some v -> f32_range v.
Proof.
  intros [W R] E. unfold at_pos in E. destruct (_ && _); [|discriminate]. destruct (data t) as [l|]; [|discriminate]. rewrite Forall_forall in R. apply R. eapply nth_error_In, E.
Qed.

Lemma label_image_ok direct colors rgb lab : label_ok direct rgb -> 1 <= length colors -> (Z.of_nat (length colors) < 2 ^ 64)%Z -> label_for direct colors rgb lab -> image_ok lab.
Proof.
  intros ((F & S & Hn) & Hm) Hc Hc' ((Wl & L1 & L2 & L3 & L4) & Ha). pose proof F as (W & R).
  destruct (non_empty_sizes rgb W Hn) as (P1 & P2 & P3 & P4). split; [|split].
  - apply values_range; [exact Wl|]. intros x y m s v (Hx & Hy & Hm' & Hs) E. assert (s = 0) as -> by lia. rewrite L2 in Hx. rewrite L3 in Hy. specialize (Ha x y m Hx Hy Hm').
    destruct direct; [rewrite Ha in E; eapply value_range; eauto|].
    destruct (pixel_rgb_spec rgb x y W Hm P1 Hx Hy) as ([[r g] b] & _ & Hp). rewrite (Ha r g b Hp) in E.
    destruct colors as [|color [|color2 rest]]; [destruct m; discriminate| |].
    + injection E as <-. apply single_class_range.
    + unfold one_hot in E. destruct (nth_error _ m) as [k|]; [|discriminate]. cbn [option_map] in E. destruct (matches k (r, g, b)); injection E as <-; (split; [discriminate|reflexivity]).
  - destruct S as (S1 & S2 & S3 & S4). unfold sizes_fit. rewrite L1, L2, L3, L4. split; [lia|]. split; [exact S2|]. split; [exact S3|]. destruct direct; [reflexivity|exact Hc'].
  - unfold non_empty. destruct Wl as [El Wl]. destruct (data lab); [discriminate|]. destruct Wl as (Q & _). lia.
Qed.

Section Lines.
Variable junk : nat -> f32.
Variable file : name -> tensor f32.
Variable write : tensor f32 -> res (list byte).
Variable written : tensor f32 -> list byte.
Variable wr_ok : tensor f32 -> Prop.
Hypothesis Hwrite : forall t, wr_ok t -> write t = Ok (written t).

Lemma make_lines_spec direct colors idir ldir images : forall labels out,
  1 <= length colors ->
  (forall i l, In (i, l) (filter (same_size file idir ldir) (used images labels)) -> wr_ok (file (idir ++ i)) /\ label_ok direct (file (ldir ++ l)) /\
     (forall lab, label_for direct colors (file (ldir ++ l)) lab -> wr_ok lab)) ->
  exists ts, make_lines junk file write direct colors idir ldir images labels out = Ok (out ++ flat_map written ts) /\
    tensors_of file direct colors idir ldir (filter (same_size file idir ldir) (used images labels)) ts.
Proof.
  induction images as [|i images IH]; intros labels out Hc H; cbn [make_lines used] in *.
  - exists []. cbn. rewrite app_nil_r. split; [reflexivity|constructor].
  - destruct ((length i <? 5) || (length (hd [] labels) <? 5)).
    + exists []. cbn. rewrite app_nil_r. split; [reflexivity|constructor].
    + cbn [filter] in *.
      assert (Es : same_size file idir ldir (i, hd [] labels) = negb (negb (width (file (idir ++ i)) =? width (file (ldir ++ hd [] labels))) || negb (height (file (idir ++ i)) =? height (file (ldir ++ hd [] labels))))).
      { unfold same_size. cbn [fst snd]. now destruct (_ =? _), (_ =? _). }
      rewrite Es in *. destruct (_ || _); cbn [negb] in *; [now apply IH|].
      destruct (H i (hd [] labels) (or_introl eq_refl)) as (Wi & Lo & Wl).
      destruct (made_spec junk direct colors (file (ldir ++ hd [] labels)) Lo Hc) as (lab & El & Hl). rewrite El. cbn [bind].
      rewrite (Hwrite _ Wi). cbn [bind]. rewrite (Hwrite _ (Wl lab Hl)). cbn [bind].
      destruct (IH (tl labels) (out ++ written (file (idir ++ i)) ++ written lab) Hc) as (ts & E & Ht).
      { intros i' l' Hin. apply H. now right. }
      exists (file (idir ++ i) :: lab :: ts). rewrite E. cbn [flat_map]. rewrite <- !app_assoc. split; [reflexivity|now constructor].
Qed.
End Lines.

(** The names of a run, with the directories as the tools use them: with one slash at the end added if there is none. *)
Definition with_slash (d : name) : name := if last d 0 =? slash then d else d ++ [slash].
Lemma directory_ok d : d <> [] -> directory d = Ok (with_slash d).
Proof.
  intros H. unfold directory, with_slash. destruct (exists_last H) as (l & a & ->). rewrite rev_app_distr. cbn [rev app]. now rewrite last_last.
Qed.

(** All image files of a run can be read, and no tensor has too many maps for the file format. *)
Definition run_ok (file : name -> tensor f32) (direct : bool) (colors : list Z) (images : list name) (idir : name) (labels : list name) (ldir : name) : Prop :=
  idir <> [] /\ ldir <> [] /\ 1 <= length colors /\ (Z.of_nat (length colors) < 2 ^ 64)%Z /\
  forall i l, In (i, l) (used images labels) -> image_ok (file (with_slash idir ++ i)) /\ label_ok direct (file (with_slash ldir ++ l)).
Definition pairs (file : name -> tensor f32) (images : list name) (idir : name) (labels : list name) (ldir : name) : list (name * name) :=
  filter (same_size file (with_slash idir) (with_slash ldir)) (used images labels).

(** The file that is written loads as the images and labels of the pairs of lines, in order, whose files have the
    same size. *)
Theorem C71_stream_file : forall junk file direct colors images idir labels ldir,
  run_ok file direct colors images idir labels ldir ->
  exists bytes ts, make_stream junk file direct colors (Some images) idir (Some labels) ldir = Ok bytes /\
    tensors_of file direct colors (with_slash idir) (with_slash ldir) (pairs file images idir labels ldir) ts /\
    bytes = flat_map serialize ts /\
    forall junk' mmap, float_load junk' mmap bytes = Ok ts.
Proof.
  intros junk file direct colors images idir labels ldir (Hi & Hl & Hc & Hc' & H). unfold make_stream, make. rewrite !directory_ok by assumption. cbn [bind].
  destruct (make_lines_spec junk file (fun t => Ok (serialize t)) serialize image_ok ltac:(reflexivity) direct colors (with_slash idir) (with_slash ldir) images labels [] Hc) as (ts & E & Ht).
  { intros i l Hin. apply filter_In in Hin as [Hin _]. destruct (H i l Hin) as (A & B). split; [exact A|]. split; [exact B|]. intros lab HL. now apply (label_image_ok direct colors (file (with_slash ldir ++ l))). }
  exists (flat_map serialize ts), ts. split; [exact E|]. split; [exact Ht|]. split; [reflexivity|]. intros junk' mmap.
  rewrite <- (app_nil_r (flat_map serialize ts)). apply C13_float_file_loads; [|now left].
  fold (pairs file images idir labels ldir) in Ht.
  assert (Hin : forall p, In p (pairs file images idir labels ldir) -> In p (used images labels)) by (intros p Hp; apply filter_In in Hp; tauto).
  clear E. induction Ht as [|i l lab ps ts HL Ht IH]; [constructor|]. destruct (H i l) as (A & B); [apply Hin; now left|].
  constructor; [exact A|]. constructor; [exact (label_image_ok direct colors (file (with_slash ldir ++ l)) lab B Hc Hc' HL)|]. apply IH. intros p Hp. apply Hin. now right.
Qed.

(** The compressed file holds the same tensors, up to the sign of zeros, if they are small enough to be compressed. *)
Definition fits (t : tensor f32) : Prop := (8 * Z.of_nat (elements t) < 2 ^ 32)%Z.
Theorem C71_compressed_file : forall junk file direct colors images idir labels ldir,
  run_ok file direct colors images idir labels ldir ->
  (forall i l, In (i, l) (used images labels) -> fits (file (with_slash idir ++ i)) /\
     (8 * (Z.of_nat (if direct then 3 else length colors) * Z.of_nat (width (file (with_slash ldir ++ l))) * Z.of_nat (height (file (with_slash ldir ++ l)))) < 2 ^ 32)%Z) ->
  exists bytes ts, make_compressed_stream junk file direct colors (Some images) idir (Some labels) ldir = Ok bytes /\
    tensors_of file direct colors (with_slash idir) (with_slash ldir) (pairs file images idir labels ldir) ts /\
    detect bytes = CompressedFile /\
    forall junk' mmap, exists cs m, compressed_load junk' mmap bytes = Ok (cs, m) /\
      Forall2 (fun t c => exists t', c_decompress c = Ok t' /\ same_tensor_values t t') ts cs.
Proof.
  intros junk file direct colors images idir labels ldir (Hi & Hl & Hc & Hc' & H) Hf. unfold make_compressed_stream, make. rewrite !directory_ok by assumption. cbn [bind].
  assert (Lab : forall i l lab, In (i, l) (used images labels) -> label_for direct colors (file (with_slash ldir ++ l)) lab -> compressible lab).
  { intros i l lab Hin HL. destruct (H i l Hin) as (A & B). destruct (label_image_ok direct colors (file (with_slash ldir ++ l)) lab B Hc Hc' HL) as (X1 & X2 & X3).
    split; [exact X1|]. split; [exact X2|]. split; [exact X3|]. destruct (Hf i l Hin) as (_ & Hb). destruct HL as (((El & _) & L1 & L2 & L3 & L4) & _). rewrite El, L1, L2, L3, L4. lia. }
  assert (Img : forall i l, In (i, l) (used images labels) -> compressible (file (with_slash idir ++ i))).
  { intros i l Hin. destruct (H i l Hin) as ((X1 & X2 & X3) & _). destruct (Hf i l Hin) as (X4 & _). repeat (split; auto). }
  destruct (make_lines_spec junk file (fun t => c <- c_compress t ;; Ok (c_serialize c)) (fun t => c_serialize (compressed_form t)) compressible) with (direct := direct) (colors := colors)
    (idir := with_slash idir) (ldir := with_slash ldir) (images := images) (labels := labels) (out := u64_bytes cts_magic) as (ts & E & Ht); [|exact Hc| |].
  { intros t Ht. destruct (compressible_ctensor t Ht) as (c & _ & Ec & _). unfold compressed_form. now rewrite Ec. }
  { intros i l Hin. apply filter_In in Hin as [Hin _]. split; [now apply (Img i l)|]. split; [apply (H i l Hin)|]. intros lab HL. exact (Lab i l lab Hin HL). }
  fold (pairs file images idir labels ldir) in Ht.
  assert (Hts : Forall compressible ts).
  { assert (Hin : forall p, In p (pairs file images idir labels ldir) -> In p (used images labels)) by (intros p Hp; apply filter_In in Hp; tauto).
    clear E. induction Ht as [|i l lab ps ts HL Ht IH]; [constructor|]. assert (In (i, l) (used images labels)) by (apply Hin; now left).
    constructor; [now apply (Img i l)|]. constructor; [now apply (Lab i l)|]. apply IH. intros p Hp. apply Hin. now right. }
  assert (Es : flat_map (fun t => c_serialize (compressed_form t)) ts = flat_map c_serialize (map compressed_form ts)).
  { clear. induction ts as [|t ts IH]; [reflexivity|]. cbn [flat_map map]. now rewrite IH. }
  rewrite Es in E. eexists _, ts. split; [exact E|]. split; [exact Ht|]. split.
  - unfold detect. change (open_file ?x) with (st x). rewrite is_read_app by reflexivity. reflexivity.
  - intros junk' mmap. eexists _, _. split.
    + rewrite <- (app_nil_r (flat_map c_serialize (map compressed_form ts))). apply compressed_load_ok; [|now left].
      apply Forall_forall. intros c Hcin. apply in_map_iff in Hcin as (t & <- & Hin). rewrite Forall_forall in Hts. destruct (compressible_ctensor t (Hts t Hin)) as (c & t' & Ec & X & _).
      unfold compressed_form. now rewrite Ec.
    + clear E Es Ht. induction Hts as [|t ts Ht _ IH]; constructor; auto.
      destruct (compressible_ctensor t Ht) as (c & t' & Ec & X & X2 & X3 & _). unfold compressed_form. rewrite Ec. eauto.
Qed.

(** A dataset gets the same samples from the file as from the lists themselves: for every tensor index, source sample,
    target and slot, the copy from the file leaves in the target what the copy from the lists leaves there. *)
Theorem C71_same_as_lists : forall junk file colors images idir labels ldir,
  run_ok file false colors images idir labels ldir ->
  exists bytes ts meta n, make_stream junk file false colors (Some images) idir (Some labels) ldir = Ok bytes /\
    (forall junk' mmap, float_load junk' mmap bytes = Ok ts) /\
    load_files file (length colors) (Some images) idir (Some labels) ldir [] = Ok (meta, n) /\
    length ts = n /\ length meta = n /\
    forall junk' source source_sample target slot result,
      (exists ret, list_copy_sample junk' file single_class meta colors source source_sample target slot = Ok (result, ret)) <->
      (exists ret, float_copy_sample ts source source_sample target slot = Ok (result, ret)).
Proof.
  intros junk file colors images idir labels ldir Hr. destruct (C71_stream_file junk file false colors images idir labels ldir Hr) as (bytes & ts & E & Ht & _ & Hload).
  pose proof Hr as (Hi & Hl & Hc & _ & H). unfold load_files. rewrite !directory_ok by assumption. cbn [bind]. rewrite C63_pairs. cbn [app].
  fold (pairs file images idir labels ldir). eexists bytes, ts, _, _. split; [exact E|]. split; [exact Hload|]. split; [reflexivity|].
  assert (Hin : forall p, In p (pairs file images idir labels ldir) -> In p (used images labels)) by (intros p Hp; apply filter_In in Hp; tauto).
  assert (G : length ts = 2 * length (pairs file images idir labels ldir)) by (clear - Ht; induction Ht; cbn; lia).
  split; [exact G|].
  match goal with |- context [flat_map ?f (pairs _ _ _ _ _)] => set (meta := f) end. split; [clear; induction (pairs _ _ _ _ _); cbn; [reflexivity|lia]|].
  intros junk' source. revert source.
  assert (M : forall source, match nth_error (flat_map meta (pairs file images idir labels ldir)) source with
    | None => nth_error ts source = None
    | Some md => exists t, nth_error ts source = Some t /\ (if Nat.odd source then label_of junk' single_class colors (file (md_filename md)) else Ok (file (md_filename md))) = Ok t
    end).
  { clear E Hload G. induction Ht as [|i l lab ps ts HL Ht IH]; intros source.
    - destruct source; reflexivity.
    - destruct (H i l) as (A & B); [apply Hin; now left|]. destruct source as [|[|source]]; cbn [flat_map app meta nth_error fst snd].
      + eexists. split; [reflexivity|]. reflexivity.
      + eexists. split; [reflexivity|]. cbn [Nat.odd Nat.even negb md_filename].
        destruct (made_spec junk' false colors (file (with_slash ldir ++ l)) B Hc) as (lab' & E' & HL'). unfold made_label in E'. rewrite E'. f_equal.
        exact (label_unique false colors _ lab' lab B Hc HL' HL).
      + change (Nat.odd (S (S source))) with (Nat.odd source). apply IH. intros p Hp. apply Hin. now right. }
  intros source source_sample target slot result. specialize (M source). unfold list_copy_sample, float_copy_sample.
  destruct (nth_error (flat_map meta _) source) as [md|].
  - destruct M as (t & -> & Et). rewrite Et. cbn [bind]. destruct (copy_sample f32_zero t source_sample target slot) as [[t' ok]| |]; cbn [bind fst].
    + split; intros [ret Er]; injection Er as -> _; eauto.
    + split; intros [ret Er]; discriminate.
    + split; intros [ret Er]; discriminate.
  - rewrite M. split; intros [ret Er]; injection Er as ->; eauto.
Qed.

(** Finding: asked for direct RGB labels, the tool reads past the end of label images with one channel. *)
Theorem C71_direct_gray_refuted : forall junk file colors i l images idir labels ldir,
  let it := file (with_slash idir ++ i) in let lt := file (with_slash ldir ++ l) in
  idir <> [] -> ldir <> [] -> 5 <= length i -> 5 <= length l -> wf lt -> non_empty lt -> maps lt = 1 -> samples lt = 1 -> width it = width lt -> height it = height lt ->
  make_stream junk file true colors (Some (i :: images)) idir (Some (l :: labels)) ldir = UB.
Proof.
  intros junk file colors i l images idir labels ldir it lt Hi Hl L1 L2 W Hn Hm Hs Ew Eh. unfold make_stream, make. rewrite !directory_ok by assumption. cbn [bind make_lines hd tl].
  rewrite (proj2 (Nat.ltb_ge _ _) L1), (proj2 (Nat.ltb_ge _ _) L2). cbn [orb]. fold it lt. rewrite Ew, Eh, !Nat.eqb_refl. cbn [negb orb].
  enough (direct_label junk lt = UB) as X by (unfold made_label; now rewrite X). unfold direct_label.
  destruct (non_empty_sizes lt W Hn) as (P1 & P2 & P3 & P4).
  set (lab := new_tensor junk 1 (width lt) (height lt) 3).
  destruct (resize_data junk empty_tensor 1 (width lt) (height lt) 3) as (E1 & E2 & E3 & E4 & E5); [nia|].
  fold (new_tensor junk 1 (width lt) (height lt) 3) in E1, E2, E3, E4, E5. fold lab in E1, E2, E3, E4, E5.
  destruct (data lab) as [buf|] eqn:Eb; [|congruence].
  apply (run_stores_ub lab buf _ (offset lab 0 0 1 0) UB Eb); [| |now left].
  - intros b rw Hb. apply in_for in Hb as (y & _ & Hb). apply in_for in Hb as (x & _ & Hb). unfold get, buffer, load in Hb.
    destruct Hb as [Hb|[Hb|[Hb|[]]]]; injection Hb as _ <-; destruct (data lt) as [m|]; cbn [bind]; try discriminate; destruct (nth_error m _); discriminate.
  - apply in_for. exists 0. split; [lia|]. apply in_for. exists 0. split; [lia|]. right. left. f_equal.
    unfold get, buffer. destruct W as [Elt Wlt]. destruct (data lt) as [m|]; [|destruct Wlt; lia]. cbn [bind]. unfold load.
    destruct (nth_error m _) eqn:N; [|reflexivity]. exfalso. assert (offset lt 0 0 1 0 < length m) by (apply nth_error_Some; congruence). unfold offset in *.
    destruct Wlt as [Wlt _]. rewrite Elt in Wlt. nia.
Qed.

(** Two pairs of lines, of which one has files of different sizes: the file holds one image and its label. *)
Definition ex_file (n : name) : tensor f32 :=
  match n with
  | 97 :: _ => mkTensor 1 2 1 1 2 (Some [5; 6]%Z)
  | _ => match nth 4 n 0 with
         | 1 => mkTensor 1 2 1 3 6 (Some [1065353216; 0; 0; 1065353216; 0; 0]%Z)
         | _ => mkTensor 1 1 1 3 3 (Some [0; 0; 0]%Z)
         end
  end.
Definition ex_images : list name := [[1; 2; 3; 4; 5]; [1; 2; 3; 4; 6]; [7]].
Definition ex_labels : list name := [[9; 9; 2; 9; 9]; [9; 9; 1; 9; 9]; [7]].
Example C71_witness : run_ok ex_file false [16711680; 65280]%Z ex_images [97] ex_labels [98] /\
  pairs ex_file ex_images [97] ex_labels [98] = [([1; 2; 3; 4; 6], [9; 9; 1; 9; 9])] /\
  exists bytes, make_stream (fun _ => 77%Z) ex_file false [16711680; 65280]%Z (Some ex_images) [97] (Some ex_labels) [98] = Ok bytes /\
    float_load (fun _ => 77%Z) false bytes = Ok [mkTensor 1 2 1 1 2 (Some [5; 6]%Z); mkTensor 1 2 1 2 4 (Some [f32_one; 0; 0; f32_one]%Z)].
Proof.
  split; [|split; [reflexivity|eexists; split; vm_compute; reflexivity]].
  split; [discriminate|]. split; [discriminate|]. split; [cbn; lia|]. split; [cbn; lia|].
  intros i l Hin. cbn in Hin. destruct Hin as [E|[E|[]]]; injection E as <- <-; unfold image_ok, label_ok, image_ok, f32_tensor, wf, sizes_fit, non_empty; cbn;
    (repeat split; try lia; try discriminate; try (repeat (constructor; [split; [discriminate|reflexivity]|]); constructor); auto).
Qed.

Print Assumptions C71_stream_file.
Print Assumptions C71_compressed_file.
Print Assumptions C71_same_as_lists.
Print Assumptions C71_direct_gray_refuted.

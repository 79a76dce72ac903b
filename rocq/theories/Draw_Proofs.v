(** Proofs about [Draw_Model]. *)
From Coq Require Import String Ascii Decimal DecimalString DecimalNat.
From Verif Require Import Base BaseFacts Graph_Model Draw_Model Draw_Spec.
Local Open Scope list_scope.

Notation nl := (ascii_of_nat 10).

Lemma chars_app (a b : string) : #(a ++ b) = #a ++ #b.
Proof. induction a as [|c a IH]; cbn; [reflexivity|]. now rewrite IH. Qed.

Lemma str_app_assoc (a b c : string) : ((a ++ b) ++ c = a ++ (b ++ c))%string.
Proof. induction a as [|x a IH]; cbn; [reflexivity|]. now rewrite IH. Qed.
Lemma str_app_nil (a : string) : (a ++ "" = a)%string.
Proof. induction a as [|x a IH]; cbn; [reflexivity|]. now rewrite IH. Qed.

Lemma lines_line l r : ~ In nl l -> lines (l ++ nl :: r) = l :: lines r.
Proof.
  induction l as [|c l IH]; intros H; [reflexivity|]. cbn [app lines].
  destruct (Ascii.eqb_spec c nl) as [->|]; [exfalso; apply H; now left|]. rewrite IH; [reflexivity|]. intros Hin. apply H. now right.
Qed.

Lemma lines_all ls r : Forall (fun l => ~ In nl l) ls -> lines (flat_map (fun l => l ++ [nl]) ls ++ r) = ls ++ lines r.
Proof.
  induction 1 as [|l ls H _ IH]; [reflexivity|]. cbn [flat_map app]. rewrite <- !app_assoc. cbn [app]. rewrite lines_line by exact H. now rewrite IH.
Qed.

Lemma until_app c a b : ~ In c a -> until c (a ++ c :: b) = Some (a, b).
Proof.
  induction a as [|d a IH]; intros H; cbn [app until]; [now rewrite Ascii.eqb_refl|].
  destruct (Ascii.eqb_spec d c) as [->|]; [exfalso; apply H; now left|]. rewrite IH; [reflexivity|]. intros Hin. apply H. now right.
Qed.

Lemma strip_app p t : strip p (p ++ t) = Some t.
Proof. induction p as [|c p IH]; [reflexivity|]. cbn [app strip]. now rewrite Ascii.eqb_refl. Qed.

Lemma strip_some p t r : strip p t = Some r -> t = p ++ r.
Proof.
  revert t. induction p as [|c p IH]; intros t H; [injection H as ->; reflexivity|]. destruct t as [|d t]; [discriminate|]. cbn [strip] in H.
  destruct (Ascii.eqb_spec c d) as [<-|]; [|discriminate]. cbn. f_equal. auto.
Qed.

Lemma collect_app {A B} (f : A -> option B) a b : collect f (a ++ b) = collect f a ++ collect f b.
Proof. induction a as [|x a IH]; [reflexivity|]. cbn [app collect]. destruct (f x); cbn; now rewrite IH. Qed.

Lemma collect_some {A B C} (f : B -> option C) (g : A -> B) (k : A -> C) l : (forall x, In x l -> f (g x) = Some (k x)) -> collect f (map g l) = map k l.
Proof. induction l as [|x l IH]; intros H; [reflexivity|]. cbn [map collect]. rewrite H by now left. rewrite IH; auto. intros; apply H; now right. Qed.

Lemma collect_none {A B} (f : A -> option B) l : (forall x, In x l -> f x = None) -> collect f l = [].
Proof. induction l as [|x l IH]; intros H; [reflexivity|]. cbn [collect]. rewrite H by now left. apply IH. intros; apply H; now right. Qed.

Lemma chars_eqb_refl a : chars_eqb a a = true.
Proof. unfold chars_eqb. destruct (list_eq_dec ascii_dec a a); congruence. Qed.

Lemma number_plain c n : In c #(number_text n) -> In c #"0123456789".
Proof.
  unfold number_text. induction (Nat.to_uint n); cbn; intros H; [contradiction| | | | | | | | | |];
    destruct H as [<-|H]; try (specialize (IHu H); cbn in IHu; exact IHu); cbn; auto 15.
Qed.

Lemma number_no c n : ~ In c #"0123456789" -> ~ In c #(number_text n).
Proof. intros H Hin. apply H. eapply number_plain. exact Hin. Qed.

Lemma number_read n : NilEmpty.uint_of_string (string_of_list_ascii #(number_text n)) = Some (Nat.to_uint n).
Proof. rewrite string_of_list_ascii_of_string. apply NilEmpty.usu. Qed.

(** ** Node lines *)
Definition node_line (name : chars) (red blue : bool) (label : chars) : chars :=
  name ++ " "%char :: #"[shape=record," ++ (if red then #"color=red," else []) ++ (if blue then #"color=blue," else []) ++ #" label=" ++ ascii_of_nat 34 :: label ++ ascii_of_nat 34 :: #"];".

Notation header := (#"digraph G {graph [ranksep=.75, esep=1];").

Lemma read_rest name red blue label : ~ In " "%char name ->
  (get (name, r) <- until " "%char (node_line name red blue label) ;;
   get r <- strip #"[shape=record," r ;;
   let '(red, r) := strip_if #"color=red," r in
   let '(blue, r) := strip_if #"color=blue," r in
   get r <- strip #" label=" r ;;
   get r <- strip [ascii_of_nat 34] r ;;
   let n := length r - 3 in
   if chars_eqb (skipn n r) (ascii_of_nat 34 :: #"];") then Some (name, red, blue, firstn n r) else None) = Some (name, red, blue, label).
Proof.
  intros H. unfold node_line. rewrite until_app by exact H. rewrite strip_app.
  assert (E : length (label ++ ascii_of_nat 34 :: #"];") - 3 = length label) by (rewrite app_length; cbn [length list_ascii_of_string]; lia).
  assert (F : forall r, r = label ++ ascii_of_nat 34 :: #"];" ->
    (let n := length r - 3 in if chars_eqb (skipn n r) (ascii_of_nat 34 :: #"];") then Some (name, red, blue, firstn n r) else None) = Some (name, red, blue, label)).
  { intros r ->. cbv zeta. rewrite E. rewrite skipn_app, skipn_all, Nat.sub_diag. cbn [skipn app]. rewrite chars_eqb_refl.
    rewrite firstn_app, firstn_all, Nat.sub_diag, firstn_O, app_nil_r. reflexivity. }
  set (tail := label ++ ascii_of_nat 34 :: #"];") in *. clearbody tail.
  destruct red, blue; unfold strip_if.
  - rewrite !strip_app. change (ascii_of_nat 34 :: tail) with ([ascii_of_nat 34] ++ tail). rewrite strip_app. now apply F.
  - rewrite !strip_app. cbn [app]. change (strip #"color=blue," (#" label=" ++ ascii_of_nat 34 :: tail)) with (@None chars). cbn iota beta.
    rewrite strip_app. change (ascii_of_nat 34 :: tail) with ([ascii_of_nat 34] ++ tail). rewrite strip_app. now apply F.
  - cbn [app]. change (strip #"color=red," (#"color=blue," ++ #" label=" ++ ascii_of_nat 34 :: tail)) with (@None chars). cbn iota beta.
    rewrite !strip_app. change (ascii_of_nat 34 :: tail) with ([ascii_of_nat 34] ++ tail). rewrite strip_app. now apply F.
  - cbn [app]. change (strip #"color=red," (#" label=" ++ ascii_of_nat 34 :: tail)) with (@None chars). cbn iota beta.
    change (strip #"color=blue," (#" label=" ++ ascii_of_nat 34 :: tail)) with (@None chars). cbn iota beta.
    rewrite !strip_app. change (ascii_of_nat 34 :: tail) with ([ascii_of_nat 34] ++ tail). rewrite strip_app. now apply F.
Qed.

Lemma header_none name r : ~ In " "%char name -> hd_error r <> Some "G"%char -> strip header (name ++ " "%char :: r) = None.
Proof.
  intros H N. destruct (strip header (name ++ " "%char :: r)) as [x|] eqn:E; [|reflexivity]. exfalso. apply strip_some in E.
  assert (U : until " "%char (name ++ " "%char :: r) = Some (#"digraph", #"G {graph [ranksep=.75, esep=1];" ++ x)) by (rewrite E; reflexivity).
  rewrite until_app in U by exact H. injection U as _ ->. apply N. reflexivity.
Qed.

Lemma read_node_line name red blue label : ~ In " "%char name -> read_node (node_line name red blue label) = Some (name, red, blue, label).
Proof.
  intros H. unfold read_node, strip_if at 1. unfold node_line at 1. rewrite header_none; [|exact H|discriminate]. cbn [snd]. now apply read_rest.
Qed.
Lemma read_first_line name red blue label : ~ In " "%char name -> read_node (header ++ node_line name red blue label) = Some (name, red, blue, label).
Proof. intros H. unfold read_node, strip_if at 1. rewrite strip_app. cbn [snd]. now apply read_rest. Qed.

(** ** Edge lines *)
Definition edge_line (source : chars) (buffer : nat) (target : chars) (solid : bool) : chars :=
  source ++ ":"%char :: #"o" ++ #(number_text buffer) ++ " "%char :: #"-> " ++ target ++ ":"%char :: #"i[penwidth=2" ++ (if solid then [] else #",style=dotted") ++ #"];".

Lemma read_edge_line source buffer target solid : ~ In ":"%char source -> ~ In ":"%char target ->
  read_edge (edge_line source buffer target solid) = Some (source, buffer, target, solid).
Proof.
  intros Hs Ht. unfold read_edge, edge_line. rewrite until_app by exact Hs. rewrite strip_app.
  rewrite until_app by (apply number_no; cbn; intuition discriminate). rewrite number_read. rewrite strip_app. rewrite until_app by exact Ht. rewrite strip_app.
  rewrite DecimalNat.Unsigned.of_to. destruct solid; reflexivity.
Qed.

Lemma edge_no_node source buffer target solid : ~ In " "%char source -> read_node (edge_line source buffer target solid) = None.
Proof.
  intros H. unfold read_node, edge_line.
  replace (source ++ ":"%char :: #"o" ++ #(number_text buffer) ++ " "%char :: #"-> " ++ target ++ ":"%char :: #"i[penwidth=2" ++ (if solid then [] else #",style=dotted") ++ #"];")
    with ((source ++ ":"%char :: #"o" ++ #(number_text buffer)) ++ " "%char :: #"-> " ++ target ++ ":"%char :: #"i[penwidth=2" ++ (if solid then [] else #",style=dotted") ++ #"];")
    by (rewrite <- app_assoc; cbn [app]; rewrite <- app_assoc; reflexivity).
  assert (N : ~ In " "%char (source ++ ":"%char :: #"o" ++ #(number_text buffer))).
  { intros Hin. apply in_app_or in Hin as [Hin|[Hin|[Hin|Hin]]]; [auto|discriminate|discriminate|]. revert Hin. apply number_no. cbn. intuition discriminate. }
  unfold strip_if at 1. rewrite header_none; [|exact N|discriminate]. cbn [snd]. rewrite until_app by exact N. reflexivity.
Qed.

Lemma node_no_edge pre name red blue rest : ~ In ":"%char pre -> ~ In ":"%char name ->
  read_edge (pre ++ node_line name red blue (#"{ <i> " ++ name ++ ":"%char :: " "%char :: rest)) = None.
Proof.
  intros Hp H. unfold read_edge, node_line.
  set (a := pre ++ name ++ " "%char :: #"[shape=record," ++ (if red then #"color=red," else []) ++ (if blue then #"color=blue," else []) ++ #" label=" ++ ascii_of_nat 34 :: #"{ <i> " ++ name).
  assert (E : pre ++ name ++ " "%char :: #"[shape=record," ++ (if red then #"color=red," else []) ++ (if blue then #"color=blue," else []) ++ #" label=" ++
    ascii_of_nat 34 :: (#"{ <i> " ++ name ++ ":"%char :: " "%char :: rest) ++ ascii_of_nat 34 :: #"];" = a ++ ":"%char :: " "%char :: rest ++ ascii_of_nat 34 :: #"];").
  { unfold a. rewrite <- !app_assoc. cbn [app]. rewrite <- !app_assoc. cbn [app]. now rewrite <- !app_assoc. }
  rewrite E. rewrite until_app; [reflexivity|]. unfold a. rewrite !in_app_iff. cbn [In]. rewrite !in_app_iff. cbn [In]. rewrite !in_app_iff.
  intros Hin. destruct red, blue; cbn in Hin; intuition discriminate.
Qed.

(** ** Whole files *)
Fixpoint join (l : list string) : string := match l with [] => "" | x :: l' => ("|" ++ x ++ join l')%string end.

Lemma concat_join x l : String.concat "|" (x :: l) = (x ++ join l)%string.
Proof.
  revert x. induction l as [|y l IH]; intros x; [cbn; now rewrite str_app_nil|].
  change (String.concat "|" (x :: y :: l)) with (x ++ "|" ++ String.concat "|" (y :: l))%string. now rewrite IH.
Qed.

Lemma fold_join (item : nat -> string) : forall k a acc,
  fold_left (fun out i => (out ++ (if (0 <? i)%nat then "|" else "") ++ item i)%string) (seq (S a) k) acc = (acc ++ join (map item (seq (S a) k)))%string.
Proof.
  induction k as [|k IH]; intros a acc; [cbn; now rewrite str_app_nil|]. cbn [seq fold_left map join Nat.ltb Nat.leb]. rewrite IH. now rewrite !str_app_assoc.
Qed.

Lemma combine_seq {A} (f : nat -> A) k : forall a, combine (seq a k) (map f (seq a k)) = map (fun i => (i, f i)) (seq a k).
Proof. induction k as [|k IH]; intros a; [reflexivity|]. cbn [seq map combine]. now rewrite IH. Qed.

Section Draw.
Variable layer_text : nat -> string.
Variable buffer_text : nat -> nat -> string.
Variable buffer_shape : nat -> nat -> nat * nat * nat * nat.

Definition buffers_of (p : nat) (n : node) : list (string * (nat * nat * nat * nat)) := map (fun i => (buffer_text p i, buffer_shape p i)) (seq 0 (n_buffers n)).

Lemma ports_label p n : label_of (n_name n) (layer_text p) (buffers_of p n) =
  ("{ <i> " ++ n_name n ++ ": " ++ layer_text p ++ ports buffer_text buffer_shape p n ++ "}")%string.
Proof.
  unfold label_of, ports, buffers_of. do 5 f_equal.
  destruct (n_buffers n) as [|[|k]].
  - reflexivity.
  - cbn [Nat.ltb Nat.leb Nat.eqb seq map]. unfold buffer_entry, shape_text, number_text. destruct (buffer_shape p 0) as [[[s w] h] m]. reflexivity.
  - change (1 <? S (S k))%nat with true. cbn iota. rewrite map_length, seq_length, combine_seq.
    change (seq 0 (S (S k))) with (0 :: seq 1 (S k)). cbn [map fold_left].
    assert (E : forall i, ("<o" ++ NilEmpty.string_of_uint (Nat.to_uint i) ++ ">" ++
        (let '(d, (s, w, h, m)) := (buffer_text p i, buffer_shape p i) in
         d ++ " (" ++ NilEmpty.string_of_uint (Nat.to_uint s) ++ "s@" ++ NilEmpty.string_of_uint (Nat.to_uint w) ++ "x" ++ NilEmpty.string_of_uint (Nat.to_uint h) ++ "x" ++ NilEmpty.string_of_uint (Nat.to_uint m) ++ "m)"))%string
      = ("<o" ++ number_text i ++ ">" ++ buffer_entry buffer_text buffer_shape p i)%string).
    { intros i. unfold buffer_entry, shape_text, number_text. destruct (buffer_shape p i) as [[[s w] h] m]. reflexivity. }
    rewrite concat_join. rewrite map_map. rewrite (map_ext _ (fun i => ("<o" ++ number_text i ++ ">" ++ buffer_entry buffer_text buffer_shape p i)%string)).
    + cbn [Nat.ltb Nat.leb].
      rewrite (fold_join (fun i => ("<o" ++ number_text i ++ ">" ++ buffer_entry buffer_text buffer_shape p i)%string) (S k) 0).
      exact (f_equal (fun x => ("| {" ++ (x ++ join (map (fun i => ("<o" ++ number_text i ++ ">" ++ buffer_entry buffer_text buffer_shape p i)%string) (seq 1 (S k)))) ++ "}")%string) (E 0)).
    + intros i. apply E.
Qed.

Lemma node_text_line p n : #(node_text layer_text buffer_text buffer_shape p n) =
  node_line #(n_name n) (n_is_input n) (n_is_output n) #(label_of (n_name n) (layer_text p) (buffers_of p n)) ++ [nl].
Proof.
  rewrite ports_label. unfold node_text, node_line, newline, quote. rewrite !chars_app.
  destruct (n_is_input n), (n_is_output n); cbn [list_ascii_of_string app]; rewrite <- !app_assoc; cbn [app]; rewrite <- !app_assoc; cbn [app]; rewrite <- ?app_assoc; reflexivity.
Qed.

Definition edge_of (h : list node) (n : node) (c : connection) : string :=
  match edge_text h n c with Ok s => s | _ => ""%string end.
Fixpoint cat (l : list string) : string := match l with [] => ""%string | x :: l' => (x ++ cat l')%string end.

Lemma edges_fold h n : forall cs out e, foldm (fun out c => e <- edge_text h n c ;; Ok (out ++ e)%string) cs out = Ok e ->
  (forall c, In c cs -> exists q m, c_node c = Some q /\ nth_error h q = Some m) /\ e = (out ++ cat (map (edge_of h n) cs))%string.
Proof.
  induction cs as [|c cs IH]; intros out e E; cbn [foldm] in E.
  - injection E as <-. split; [intros c []|]. cbn. now rewrite str_app_nil.
  - destruct (edge_text h n c) as [s| |] eqn:Ec; cbn [bind] in E; try discriminate. destruct (IH _ _ E) as (A & ->). split.
    + intros c' [<-|Hin]; [|auto]. unfold edge_text in Ec. destruct (c_node c) as [q|]; [|discriminate]. unfold load in Ec. destruct (nth_error h q) as [m|] eqn:Em; [exists q, m; auto|discriminate].
    + cbn [map cat]. replace (edge_of h n c) with s by (unfold edge_of; now rewrite Ec). now rewrite str_app_assoc.
Qed.

Definition drawable (h : list node) (p : nat) : Prop := exists n, nth_error h p = Some n /\ n_layer n <> None /\
  forall c, In c (n_inputs n) -> exists q m, c_node c = Some q /\ nth_error h q = Some m.
Definition the (h : list node) (p : nat) : node := nth p h (mkNode None [] [] 0 "" false false).

Lemma nodes_fold h : forall ps st st', foldm (print_node layer_text buffer_text buffer_shape h) ps st = Ok st' ->
  Forall (drawable h) ps /\
  fst st' = (fst st ++ cat (map (fun p => node_text layer_text buffer_text buffer_shape p (the h p)) ps))%string /\
  snd st' = (snd st ++ cat (map (fun p => cat (map (edge_of h (the h p)) (n_inputs (the h p)))) ps))%string.
Proof.
  induction ps as [|p ps IH]; intros st st' E; cbn [foldm] in E.
  - injection E as <-. cbn. rewrite !str_app_nil. auto.
  - destruct (print_node layer_text buffer_text buffer_shape h st p) as [s1| |] eqn:Ep; cbn [bind] in E; try discriminate.
    destruct (IH _ _ E) as (F & A & B). unfold print_node, load in Ep. destruct (nth_error h p) as [n|] eqn:En; cbn [bind] in Ep; [|discriminate].
    destruct (n_layer n) eqn:El; [|discriminate].
    destruct (foldm (fun out c => e <- edge_text h n c ;; Ok (out ++ e)%string) (n_inputs n) (snd st)) as [e| |] eqn:Ee; cbn [bind] in Ep; try discriminate.
    injection Ep as <-. destruct (edges_fold h n _ _ _ Ee) as (C & ->). cbn [fst snd] in *.
    assert (T : the h p = n) by (unfold the; now apply nth_error_nth).
    split; [constructor; [exists n; repeat split; auto; congruence|exact F]|]. cbn [map cat]. rewrite T, A, B, !str_app_assoc. auto.
Qed.

Lemma nodes_fold_ok h : forall ps st, Forall (drawable h) ps -> exists st', foldm (print_node layer_text buffer_text buffer_shape h) ps st = Ok st'.
Proof.
  induction ps as [|p ps IH]; intros st F; cbn [foldm]; [eauto|]. inversion F as [|? ? (n & En & El & C) F2]; subst.
  unfold print_node at 1, load. rewrite En. cbn [bind]. destruct (n_layer n); [|congruence].
  assert (Ee : exists e, foldm (fun out c => e <- edge_text h n c ;; Ok (out ++ e)%string) (n_inputs n) (snd st) = Ok e).
  { clear - C. generalize (snd st). induction (n_inputs n) as [|c cs IH]; intros out; cbn [foldm]; [eauto|].
    destruct (C c (or_introl eq_refl)) as (q & m & E1 & E2). unfold edge_text at 1, load. rewrite E1, E2. cbn [bind]. apply IH. intros; apply C; now right. }
  destruct Ee as (e & ->). cbn [bind]. apply IH. exact F2.
Qed.
End Draw.

Lemma one_line_app a b : one_line a -> one_line b -> one_line (a ++ b)%string.
Proof. unfold one_line. intros Ha Hb. rewrite chars_app. intros H. apply in_app_or in H as [H|H]; auto. Qed.
Lemma one_line_number n : one_line (number_text n).
Proof. unfold one_line. apply number_no. cbn. intuition discriminate. Qed.
Lemma one_line_concat l : Forall one_line l -> one_line (String.concat "|" l).
Proof.
  induction 1 as [|x l Hx Hl IH]; [intros []|]. destruct l as [|y l]; [exact Hx|].
  change (String.concat "|" (x :: y :: l)) with (x ++ "|" ++ String.concat "|" (y :: l))%string.
  apply one_line_app; [exact Hx|]. apply one_line_app; [cbv; intuition discriminate|exact IH].
Qed.

Lemma one_line_label name layer bufs : one_line name -> one_line layer -> Forall (fun b => one_line (fst b)) bufs -> one_line (label_of name layer bufs).
Proof.
  intros Hn Hl Hb. unfold label_of. fold number_text.
  assert (L : forall s, In s ["{ <i> "; ": "; " ("; "s@"; "x"; "m)"; "<o"; ">"; "| <o0> "; "| {"; "}"; ""]%string -> one_line s).
  { intros s H. cbn in H. repeat (destruct H as [<-|H]; [cbv; intuition discriminate|]). contradiction. }
  assert (N := one_line_number). unfold number_text in N.
  assert (E : forall b, one_line (fst b) -> one_line (let '(d, (s, w, h, m)) := b in
    (d ++ " (" ++ NilEmpty.string_of_uint (Nat.to_uint s) ++ "s@" ++ NilEmpty.string_of_uint (Nat.to_uint w) ++ "x" ++ NilEmpty.string_of_uint (Nat.to_uint h) ++ "x" ++ NilEmpty.string_of_uint (Nat.to_uint m) ++ "m)")%string)).
  { intros [d [[[s w] h] m]] Hd. cbn [fst] in Hd. repeat (apply one_line_app; auto); apply L; cbn; auto 15. }
  repeat (apply one_line_app; [solve [auto | apply L; cbn; auto 15]|]). apply one_line_app; [|apply L; cbn; auto 15].
  destruct bufs as [|b [|b2 bs]].
  - apply L. cbn. auto 15.
  - apply one_line_app; [apply L; cbn; auto 15|]. apply E. now inversion Hb.
  - apply one_line_app; [apply L; cbn; auto 15|]. apply one_line_app; [|apply L; cbn; auto 15]. apply one_line_concat. apply Forall_forall. intros x Hx.
    apply in_map_iff in Hx as ([i b'] & <- & Hin). apply in_combine_r in Hin. rewrite Forall_forall in Hb.
    repeat (apply one_line_app; auto); try (apply L; cbn; auto 15).
Qed.

Section Draw.
Variable layer_text : nat -> string.
Variable buffer_text : nat -> nat -> string.
Variable buffer_shape : nat -> nat -> nat * nat * nat * nat.
Hypothesis layer_lines : forall p, one_line (layer_text p).
Hypothesis buffer_lines : forall p i, one_line (buffer_text p i).

Let NL h p := node_line #(n_name (the h p)) (n_is_input (the h p)) (n_is_output (the h p)) #(label_of (n_name (the h p)) (layer_text p) (buffers_of buffer_text buffer_shape p (the h p))).
Let EL (e : chars * nat * chars * bool) := let '(s, b, t, solid) := e in edge_line s b t solid.

Lemma node_texts h ps : #(cat (map (fun p => node_text layer_text buffer_text buffer_shape p (the h p)) ps)) = flat_map (fun l => l ++ [nl]) (map (NL h) ps).
Proof. induction ps as [|p ps IH]; [reflexivity|]. cbn [map cat flat_map]. rewrite chars_app, IH, node_text_line. reflexivity. Qed.

Lemma edge_texts h n cs : nth_error h n <> None -> (forall c, In c cs -> exists q m, c_node c = Some q /\ nth_error h q = Some m) ->
  #(cat (map (edge_of h (the h n)) cs)) = flat_map (fun l => l ++ [nl]) (map EL (flat_map (fun c => match c_node c with
        | Some q => match nth_error h q with Some m => [(#(n_name m), c_buffer c, #(n_name (the h n)), c_backprop c)] | None => [] end
        | None => [] end) cs)).
Proof.
  intros Hn. induction cs as [|c cs IH]; intros H; [reflexivity|]. cbn [map cat flat_map]. rewrite chars_app, map_app, flat_map_app, IH by (intros; apply H; now right).
  f_equal. destruct (H c (or_introl eq_refl)) as (q & m & E1 & E2). unfold edge_of, edge_text, load. rewrite E1, E2. cbn [bind map flat_map EL]. rewrite app_nil_r.
  unfold edge_line, newline. rewrite !chars_app. destruct (c_backprop c); cbn [list_ascii_of_string app]; rewrite <- !app_assoc; cbn [app]; rewrite <- ?app_assoc; cbn [app]; rewrite <- ?app_assoc; reflexivity.
Qed.

Lemma all_edges h ps : Forall (drawable h) ps ->
  #(cat (map (fun p => cat (map (edge_of h (the h p)) (n_inputs (the h p)))) ps)) = flat_map (fun l => l ++ [nl]) (map EL (connections_of h ps)).
Proof.
  induction 1 as [|p ps (n & En & _ & C) _ IH]; [reflexivity|]. unfold connections_of. cbn [map cat flat_map]. fold (connections_of h ps). rewrite chars_app, map_app, flat_map_app, IH. f_equal.
  assert (T : the h p = n) by (unfold the; now apply nth_error_nth). rewrite En, <- T. apply edge_texts; [congruence|]. now rewrite T.
Qed.

Lemma connections_names h ps s b t solid : Forall (fun n => plain_name (n_name n)) h -> In (s, b, t, solid) (connections_of h ps) ->
  (exists n, In n h /\ s = #(n_name n)) /\ (exists n, In n h /\ t = #(n_name n)).
Proof.
  intros _ H. apply in_flat_map in H as (p & _ & H). destruct (nth_error h p) as [n|] eqn:En; [|contradiction].
  apply in_flat_map in H as (c & _ & H). destruct (c_node c) as [q|]; [|contradiction]. destruct (nth_error h q) as [m|] eqn:Em; [|contradiction].
  destruct H as [H|[]]. injection H as <- _ <- _. split; eauto using nth_error_In.
Qed.

Lemma file_tells g file : graph_file layer_text buffer_text buffer_shape g = Ok file -> Forall (fun n => plain_name (n_name n)) (heap g) ->
  read_nodes file = nodes_of layer_text buffer_text buffer_shape (heap g) (nodes g) /\ read_edges file = connections_of (heap g) (nodes g).
Proof.
  intros E P. unfold graph_file, print_graph in E. destruct (nodes g) as [|p0 ps] eqn:Eps.
  { cbn [bind] in E. injection E as <-. split; reflexivity. }
  destruct (foldm (print_node layer_text buffer_text buffer_shape (heap g)) (p0 :: ps) ("graph [ranksep=.75, esep=1];"%string, ""%string)) as [st'| |] eqn:Ef; cbn [bind] in E; try discriminate.
  destruct (nodes_fold _ _ _ _ _ _ _ Ef) as (D & A & B). cbn [fst snd] in A, B.
  assert (C : #file = flat_map (fun l => l ++ [nl]) ((header ++ NL (heap g) p0) :: map (NL (heap g)) ps ++ map EL (connections_of (heap g) (p0 :: ps))) ++ ["}"%char]).
  { assert (F : ("digraph G {" ++ (fst st' ++ snd st') ++ "}")%string = file) by exact (f_equal (fun r => match r with Ok x => x | _ => file end) E). rewrite <- F, A, B. rewrite !chars_app. rewrite node_texts, all_edges by exact D. cbn [map flat_map]. rewrite flat_map_app.
    change (#"") with (@nil ascii). cbn [app]. change header with (#"digraph G {" ++ #"graph [ranksep=.75, esep=1];"). rewrite <- !app_assoc. reflexivity. }
  clear E A B Ef. set (h := heap g) in *. clearbody h.
  assert (Pn : forall p, In p (p0 :: ps) -> plain_name (n_name (the h p)) /\ nth_error h p = Some (the h p)).
  { intros p Hp. rewrite Forall_forall in D, P. destruct (D p Hp) as (n & En & _). assert (T : the h p = n) by (unfold the; now apply nth_error_nth).
    rewrite T. split; [apply P; eapply nth_error_In; exact En|exact En]. }
  assert (NNL : forall p, In p (p0 :: ps) -> ~ In nl (NL h p)).
  { intros p Hp. destruct (Pn p Hp) as ((P1 & P2 & P3) & _).
    assert (L : one_line (label_of (n_name (the h p)) (layer_text p) (buffers_of buffer_text buffer_shape p (the h p)))).
    { apply one_line_label; [exact P3|apply layer_lines|]. apply Forall_forall. intros b Hb. apply in_map_iff in Hb as (i & <- & _). apply buffer_lines. }
    unfold NL, node_line. unfold one_line in L. revert L P3. generalize #(n_name (the h p)), #(label_of (n_name (the h p)) (layer_text p) (buffers_of buffer_text buffer_shape p (the h p))).
    intros nm lab L P3 Hin. rewrite !in_app_iff in Hin. cbn [In] in Hin. rewrite !in_app_iff in Hin. cbn [In] in Hin. rewrite !in_app_iff in Hin.
    destruct (n_is_input (the h p)), (n_is_output (the h p)); cbn in Hin, L, P3; intuition discriminate. }
  assert (NEL : forall e, In e (connections_of h (p0 :: ps)) -> ~ In nl (EL e)).
  { intros [[[s b] t] solid] He. destruct (connections_names h _ _ _ _ _ P He) as ((n1 & I1 & ->) & (n2 & I2 & ->)). rewrite Forall_forall in P.
    destruct (P n1 I1) as (_ & _ & Q1). destruct (P n2 I2) as (_ & _ & Q2). unfold EL, edge_line.
    pose proof (one_line_number b) as Q3. unfold one_line in Q3. revert Q1 Q2 Q3. generalize #(n_name n1), #(n_name n2), #(number_text b). intros x y z Q1 Q2 Q3 Hin.
    rewrite !in_app_iff in Hin. cbn [In] in Hin. rewrite !in_app_iff in Hin. cbn [In] in Hin. rewrite !in_app_iff in Hin. cbn [In] in Hin. rewrite !in_app_iff in Hin.
    destruct solid; cbn in Hin, Q1, Q2, Q3; intuition discriminate. }
  assert (Ls : lines #file = ((header ++ NL h p0) :: map (NL h) ps ++ map EL (connections_of h (p0 :: ps))) ++ [["}"%char]]).
  { rewrite C. rewrite lines_all; [reflexivity|]. constructor; [|apply Forall_app; split].
    - intros Hin. apply in_app_or in Hin as [Hin|Hin]; [cbn in Hin; intuition discriminate|]. revert Hin. apply NNL. now left.
    - apply Forall_forall. intros l Hl. apply in_map_iff in Hl as (p & <- & Hp). apply NNL. now right.
    - apply Forall_forall. intros l Hl. apply in_map_iff in Hl as (e & <- & He). now apply NEL. }
  assert (Nd : nodes_of layer_text buffer_text buffer_shape h (p0 :: ps) = map (fun p => (#(n_name (the h p)), n_is_input (the h p), n_is_output (the h p),
     #(label_of (n_name (the h p)) (layer_text p) (buffers_of buffer_text buffer_shape p (the h p))))) (p0 :: ps)).
  { clear - Pn. unfold nodes_of. induction (p0 :: ps) as [|p l IH]; [reflexivity|]. cbn [flat_map map]. destruct (Pn p (or_introl eq_refl)) as (_ & En). rewrite En at 1.
    rewrite IH by (intros; apply Pn; now right). reflexivity. }
  split.
  - unfold read_nodes. rewrite Ls, Nd. cbn [app collect map]. unfold NL at 1. rewrite read_first_line by (apply (Pn p0); now left). f_equal.
    rewrite <- app_assoc, collect_app, (collect_some _ _ (fun p => (#(n_name (the h p)), n_is_input (the h p), n_is_output (the h p),
      #(label_of (n_name (the h p)) (layer_text p) (buffers_of buffer_text buffer_shape p (the h p)))))).
    + rewrite collect_app, collect_none; [|intros l Hl; apply in_map_iff in Hl as ([[[s b] t] solid] & <- & He)].
      * change (collect read_node [["}"%char]]) with (@nil (chars * bool * bool * chars)). now rewrite !app_nil_r.
      * destruct (connections_names h _ _ _ _ _ P He) as ((n1 & I1 & ->) & _). rewrite Forall_forall in P. apply edge_no_node. now destruct (P n1 I1).
    + intros p Hp. unfold NL. apply read_node_line. apply (Pn p). now right.
  - assert (NE : forall pre p, ~ In ":"%char pre -> In p (p0 :: ps) -> read_edge (pre ++ NL h p) = None).
    { intros pre p Hpre Hp. destruct (Pn p Hp) as ((_ & P2 & _) & _). unfold NL, label_of. rewrite !chars_app.
      change (#": " ++ ?x) with (":"%char :: " "%char :: x). now apply node_no_edge. }
    unfold read_edges. rewrite Ls. cbn [app collect]. rewrite NE; [|cbn; intuition discriminate|now left].
    rewrite <- app_assoc, collect_app, collect_none; [|intros l Hl; apply in_map_iff in Hl as (p & <- & Hp); apply (NE [] p); [intros []|now right]].
    cbn [app]. rewrite collect_app. rewrite (collect_some _ _ (fun e => e)).
    + rewrite map_id. change (collect read_edge [["}"%char]]) with (@nil (chars * nat * chars * bool)). now rewrite app_nil_r.
    + intros [[[s b] t] solid] He. destruct (connections_names h _ _ _ _ _ P He) as ((n1 & I1 & ->) & (n2 & I2 & ->)). rewrite Forall_forall in P.
      unfold EL. apply read_edge_line; [now destruct (P n1 I1) as (_ & ? & _)|now destruct (P n2 I2) as (_ & ? & _)].
Qed.
End Draw.

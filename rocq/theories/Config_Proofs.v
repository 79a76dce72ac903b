From Coq Require Import Ascii String List.
From Verif Require Import Base Str_Model Str_Proofs Config_Model Config_Spec.
Local Open Scope string_scope.
Local Open Scope list_scope.
Local Open Scope nat_scope.

Lemma starts_occurs key line j : j <= length line -> starts (key ++ s_ "=") (skipn j line) = true -> occurs_at key line j.
Proof.
  intros Hj H. apply starts_app in H as [r H]. exists (firstn j line), r. split; [|rewrite firstn_length; lia].
  rewrite <- (firstn_skipn j line) at 1. f_equal. rewrite H, <- app_assoc. reflexivity.
Qed.
Lemma occurs_starts key line j : occurs_at key line j -> starts (key ++ s_ "=") (skipn j line) = true.
Proof.
  intros (b & a & -> & <-). rewrite skipn_app, skipn_all, Nat.sub_diag. cbn [app skipn]. rewrite app_assoc. apply starts_self.
Qed.
Lemma skipn_beyond (l : str) j : length l < j -> skipn j l = [].
Proof. intros. apply skipn_all2. lia. Qed.
Lemma key_nonempty key : key ++ s_ "=" <> [].
Proof. destruct key; discriminate. Qed.
Lemma find_absent key line : absent key line -> find (key ++ s_ "=") line 0 = None.
Proof.
  intros H. apply find_none. intros j. destruct (starts (key ++ s_ "=") (skipn j line)) eqn:E; [|reflexivity]. exfalso.
  destruct (Nat.le_gt_cases j (length line)).
  - apply (H j). now apply starts_occurs.
  - rewrite skipn_beyond in E by assumption. destruct key; discriminate.
Qed.
Lemma find_first key before tail : (forall j, occurs_at key (before ++ key ++ s_ "=" ++ tail) j -> length before <= j) ->
  find (key ++ s_ "=") (before ++ key ++ s_ "=" ++ tail) 0 = Some (length before).
Proof.
  intros H. replace (key ++ s_ "=" ++ tail) with ((key ++ s_ "=") ++ tail) by now rewrite <- app_assoc. apply find_at. intros j Hj.
  destruct (starts _ _) eqn:E; [|reflexivity]. exfalso. rewrite <- app_assoc in E. apply starts_occurs in E.
  - apply H in E. lia.
  - rewrite app_length. lia.
Qed.

Lemma find_skip (c : ascii) a b : find [c] (a ++ b) (length a) = find_from (length a) [c] b.
Proof.
  unfold find. rewrite app_length. destruct (Nat.leb_spec (length a) (length a + length b)); [|lia].
  rewrite skipn_app, skipn_all, Nat.sub_diag. reflexivity.
Qed.
Lemma cut_at_space a w rest : Forall (fun c => c <> " "%char) w -> (rest = [] \/ exists r, rest = " "%char :: r) ->
  match find (s_ " ") (a ++ w ++ rest) (length a) with Some e => substr0 (a ++ w ++ rest) e | None => a ++ w ++ rest end = a ++ w.
Proof.
  intros Hw Hr. change (s_ " ") with [" "%char]. rewrite find_skip. destruct Hr as [->|[r ->]].
  - rewrite app_nil_r, find_char_none by assumption. reflexivity.
  - rewrite find_char_from by assumption. unfold substr0. rewrite app_assoc, <- app_length, firstn_app, firstn_all, Nat.sub_diag. cbn. apply app_nil_r.
Qed.

Lemma param_text_absent line key : absent key line -> param_text line key = Ok None.
Proof. intros H. unfold param_text. now rewrite find_absent. Qed.
Lemma param_text_value line key value : has_value line key value -> param_text line key = Ok (Some value).
Proof.
  intros (before & rest & -> & Hk & Hv & Hr & Hfirst). unfold param_text. rewrite find_first by exact Hfirst. cbv zeta.
  replace (before ++ key ++ s_ "=" ++ value ++ rest) with (before ++ (key ++ s_ "=" ++ value) ++ rest) by now rewrite <- !app_assoc.
  rewrite cut_at_space; [|rewrite !Forall_app; repeat split; auto; repeat constructor; discriminate|assumption].
  unfold substr. rewrite !app_length. cbn [s_ list_ascii_of_string length]. destruct (Nat.leb_spec (length before + (length key + 1)) (length before + (length key + (1 + length value)))); [|lia].
  cbn [bind]. do 2 f_equal. replace (before ++ key ++ ["="%char] ++ value) with ((before ++ key ++ ["="%char]) ++ value) by now rewrite <- !app_assoc.
  replace (length before + (length key + 1)) with (length (before ++ key ++ ["="%char])) by now rewrite !app_length.
  now rewrite skipn_app, skipn_all, Nat.sub_diag.
Qed.

Lemma kernel_size_text line key a b : has_value line key (a ++ "x"%char :: b) -> Forall (fun c => c <> "x"%char) key -> Forall (fun c => c <> "x"%char) a ->
  kernel_size line key = (x <- atoi a ;; y <- atoi b ;; Ok (Some (to_uint x, to_uint y))).
Proof.
  intros (before & rest & -> & Hk & Hv & Hr & Hfirst) Hkx Hax. unfold kernel_size. rewrite find_first by exact Hfirst. cbv zeta.
  assert (Fx : find (s_ "x") (before ++ key ++ s_ "=" ++ (a ++ "x"%char :: b) ++ rest) (length before) = Some (length before + length (key ++ s_ "=" ++ a))).
  { change (s_ "x") with ["x"%char]. rewrite find_skip.
    replace (key ++ s_ "=" ++ (a ++ "x"%char :: b) ++ rest) with ((key ++ s_ "=" ++ a) ++ "x"%char :: b ++ rest) by (rewrite <- !app_assoc; reflexivity).
    apply find_char_from. rewrite !Forall_app. repeat split; auto. repeat constructor. discriminate. }
  rewrite Fx. set (pre := before ++ key ++ s_ "=" ++ a) in *.
  assert (Lp : length before + length (key ++ s_ "=" ++ a) = length pre) by (unfold pre; now rewrite !app_length).
  rewrite Lp. assert (Eline : before ++ key ++ s_ "=" ++ (a ++ "x"%char :: b) ++ rest = pre ++ ("x"%char :: b) ++ rest).
  { unfold pre. rewrite <- !app_assoc. reflexivity. }
  rewrite Eline. apply Forall_app in Hv as [Ha Hb].
  rewrite cut_at_space by assumption.
  assert (Ls : length before + (length key + 1) = length (before ++ key ++ s_ "=")) by now rewrite !app_length.
  rewrite Ls. set (start := before ++ key ++ s_ "=") in *. assert (Ep : pre = start ++ a) by (unfold pre, start; now rewrite <- !app_assoc).
  rewrite Ep, <- app_assoc. unfold substr at 1. rewrite !app_length. destruct (Nat.leb_spec (length start) (length start + (length a + length ("x"%char :: b)))); [|lia].
  cbn [bind]. destruct (Nat.ltb_spec (length start + length a) (length start)); [lia|].
  rewrite skipn_app, skipn_all, Nat.sub_diag. cbn [app skipn].
  replace (length start + length a - length start) with (length a) by lia. replace (1 + (length start + length a) - length start) with (S (length a)) by lia.
  unfold substr0. rewrite firstn_app, firstn_all, Nat.sub_diag. cbn [firstn]. rewrite app_nil_r.
  unfold substr. rewrite app_length. cbn [length]. destruct (Nat.leb_spec (S (length a)) (length a + S (length b))); [|lia]. cbn [bind].
  replace (skipn (S (length a)) (a ++ "x"%char :: b)) with b; [reflexivity|].
  rewrite skipn_app, skipn_all2 by lia. now replace (S (length a) - length a) with 1 by lia.
Qed.
Lemma kernel_size_value line key a b kx ky : has_value line key (a ++ "x"%char :: b) -> Forall (fun c => c <> "x"%char) key -> Forall (fun c => c <> "x"%char) a ->
  parse_kernel_size line key kx ky = (x <- atoi a ;; y <- atoi b ;; Ok (to_uint x, to_uint y)).
Proof.
  intros H1 H2 H3. unfold parse_kernel_size. rewrite (kernel_size_text line key a b H1 H2 H3).
  destruct (atoi a); [|reflexivity..]. cbn [bind]. destruct (atoi b); reflexivity.
Qed.
Lemma kernel_size_none line key : absent key line -> kernel_size line key = Ok None.
Proof. intros H. unfold kernel_size. now rewrite find_absent. Qed.
Lemma kernel_size_absent line key kx ky : absent key line -> parse_kernel_size line key kx ky = Ok (kx, ky).
Proof. intros H. unfold parse_kernel_size. now rewrite kernel_size_none. Qed.

(** Settings at the start of a line. *)
Lemma starts_iff line key : starts_with_identifier line key = true <-> exists tail, line = key ++ tail.
Proof. apply starts_app. Qed.
Lemma prefix_text key sep value : substr (key ++ sep :: value) (length key + 1) = Ok value.
Proof.
  unfold substr. rewrite app_length. cbn [length]. destruct (Nat.leb_spec (length key + 1) (length key + S (length value))); [|lia].
  f_equal. rewrite skipn_app, skipn_all2 by lia. now replace (length key + 1 - length key) with 1 by lia.
Qed.

(** C89: a reader of graph files, and what a file is to tell. *)
From Coq Require Import String Ascii Decimal DecimalString.
From Verif Require Import Base Graph_Model.
Local Open Scope list_scope.

Notation chars := (list ascii).
Notation "# s" := (list_ascii_of_string s%string) (at level 1, format "# s").

(** The lines of a text, and the text before and behind the first [c]. *)
Fixpoint lines (t : chars) : list chars :=
  match t with
  | [] => []
  | c :: r => if Ascii.eqb c (ascii_of_nat 10) then [] :: lines r
              else match lines r with [] => [[c]] | l :: ls => (c :: l) :: ls end
  end.
Fixpoint until (c : ascii) (t : chars) : option (chars * chars) :=
  match t with
  | [] => None
  | d :: r => if Ascii.eqb d c then Some ([], r) else match until c r with Some (a, b) => Some (d :: a, b) | None => None end
  end.
(** [t] without [p] in front. *)
Fixpoint strip (p t : chars) : option chars :=
  match p with
  | [] => Some t
  | c :: p' => match t with d :: t' => if Ascii.eqb c d then strip p' t' else None | [] => None end
  end.
Definition strip_if (p t : chars) : bool * chars := match strip p t with Some r => (true, r) | None => (false, t) end.
Definition chars_eqb (a b : chars) : bool := if list_eq_dec ascii_dec a b then true else false.

Notation "'get' x <- a ;; b" := (match a with Some x => b | None => None end) (at level 100, x pattern, a at next level, b at level 200).

(** A line that declares a node: name, red (an input), blue (an output), label. *)
Definition read_node (line : chars) : option (chars * bool * bool * chars) :=
  let line := snd (strip_if #"digraph G {graph [ranksep=.75, esep=1];" line) in
  get (name, r) <- until " "%char line ;;
  get r <- strip #"[shape=record," r ;;
  let '(red, r) := strip_if #"color=red," r in
  let '(blue, r) := strip_if #"color=blue," r in
  get r <- strip #" label=" r ;;
  get r <- strip [ascii_of_nat 34] r ;;
  let n := length r - 3 in
  if chars_eqb (skipn n r) (ascii_of_nat 34 :: #"];") then Some (name, red, blue, firstn n r) else None.

(** A line that draws an edge: source, port of the source, target, and whether it is solid. *)
Definition read_edge (line : chars) : option (chars * nat * chars * bool) :=
  get (source, r) <- until ":"%char line ;;
  get r <- strip #"o" r ;;
  get (digits, r) <- until " "%char r ;;
  get d <- NilEmpty.uint_of_string (string_of_list_ascii digits) ;;
  get r <- strip #"-> " r ;;
  get (target, r) <- until ":"%char r ;;
  get r <- strip #"i[penwidth=2" r ;;
  if chars_eqb r #"];" then Some (source, Nat.of_uint d, target, true)
  else if chars_eqb r #",style=dotted];" then Some (source, Nat.of_uint d, target, false)
  else None.

Fixpoint collect {A B} (f : A -> option B) (l : list A) : list B :=
  match l with [] => [] | x :: l' => match f x with Some y => y :: collect f l' | None => collect f l' end end.
Definition read_nodes (file : string) : list (chars * bool * bool * chars) := collect read_node (lines #file).
Definition read_edges (file : string) : list (chars * nat * chars * bool) := collect read_edge (lines #file).

(** ** What is to be read *)

(** The label of a node: its name, its layer, and a port for every output buffer with its description and sizes
    (samples@width x height x maps). *)
Definition label_of (name layer : string) (bufs : list (string * (nat * nat * nat * nat))) : string :=
  let num n := NilEmpty.string_of_uint (Nat.to_uint n) in
  let entry b := let '(d, (s, w, h, m)) := b in
    (d ++ " (" ++ num s ++ "s@" ++ num w ++ "x" ++ num h ++ "x" ++ num m ++ "m)")%string in
  ("{ <i> " ++ name ++ ": " ++ layer ++
   match bufs with
   | [] => ""
   | [b] => "| <o0> " ++ entry b
   | _ => "| {" ++ String.concat "|" (map (fun '(i, b) => "<o" ++ num i ++ ">" ++ entry b) (combine (seq 0 (length bufs)) bufs)) ++ "}"
   end ++ "}")%string.

(** Names and descriptions that do not disturb the file. *)
Definition plain_name (s : string) : Prop := ~ In " "%char #s /\ ~ In ":"%char #s /\ ~ In (ascii_of_nat 10) #s.
Definition one_line (s : string) : Prop := ~ In (ascii_of_nat 10) #s.

(** The connections of a network in order: source, output, target, whether a gradient is handed back. *)
Definition connections_of (h : list node) (ps : list nat) : list (chars * nat * chars * bool) :=
  flat_map (fun p => match nth_error h p with
    | Some n => flat_map (fun c => match c_node c with
        | Some q => match nth_error h q with Some m => [(#(n_name m), c_buffer c, #(n_name n), c_backprop c)] | None => [] end
        | None => [] end) (n_inputs n)
    | None => [] end) ps.

(** The nodes of a network in order: name, whether it is an input, whether it is an output, label. *)
Definition nodes_of (layer_text : nat -> string) (buffer_text : nat -> nat -> string) (buffer_shape : nat -> nat -> nat * nat * nat * nat)
  (h : list node) (ps : list nat) : list (chars * bool * bool * chars) :=
  flat_map (fun p => match nth_error h p with
    | Some n => [(#(n_name n), n_is_input n, n_is_output n,
                  #(label_of (n_name n) (layer_text p) (map (fun i => (buffer_text p i, buffer_shape p i)) (seq 0 (n_buffers n)))))]
    | None => [] end) ps.

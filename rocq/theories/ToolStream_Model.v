(** Models of tools/tensorStreamTool.cpp (keep the first tensors of a file) and tools/tensorTool.cpp (edit one
    tensor of a file interactively).  Loops that need not end run on [fuel]; None: still running. *)
From Verif Require Import Base Float32 Bytes_Model Tensor_Model Codec_Model Stream_Model Raw_Model Segmentation_Model.
Local Open Scope nat_scope.

(** std::ifstream on a file that may not exist: failbit is set then, eofbit is not. *)
Definition open_path (f : option (list byte)) : istream :=
  match f with Some bytes => open_file bytes | None => mkIS [] false true end.

Section Tools.
Variable junk : nat -> f32.

(** ** tensorStreamTool *)

(** Lines 29-35. *)
Fixpoint count_loop (fuel : nat) (t : tensor f32) (s : istream) (n : nat) : res (option nat) :=
  if eofbit s then Ok (Some n)
  else match fuel with
       | O => Ok None
       | S fuel' =>
         r <- deserialize junk t false s ;;
         count_loop fuel' (fst r) (is_peek (snd r)) (n + 1)
       end.

(** Lines 52-54: [n] tensors from the beginning. *)
Fixpoint read_tensors (n : nat) (s : istream) : res (list (tensor f32)) :=
  match n with
  | O => Ok []
  | S n' =>
    r <- deserialize junk empty_tensor false s ;;
    ts <- read_tensors n' (snd r) ;;
    Ok (fst r :: ts)
  end.

(** Writing bytes one after the other into a file that has just been emptied: all its contents over time. *)
Definition prefixes (bytes : list byte) : list (list byte) := map (fun k => firstn k bytes) (seq 0 (S (length bytes))).

(** Lines 22-69: the contents of the file over time, the present ones first; [keep] is the number on the command line
    as an unsigned int.  A missing file has no contents. *)
Definition stream_tool (fuel : nat) (file : option (list byte)) (keep : nat) : res (option (list (list byte))) :=
  c <- count_loop fuel empty_tensor (open_path file) 0 ;;
  match c with
  | None => Ok None
  | Some count =>
    let old := match file with Some bytes => bytes | None => [] end in
    if count <? keep then Ok (Some [old])
    else if count =? keep then Ok (Some [old])
    else
      ts <- read_tensors keep (open_file old) ;;
      Ok (Some (old :: prefixes (flat_map serialize ts)))
  end.

(** ** tensorTool *)

(** What can be typed; [Other] has no effect (help, size, show, and everything that is not recognized). *)
Inductive command : Type :=
| Quit | Other | Transpose | Reshape (w h m s : nat) | Extract (pw ph s : nat) | Write | Bin.

(** The tensor, the file it came from and binoutput.data. *)
Record session_state : Type := mkSession { s_tensor : tensor f32; s_file : list byte; s_bin : option (list Z) }.

(** Lines 47-54: tensor number [id]. *)
Fixpoint read_id (id : nat) (t : tensor f32) (s : istream) : res (tensor f32) :=
  r <- deserialize junk t false s ;;
  match id with O => Ok (fst r) | S id' => read_id id' (fst r) (snd r) end.

(** Lines 71-158; the result is the new state and the value returned.  Line 113 lets the tensor share the memory of the
    target; nothing else refers to it.  binoutput.data can be written. *)
Definition step (c : command) (st : session_state) : res (session_state * bool) :=
  match c with
  | Quit => Ok (st, false)
  | Other => Ok (st, true)
  | Transpose => t <- transpose junk (s_tensor st) ;; Ok (mkSession t (s_file st) (s_bin st), true)
  | Reshape w h m s => Ok (mkSession (fst (reshape (s_tensor st) s w h m)) (s_file st) (s_bin st), true)
  | Extract pw ph s =>
    r <- extract_patches junk pw ph empty_tensor empty_tensor (s_tensor st) s false ;;
    Ok (mkSession (fst r) (s_file st) (s_bin st), true)
  | Write => Ok (mkSession (s_tensor st) (serialize (s_tensor st)) (s_bin st), true)
  | Bin => b <- raw_bytes (s_tensor st) ;; Ok (mkSession (s_tensor st) (s_file st) (Some b), true)
  end.

(** std::cin >> entry: at the end of the input the entry stays empty, which is not recognized. *)
Definition next (cs : list command) : command * list command := match cs with [] => (Other, []) | c :: cs' => (c, cs') end.

(** Lines 60-65. *)
Fixpoint session (fuel : nat) (cs : list command) (st : session_state) : res (option session_state) :=
  match fuel with
  | O => Ok None
  | S fuel' =>
    r <- step (fst (next cs)) st ;;
    if snd r then session fuel' (snd (next cs)) (fst r) else Ok (Some (fst r))
  end.

Definition tensor_tool (fuel : nat) (file : list byte) (id : nat) (cs : list command) : res (option session_state) :=
  t <- read_id id empty_tensor (open_file file) ;;
  session fuel cs (mkSession t file None).
End Tools.

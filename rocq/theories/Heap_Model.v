(** Model of the ownership of tensor memory (src/util/Tensor.cpp, without OpenCL and MKL).

    A block is a piece of memory obtained from operator new[] or from mmap.  Blocks are numbered in the
    order of allocation and a number is never used again, so a pointer to released memory stays recognisable.
    Releasing a block that is already released, releasing it with the wrong function and any access to
    a released block are [UB].  mmap succeeds (the program only logs a failure and goes on). *)
From Verif Require Import Base.

Section Heap.
Variable D : Type.
(** The contents of fresh memory. *)
Variable junk : nat -> D.
Variable page_size : nat.
Variable datum_size : nat.

Inductive origin : Type := FromNew | FromMmap.
(** [b_pages]: the number of pages of a mapping that are still mapped. *)
Record block : Type := mkBlock { b_origin : origin; b_live : bool; b_pages : nat; b_data : list D }.

(** Tensor.h:292-334: the members that matter; [h_ptr] is data_ptr_, [h_original] is original_mmap_, both as
    block numbers.  The data pointer of a mapped tensor points into the block of its mapping. *)
Record handle : Type := mkHandle {
  h_samples : nat; h_width : nat; h_height : nat; h_maps : nat; h_elements : nat;
  h_ptr : option nat; h_shadow : bool; h_mapped : bool; h_original : option nat }.
Definition empty_handle : handle := mkHandle 0 0 0 0 0 None false false None.

(** All tensors ever constructed (None: destroyed), all blocks ever allocated, and the numbers of the released
    ones, last one first. *)
Record state : Type := mkState { tensors : list (option handle); blocks : list block; released : list nat }.
Definition start : state := mkState [] [] [].

Definition pages_of (bytes : nat) : nat := (bytes + page_size - 1) / page_size.

(** delete[] data_ptr_. *)
Definition delete_array (s : state) (a : nat) : res state :=
  match nth_error (blocks s) a with
  | Some (mkBlock FromNew true p l) => Ok (mkState (tensors s) (upd (blocks s) a (mkBlock FromNew false p l)) (a :: released s))
  | _ => UB
  end.
(** munmap(original, bytes): the first pages of the mapping go; munmap(nullptr, ...) has no effect. *)
Definition unmap (s : state) (original : option nat) (bytes : nat) : res state :=
  match original with
  | None => Ok s
  | Some a =>
    match nth_error (blocks s) a with
    | Some (mkBlock FromMmap true p l) => Ok (mkState (tensors s) (upd (blocks s) a (mkBlock FromMmap false (p - pages_of bytes) l)) (a :: released s))
    | _ => UB
    end
  end.

(** Lines 395-433, on a handle. *)
Definition delete_if_possible (s : state) (h : handle) : res (state * handle) :=
  match h_ptr h with
  | None => Ok (s, mkHandle 0 0 0 0 0 None false (h_mapped h) (h_original h))
  | Some a =>
    if h_shadow h then Ok (s, mkHandle 0 0 0 0 0 None false (h_mapped h) (h_original h))
    else if h_mapped h then s' <- unmap s (h_original h) (h_elements h * datum_size) ;; Ok (s', empty_handle)
    else s' <- delete_array s a ;; Ok (s', mkHandle 0 0 0 0 0 None false false (h_original h))
  end.

(** Lines 174-194. *)
Definition reshape (h : handle) (s w d m : nat) : handle * bool :=
  match h_ptr h with
  | None => (h, false)
  | Some _ =>
    if h_elements h =? s * m * w * d
    then (mkHandle s w d m (s * m * w * d) (h_ptr h) (h_shadow h) (h_mapped h) (h_original h), true)
    else (h, false)
  end.

Definition allocate (st : state) (b : block) : state * nat := (mkState (tensors st) (blocks st ++ [b]) (released st), length (blocks st)).

(** Lines 132-167 without preallocated memory. *)
Definition resize (st : state) (h : handle) (s w d m : nat) : res (state * handle) :=
  let '(h1, reshaped) := reshape h s w d m in
  if reshaped then Ok (st, h1)
  else
    r <- match h_ptr h with None => Ok (st, h) | Some _ => delete_if_possible st h end ;;
    let '(st2, h2) := r in
    let n := s * m * w * d in
    if n =? 0 then Ok (st2, h2)
    else let '(st3, a) := allocate st2 (mkBlock FromNew true 0 (map junk (seq 0 n))) in
         Ok (st3, mkHandle s w d m n (Some a) (h_shadow h2) (h_mapped h2) (h_original h2)).

(** Deserialize with try_mmap, lines 286-309: maps [offset + elements * datum_size] bytes of the file, whose
    elements are [file], and then calls Resize with preallocated memory (lines 132-167), which differs from
    the old pointer. *)
Definition map_file (st : state) (h : handle) (s w d m offset : nat) (file : list D) : res (state * handle) :=
  let n := s * m * w * d in
  if n =? 0 then Ok (st, h)
  else
    let '(st1, a) := allocate st (mkBlock FromMmap true (pages_of (n * datum_size + offset)) file) in
    let h1 := mkHandle (h_samples h) (h_width h) (h_height h) (h_maps h) (h_elements h) (h_ptr h) (h_shadow h) (h_mapped h) (Some a) in
    r <- delete_if_possible st1 h1 ;;
    let '(st2, h2) := r in
    Ok (st2, mkHandle s w d m n (Some a) (h_shadow h2) true (h_original h2)).

(** Lines 114-122: [h] after DeleteIfPossible takes over the fields of its target. *)
Definition borrow (h target : handle) : handle :=
  mkHandle (h_samples target) (h_width target) (h_height target) (h_maps target) (h_elements target)
           (h_ptr target) true (h_mapped h) (h_original h).

(** One element of the memory of a tensor. *)
Definition read (st : state) (h : handle) (e : nat) : res D :=
  match h_ptr h with
  | None => UB
  | Some a => match nth_error (blocks st) a with Some (mkBlock _ true _ l) => load l e | _ => UB end
  end.
(** A mapping is read-only (PROT_READ). *)
Definition write (st : state) (h : handle) (e : nat) (v : D) : res state :=
  match h_ptr h with
  | None => UB
  | Some a =>
    match nth_error (blocks st) a with
    | Some (mkBlock FromNew true p l) => l' <- store l e v ;; Ok (mkState (tensors st) (upd (blocks st) a (mkBlock FromNew true p l')) (released st))
    | _ => UB
    end
  end.

(** ** Operations on tensors named by their number *)
Inductive op : Type :=
| New (s w d m : nat)                              (* constructor with a shape, lines 81-84 (and 37-39 for an empty shape) *)
| Copy (j : nat)                                   (* copy constructor, lines 46-63 *)
| Move (j : nat)                                   (* move constructor, lines 65-79 *)
| Destroy (i : nat)                                (* destructor, lines 87-89 *)
| Resize (i s w d m : nat)
| Shadow (i j : nat)                               (* tensor i shadows tensor j *)
| MapFile (i s w d m offset : nat) (file : list D)
| Write (i e : nat) (v : D)
| Read (i e : nat).

Definition find (st : state) (i : nat) : res handle :=
  match nth_error (tensors st) i with Some (Some h) => Ok h | _ => UB end.
Definition put (st : state) (i : nat) (h : handle) : state := mkState (upd (tensors st) i (Some h)) (blocks st) (released st).
Definition add (st : state) (h : handle) : state := mkState (tensors st ++ [Some h]) (blocks st) (released st).

Definition step (st : state) (o : op) : res state :=
  match o with
  | New s w d m => r <- resize st empty_handle s w d m ;; Ok (add (fst r) (snd r))
  | Copy j =>
    t <- find st j ;;
    r <- resize st empty_handle (h_samples t) (h_width t) (h_height t) (h_maps t) ;;
    let '(st1, h1) := r in
    st2 <- foldm (fun s e => v <- read s t e ;; write s h1 e v) (seq 0 (h_elements t)) st1 ;;
    Ok (add st2 h1)
  | Move j =>
    t <- find st j ;;
    let h := mkHandle (h_samples t) (h_width t) (h_height t) (h_maps t) (h_elements t) (h_ptr t) false false None in
    r <- delete_if_possible st (mkHandle (h_samples t) (h_width t) (h_height t) (h_maps t) (h_elements t) None (h_shadow t) (h_mapped t) (h_original t)) ;;
    Ok (add (put (fst r) j (snd r)) h)
  | Destroy i =>
    h <- find st i ;;
    r <- delete_if_possible st h ;;
    Ok (mkState (upd (tensors (fst r)) i None) (blocks (fst r)) (released (fst r)))
  | Resize i s w d m => h <- find st i ;; r <- resize st h s w d m ;; Ok (put (fst r) i (snd r))
  | Shadow i j =>
    h <- find st i ;; t <- find st j ;;
    (* line 112 resets the fields of the target too when it is the same tensor *)
    r <- delete_if_possible st h ;;
    Ok (put (fst r) i (borrow (snd r) (if i =? j then snd r else t)))
  | MapFile i s w d m offset file => h <- find st i ;; r <- map_file st h s w d m offset file ;; Ok (put (fst r) i (snd r))
  | Write i e v => h <- find st i ;; write st h e v
  | Read i e => h <- find st i ;; v <- read st h e ;; Ok st
  end.
Definition run (ops : list op) (st : state) : res state := foldm step ops st.
End Heap.
Arguments mkBlock {D} _ _ _ _. Arguments b_origin {D} _. Arguments b_live {D} _. Arguments b_pages {D} _. Arguments b_data {D} _.
Arguments mkState {D} _ _ _. Arguments tensors {D} _. Arguments blocks {D} _. Arguments released {D} _. Arguments start {D}.
Arguments find {D} _ _. Arguments put {D} _ _ _. Arguments add {D} _ _. Arguments read {D} _ _ _. Arguments write {D} _ _ _ _.
Arguments New {D} _ _ _ _. Arguments Copy {D} _. Arguments Move {D} _. Arguments Destroy {D} _. Arguments Resize {D} _ _ _ _ _.
Arguments Shadow {D} _ _. Arguments MapFile {D} _ _ _ _ _ _ _. Arguments Write {D} _ _ _. Arguments Read {D} _ _.
Arguments step {D} _ _ _ _ _. Arguments run {D} _ _ _ _ _. Arguments resize {D} _ _ _ _ _ _ _ _ _. Arguments delete_if_possible {D} _ _ _ _.
Arguments map_file {D} _ _ _ _ _ _ _ _ _ _. Arguments delete_array {D} _ _. Arguments unmap {D} _ _ _ _. Arguments allocate {D} _ _.

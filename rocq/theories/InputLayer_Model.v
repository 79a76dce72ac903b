(** Model of class Conv::InputLayer (src/net/InputLayer.cpp) on the tensors of Heap_Model.v.

    Tensors are named by their numbers.  A combined tensor is a pair: data and delta (CombinedTensor.h:38-43).
    Log output is not modelled. *)
From Verif Require Import Base Heap_Model.
Local Open Scope list_scope.

Section InputLayer.
Variable D : Type.
Variable junk : nat -> D.
Variable page_size datum_size : nat.

Definition combined : Type := (nat * nat)%type.
(** InputLayer.h:60-63; label and weight may be null pointers. *)
Record input_layer : Type := mkInput { in_data : combined; in_label : option combined; in_helper : combined; in_weight : option combined }.

(** CombinedTensor.h:38-43, with the shape of [h]. *)
Definition combined_ops (h : handle) : list (op D) :=
  [New (h_samples h) (h_width h) (h_height h) (h_maps h); New (h_samples h) (h_width h) (h_height h) (h_maps h)].
(** The tensors the user passes by reference. *)
Fixpoint find_all (st : state D) (users : list nat) : res (list handle) :=
  match users with [] => Ok [] | u :: us => h <- find st u ;; hs <- find_all st us ;; Ok (h :: hs) end.
Definition same_samples (hs : list handle) : bool :=
  match hs with [] => true | h :: hs => forallb (fun k => h_samples h =? h_samples k) hs end.

(** InputLayer.cpp:18-37 and 39-77: the checks (each compares with the first tensor, data), then the new tensors in the order of
    the constructor, then the calls of Shadow in the same order.  [users] are the tensors the user passes. *)
Definition connect (st : state D) (users : list nat) : res (state D * list combined) :=
  hs <- find_all st users ;;
  if negb (same_samples hs) then Fatal
  else
    let k := length (tensors st) in
    let pair n := (k + 2 * n, S (k + 2 * n)) in
    st' <- run junk page_size datum_size
             (flat_map combined_ops hs ++ map (fun '(n, u) => Shadow (fst (pair n)) u) (combine (seq 0 (length users)) users)) st ;;
    Ok (st', map pair (seq 0 (length users))).

(** InputLayer.cpp:18-37. *)
Definition new_input (st : state D) (data helper : nat) : res (state D * input_layer) :=
  r <- connect st [data; helper] ;;
  match r with (st', [d; h]) => Ok (st', mkInput d None h None) | _ => UB end.
(** InputLayer.cpp:13-16. *)
Definition new_input_alone (st : state D) (data : nat) : res (state D * input_layer) :=
  h <- find st data ;;
  st' <- step junk page_size datum_size st (New (h_samples h) (h_width h) (h_height h) 2) ;;
  new_input st' data (length (tensors st)).
(** InputLayer.cpp:39-77. *)
Definition new_input_labelled (st : state D) (data label helper weight : nat) : res (state D * input_layer) :=
  r <- connect st [data; label; helper; weight] ;;
  match r with (st', [d; l; h; w]) => Ok (st', mkInput d (Some l) h (Some w)) | _ => UB end.

(** InputLayer.cpp:137-163. *)
Definition create_outputs (st : state D) (layer : input_layer) (inputs : nat) : res (option (state D * list combined)) :=
  if negb (inputs =? 0) then Ok None
  else
    h <- find st (fst (in_data layer)) ;;
    let fresh o s w d m (st : state D) := match o with
      | Some c => Ok (st, c)
      | None => st' <- run junk page_size datum_size [New s w d m; New s w d m] st ;; Ok (st', (length (tensors st), S (length (tensors st))))
      end in
    r1 <- fresh (in_label layer) (h_samples h) 1 1 1 st ;;
    r2 <- fresh (in_weight layer) (h_samples h) (h_width h) (h_height h) (h_maps h) (fst r1) ;;
    Ok (Some (fst r2, [in_data layer; snd r1; in_helper layer; snd r2])).
End InputLayer.
Arguments connect {D}. Arguments new_input {D}. Arguments new_input_alone {D}. Arguments new_input_labelled {D}. Arguments create_outputs {D}. Arguments combined_ops {D}.

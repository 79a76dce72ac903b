(** Model of Tensor::LoadFromFile and Tensor::WriteToFile (src/util/Tensor.cpp:583-666): how the name of a
    file selects its format.  The coders are parameters: what they do with pixels is in [Pixel_Model],
    and the tensor format is in [Tensor_Model]. *)
From Coq Require Import Ascii String ZArith.
From Verif Require Import Base Str_Model.
Local Open Scope nat_scope.
Local Open Scope list_scope.

(** std::string::compare(pos, n, other) == 0: throws out_of_range if pos is behind the end; otherwise
    compares at most n characters from pos with all of [other]. *)
Definition str_eqb (a b : str) : bool := if list_eq_dec Ascii.ascii_dec a b then true else false.
Definition compare_at (name : str) (pos : Z) (n : nat) (other : str) : res bool :=
  if (Z.of_nat (length name) <? pos)%Z then Fatal else Ok (str_eqb (firstn n (skipn (Z.to_nat pos) name)) other).
(** filename.length() - 3 in std::size_t. *)
Definition tail_pos (name : str) : Z := ((Z.of_nat (length name) - 3) mod 2 ^ 64)%Z.
Definition tail_is (name : str) (other : String.string) : res bool := compare_at name (tail_pos name) 3 (s_ other).
(** a || b || ..., from left to right. *)
Fixpoint any_tail (name : str) (others : list String.string) : res bool :=
  match others with
  | [] => Ok false
  | o :: rest => b <- tail_is name o ;; if b then Ok true else any_tail name rest
  end.

Section Files.
Variable T : Type.
(** Which coders the program was built with (BUILD_PNG, BUILD_JPG). *)
Variable png_built jpg_built : bool.
(** PNGUtil::LoadFromStream on the contents of a file (None: returns false and leaves the tensor),
    JPGUtil::LoadFromFile on an open file (libjpeg ends the process on errors), Tensor::Deserialize. *)
Variable png_decode : list Z -> option T.
Variable jpg_decode : list Z -> res T.
Variable deserialize : list Z -> res T.
(** PNGUtil::WriteToStream (None: returns false and writes nothing), JPGUtil::WriteToFile, Tensor::Serialize. *)
Variable png_encode : T -> option (list Z).
Variable jpg_encode : T -> res (list Z).
Variable serialize : T -> list Z.

(** The files that can be opened for reading, with their contents, and the names that can be opened for writing. *)
Definition files := str -> option (list Z).
Definition put_file (fs : files) (name : str) (c : list Z) : files := fun n => if str_eqb n name then Some c else fs n.

Definition png_names : list String.string := ["png"; "PNG"]%string.
Definition jpg_names : list String.string := ["jpg"; "jpeg"; "JPG"; "JPEG"]%string.

(** Lines 583-623; the result is the tensor afterwards.  The results of the coders (lines 594, 606) are not
    looked at. *)
Definition load_file (fs : files) (t : T) (name : str) : res T :=
  is_png <- (if png_built then any_tail name png_names else Ok false) ;;
  if is_png then match fs name with None => Fatal | Some c => Ok (match png_decode c with Some t' => t' | None => t end) end
  else
  is_jpg <- (if jpg_built then any_tail name jpg_names else Ok false) ;;
  if is_jpg then match fs name with None => Ok t | Some c => jpg_decode c end
  else
  is_tensor <- tail_is name "Tensor" ;;
  if is_tensor then match fs name with None => Fatal | Some c => deserialize c end
  else Fatal.

(** Lines 625-666; the result is the files afterwards. *)
Definition write_file (writable : str -> bool) (fs : files) (t : T) (name : str) : res files :=
  is_png <- (if png_built then any_tail name png_names else Ok false) ;;
  if is_png then
    if writable name then Ok (put_file fs name (match png_encode t with Some c => c | None => [] end)) else Fatal
  else
  is_jpg <- (if jpg_built then any_tail name jpg_names else Ok false) ;;
  if is_jpg then
    if writable name then c <- jpg_encode t ;; Ok (put_file fs name c) else Ok fs
  else
  is_tensor <- tail_is name "Tensor" ;;
  if is_tensor then if writable name then Ok (put_file fs name (serialize t)) else Fatal
  else Fatal.
End Files.

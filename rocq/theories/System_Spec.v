(** Which OpenCL device a program must use (C95). *)
From Coq Require Import Ascii String.
From Verif Require Import Base Str_Model Receptive_Model Settings_Props.
Local Open Scope list_scope.
Local Open Scope nat_scope.

Inductive number_key : Type := Platform | Device.
Definition number_text (k : number_key) : str := s_ (match k with Platform => "opencl_platform" | Device => "opencl_device" end)%string.
(** A line sets a number (key, any separating character, decimal number), or it has nothing to do with the two. *)
Inductive line_means : str -> option (number_key * Z) -> Prop :=
| means_number k sep v z : number v z -> line_means (number_text k ++ sep :: v) (Some (k, z))
| means_nothing line : (forall k, ~ starts_text (number_text k) line) -> line_means line None.
(** The number in the last line that sets it, 0 without one. *)
Definition last_number (k : number_key) (ms : list (option (number_key * Z))) (z : Z) : Prop :=
  (exists before after, ms = before ++ Some (k, z) :: after /\ forall z', ~ In (Some (k, z')) after) \/
  ((forall z', ~ In (Some (k, z')) ms) /\ z = 0%Z).

(** The directory of a program: what stands before its name; none if there is no slash. *)
Definition directory_of (path dir : str) : Prop :=
  (exists name, path = dir ++ name /\ ~ In "/"%char name) /\ (dir = [] \/ exists d, dir = d ++ ["/"%char]).
(** The text of the configuration of a program in [dir]: the file beside it or else the one in the directory above. *)
Definition configuration (files : str -> option str) (dir : str) : option str :=
  match files (dir ++ s_ "config") with Some t => Some t | None => files (dir ++ s_ "../config") end.

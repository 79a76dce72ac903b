(** System::Init and the choice of the OpenCL device (src/util/Init.cpp), as built for Linux.

    [link] is the target of /proc/self/exe as readlink gives it (None: the call fails), a path without zero bytes; [files] gives the texts of the
    files that can be opened and read.  Not modelled: messages, GTK, the viewer, and everything in CLHelper::Init behind the choice of the device
    (context, queue and kernels). *)
From Coq Require Import Ascii String.
From Verif Require Import Base Str_Model Config_Model Receptive_Model.
Local Open Scope list_scope.
Local Open Scope nat_scope.

(** std::string::rfind("/"); None is npos. *)
Fixpoint rfind_slash (s : str) : option nat :=
  match s with
  | [] => None
  | c :: t => match rfind_slash t with
              | Some i => Some (S i)
              | None => if Ascii.eqb c "/"%char then Some 0 else None
              end
  end.
(** Init.cpp:173-185.  readlink truncates to the [room] of the buffer, sizeof(buffer) - 1.  For npos, last_slash + 1 wraps around to 0. *)
Definition executable_path (room : nat) (link : option str) : str :=
  match link with
  | None => []
  | Some target =>
    let path := firstn room target in
    substr0 path (match rfind_slash path with Some i => i + 1 | None => 0 end)
  end.
(** Init.cpp:174: char buffer[16384]. *)
Definition buffer_room : nat := Z.to_nat 16383.

(** Init.cpp:103-106. *)
Definition config_path (files : str -> option str) (binary_path : str) : str :=
  let beside := binary_path ++ s_ "config" in
  match files beside with Some _ => beside | None => binary_path ++ s_ "../config" end.

(** Init.cpp:117-118: the numbers of platform and device after one line. *)
Definition system_line (p : Z * Z) (line : str) : res (Z * Z) :=
  platform <- parse_uint_if_possible line (s_ "opencl_platform") (fst p) ;;
  device <- parse_uint_if_possible line (s_ "opencl_device") (snd p) ;;
  Ok (platform, device).

(** CLHelper::Init, Init.cpp:199-234, with BUILD_OPENCL: [platforms] are the devices of each platform.  An index behind the end of an array is
    undefined behaviour. *)
Definition select_device {Dev} (platforms : list (list Dev)) (p : Z * Z) : res Dev :=
  match platforms with
  | [] => Fatal
  | _ =>
    devices <- load platforms (Z.to_nat (fst p)) ;;
    match devices with
    | [] => Fatal
    | _ => load devices (Z.to_nat (snd p))
    end
  end.

(** Init.cpp:80-88: log_level after the call; [verbose] is BUILD_VERBOSE. *)
Definition log_level (verbose : bool) (requested : Z) : Z :=
  if (requested =? -1)%Z then (if verbose then 3 else 2)%Z else requested.

(** Init.cpp:95-126: the numbers given to CLHelper::Init. *)
Definition system_numbers (room : nat) (link : option str) (files : str -> option str) : res (Z * Z) :=
  match files (config_path files (executable_path room link)) with
  | Some text => foldm system_line (lines_of text) (0%Z, 0%Z)
  | None => Ok (0%Z, 0%Z)
  end.
(** Init.cpp:80-126: the log level and the device. *)
Definition system_init {Dev} (verbose : bool) (requested : Z) (room : nat) (link : option str) (files : str -> option str) (platforms : list (list Dev))
  : res (Z * Dev) :=
  p <- system_numbers room link files ;;
  d <- select_device platforms p ;;
  Ok (log_level verbose requested, d).

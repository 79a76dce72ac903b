(** The constructor of ConfigurableFactory (src/factory/ConfigurableFactory.cpp:33-146): receptive
    field, scale factor and method of a network configuration.  The fields are C++ ints: overflow is
    undefined behaviour.  Log output is left out. *)
From Coq Require Import Ascii String List.
From Verif Require Import Base Str_Model Config_Model.
Local Open Scope string_scope.
Local Open Scope list_scope.
Local Open Scope nat_scope.

(** std::getline until eof (lines 49-51): the parts between the newlines. *)
Fixpoint lines_of (text : str) : list str :=
  match text with
  | [] => [[]]
  | c :: t =>
    if Ascii.eqb c "010"%char then [] :: lines_of t
    else match lines_of t with l :: ls => (c :: l) :: ls | [] => [[c]] end
  end.

Definition int_ (z : Z) : res Z := if int_range z then Ok z else UB.
(** The conversion of an unsigned int to int. *)
Definition to_int (u : Z) : Z := (if u <? 2 ^ 31 then u else u - 2 ^ 32)%Z.
(** int *= unsigned int. *)
Definition mul_uint (factor s : Z) : Z := to_int (to_uint (factor * s)).

(** ConfigurableFactory.h:101-110 (one axis of each pair of fields) and the local variable ignore_layers. *)
Record axis : Type := mkAxis { a_rf : Z; a_factor : Z }.
Record geo : Type := mkGeo { g_x : axis; g_y : axis; g_ignore : bool; g_patch : bool }.
Definition geo0 : geo := mkGeo (mkAxis 0 1) (mkAxis 0 1) false false.

(** Lines 96-99 for one axis. *)
Definition conv_axis (k s p : Z) (a : axis) : res axis :=
  e1 <- int_ (to_int k - 1) ;; e2 <- int_ (e1 - to_int p) ;; e3 <- int_ (e2 - to_int p) ;;
  e4 <- int_ (a_factor a * e3) ;; rf <- int_ (a_rf a + e4) ;;
  Ok (mkAxis rf (mul_uint (a_factor a) s)).
(** Lines 106-107 and 114-115. *)
Definition pool_axis (k : Z) (a : axis) : axis := mkAxis (a_rf a) (mul_uint (a_factor a) k).
(** Lines 124-127. *)
Definition apool_axis (k s : Z) (a : axis) : res axis :=
  e1 <- int_ (to_int k - 1) ;; e2 <- int_ (a_factor a * e1) ;; rf <- int_ (a_rf a + e2) ;;
  Ok (mkAxis rf (mul_uint (a_factor a) s)).

(** A variable that is read although it may be uninitialized. *)
Definition initialized {A} (o : option A) : res A := match o with Some v => Ok v | None => UB end.

(** Lines 84-100: [line] without the question mark. *)
Definition read_conv (line : str) (g : geo) : res geo :=
  if starts_with_identifier line (s_ "convolutional") then
    stride <- parse_kernel_size line (s_ "stride") 1 1 ;;
    pad <- parse_kernel_size line (s_ "pad") 0 0 ;;
    size <- kernel_size line (s_ "size") ;;
    k <- initialized size ;;
    x <- conv_axis (fst k) (fst stride) (fst pad) (g_x g) ;;
    y <- conv_axis (snd k) (snd stride) (snd pad) (g_y g) ;;
    Ok (mkGeo x y (g_ignore g) (g_patch g))
  else Ok g.
(** Lines 102-108 and 110-116. *)
Definition read_pool (identifier line : str) (g : geo) : res geo :=
  if starts_with_identifier line identifier then
    size <- kernel_size line (s_ "size") ;;
    k <- initialized size ;;
    Ok (mkGeo (pool_axis (fst k) (g_x g)) (pool_axis (snd k) (g_y g)) (g_ignore g) (g_patch g))
  else Ok g.
(** Lines 118-128. *)
Definition read_apool (line : str) (g : geo) : res geo :=
  if starts_with_identifier line (s_ "amaxpooling") then
    size <- kernel_size line (s_ "size") ;;
    k <- initialized size ;;
    stride <- parse_kernel_size line (s_ "stride") (fst k) (snd k) ;;
    x <- apool_axis (fst k) (fst stride) (g_x g) ;;
    y <- apool_axis (snd k) (snd stride) (g_y g) ;;
    Ok (mkGeo x y (g_ignore g) (g_patch g))
  else Ok g.

(** Lines 55-63. *)
Definition read_method (training : bool) (line : str) (g : geo) : res geo :=
  method <- parse_string_param line (s_ "method") [] ;;
  Ok (if compare0 method (s_ "patch") then if training then mkGeo (g_x g) (g_y g) (g_ignore g) true else g else g).
(** Lines 65-79; rfx and the others are unsigned ints and are converted to int. *)
Definition read_manual (line : str) (g : geo) : res geo :=
  if compare0 line (s_ "manual") then
    rfx <- parse_count line (s_ "rfx") 0 ;; rfy <- parse_count line (s_ "rfy") 0 ;;
    fx <- parse_count line (s_ "factorx") 0 ;; fy <- parse_count line (s_ "factory") 0 ;;
    Ok (if ((0 <? rfx) && (0 <? rfy))%Z then mkGeo (mkAxis (to_int rfx) (to_int fx)) (mkAxis (to_int rfy) (to_int fy)) true (g_patch g) else g)
  else Ok g.
(** Lines 81-129. *)
Definition read_layer (line : str) (g : geo) : res geo :=
  if compare0 line (s_ "?") && negb (g_ignore g) then
    l <- substr line 1 ;;
    g1 <- read_conv l g ;; g2 <- read_pool (s_ "maxpooling") l g1 ;; g3 <- read_pool (s_ "downsampling") l g2 ;;
    read_apool l g3
  else Ok g.
(** Lines 49-130: one line. *)
Definition read_line (training : bool) (g : geo) (line : str) : res geo :=
  if compare0 line (s_ "#") then Ok g else
  g1 <- read_method training line g ;; g2 <- read_manual line g1 ;; read_layer line g2.

(** Lines 33-146: the final values of receptive_field_x_/y_ (what patchsizex() and patchsizey() return),
    factorx/factory and method_ == PATCH.  Lines 144-145 (patch_field_) can overflow as well. *)
Definition add_factor (a : axis) : res axis := rf <- int_ (a_rf a + a_factor a) ;; Ok (mkAxis rf (a_factor a)).
Definition factory (training : bool) (text : str) : res geo :=
  g <- foldm (read_line training) (lines_of text) geo0 ;;
  g' <- (if g_patch g then x <- add_factor (g_x g) ;; y <- add_factor (g_y g) ;; Ok (mkGeo x y (g_ignore g) (g_patch g)) else Ok g) ;;
  _ <- add_factor (g_x g') ;; _ <- add_factor (g_y g') ;;
  Ok g'.

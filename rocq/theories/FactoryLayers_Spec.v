(** C58: which layers the lines of a configuration describe. *)
From Coq Require Import Ascii String List.
From Verif Require Import Base Str_Model Config_Spec Receptive_Model Factory_Model Factory_Spec.
Local Open Scope string_scope.
Local Open Scope list_scope.
Local Open Scope nat_scope.

Definition int_max : Z := 2147483647.
Definition small (z : Z) : Prop := (0 <= z <= int_max)%Z.

(** [line'] is [line] with [by_] in the place of the first [word], if there is one. *)
Definition first_replaced (word : string) (by_ line line' : str) : Prop :=
  (exists a b, line = a ++ s_ word ++ b /\ line' = a ++ by_ ++ b /\ forall a' b', line = a' ++ s_ word ++ b' -> length a <= length a') \/
  (~ mentions word line /\ line' = line).

Section Layers.
Context {D : Type} (read_datum : str -> D) (d0 d1 : D) (rand : nat -> Z).
(** The factory is for whole images ([whole]) or for patches; [fx], [fy]: how much smaller the output is than the input. *)
Variables (whole : bool) (fx fy : Z) (classes : Z) (add_loss_layer : bool).
Notation layer := (@layer D).

(** ** Parameters: given in the line, or else the default *)
Definition size_param (line : str) (name : string) (default : Z * Z) (x y : Z) : Prop :=
  small x /\ small y /\ has_value line (s_ name) (decimal x ++ s_ "x" ++ decimal y) \/ absent (s_ name) line /\ (x, y) = default.
Definition count_param (line : str) (name : string) (default z : Z) : Prop :=
  small z /\ has_value line (s_ name) (decimal z) \/ absent (s_ name) line /\ z = default.
Definition datum_param (line : str) (name : string) (default v : D) : Prop :=
  (exists text, has_value line (s_ name) text /\ v = read_datum text) \/ absent (s_ name) line /\ v = default.

(** ** Layers: the text behind the question mark *)
Inductive describes (seed : Z) (l : str) : layer -> Prop :=
| is_convolution kx ky k sx sy px py group dropout llr : begins "convolutional" l ->
    size_param l "size" (1, 1)%Z kx ky -> size_param l "stride" (1, 1)%Z sx sy -> size_param l "pad" (0, 0)%Z px py ->
    count_param l "kernels" 1 k -> count_param l "group" 1 group -> datum_param l "dropout" d0 dropout -> datum_param l "llr" d1 llr ->
    kx <> 0%Z -> ky <> 0%Z -> sx <> 0%Z -> sy <> 0%Z -> group <> 0%Z -> (group | k)%Z ->
    describes seed l (LConvolution kx ky k sx sy px py group seed dropout llr)
| is_normalization (across : bool) method size alpha beta : begins "lrn" l ->
    has_value l (s_ "method") method -> begins (if across then "across" else "within") method ->
    count_param l "size" 1 size -> datum_param l "alpha" d1 alpha -> datum_param l "beta" d1 beta ->
    describes seed l (LNormalization across size alpha beta)
| is_maxpooling kx ky : begins "maxpooling" l -> size_param l "size" (1, 1)%Z kx ky -> describes seed l (LMaxPooling kx ky)
| is_downsampling kx ky : begins "downsampling" l -> size_param l "size" (1, 1)%Z kx ky -> describes seed l (LDownSampling kx ky)
| is_amaxpooling kx ky sx sy : begins "amaxpooling" l -> size_param l "size" (1, 1)%Z kx ky -> size_param l "stride" (kx, ky) sx sy ->
    describes seed l (LAdvancedMaxPooling kx ky sx sy)
| is_sigmoid : begins "sigm" l -> describes seed l LSigmoid
| is_relu : begins "relu" l -> describes seed l LReLU
| is_tanh : begins "tanh" l -> describes seed l LTanh
| is_hmax mu weight : begins "hmax" l -> datum_param l "mu" d1 mu -> datum_param l "weight" d0 weight -> describes seed l (LHMax mu weight)
| is_concat : begins "concat" l -> describes seed l LConcatenation
| is_sum : begins "sum" l -> describes seed l LSum.

(** ** Lines *)
(** The number of classes for (o), and fully connected layers as convolutions with kernels of size 1. *)
Definition expanded (line line' : str) : Prop :=
  exists l1, first_replaced "(o)" (decimal classes) line l1 /\
    (mentions "fullyconnected" l1 /\ (exists l2, first_replaced "fullyconnected" (s_ "convolutional size=1x1") l1 l2 /\
       mentions "neurons=" l2 /\ first_replaced "neurons=" (s_ "kernels=") l2 line') \/
     ~ mentions "fullyconnected" l1 /\ line' = l1).

Definition words_of_layers : list string :=
  ["convolutional"; "lrn"; "maxpooling"; "downsampling"; "amaxpooling"; "sigm"; "hmax"; "relu"; "tanh"; "spatialprior"; "concat"; "sum"; "upscale"].
Definition is_conv (l : layer) : bool := match l with LConvolution _ _ _ _ _ _ _ _ _ _ _ => true | _ => false end.

(** [made] are the layers of a line. [up]: the outputs need no upscaling (any more); [n]: the number of convolution layers before. *)
Inductive line_layers (up : bool) (n : nat) (line : str) : list layer -> bool -> nat -> Prop :=
| comment : begins "#" line -> line_layers up n line [] up n
| no_layer line' : ~ begins "#" line -> expanded line line' -> ~ begins "?" line' -> line_layers up n line [] up n
| flatten line' : ~ begins "#" line -> expanded line line' -> whole = true -> mentions "flatten" line' -> line_layers up n line [] up n
| one_layer l layer : ~ begins "#" line -> expanded line (s_ "?" ++ l) -> ~ (whole = true /\ mentions "flatten" (s_ "?" ++ l)) ->
    describes (rand n) l layer -> line_layers up n line [layer] up (if is_conv layer then S n else n)
| unknown_layer l : ~ begins "#" line -> expanded line (s_ "?" ++ l) -> ~ begins "output" l -> (forall w, In w words_of_layers -> ~ begins w l) ->
    line_layers up n line [] up n
| prior_layer l : ~ begins "#" line -> expanded line (s_ "?" ++ l) -> ~ (whole = true /\ mentions "flatten" (s_ "?" ++ l)) -> begins "spatialprior" l ->
    line_layers up n line ((if whole && negb up then [LUpscale fx fy] else []) ++ [LConcatenation]) (up || whole) n
| upscale_layer l ux uy o : ~ begins "#" line -> expanded line (s_ "?" ++ l) -> ~ (whole = true /\ mentions "flatten" (s_ "?" ++ l)) -> begins "upscale" l ->
    size_param l "factor" (1, 1)%Z ux uy -> count_param l "is_output" 0 o ->
    line_layers up n line (LUpscale ux uy :: if (o =? 1)%Z && add_loss_layer then [LError d1] else []) true n
| output_layer l weight : ~ begins "#" line -> expanded line (s_ "?" ++ l) -> ~ (whole = true /\ mentions "flatten" (s_ "?" ++ l)) -> begins "output" l ->
    datum_param (s_ "?" ++ l) "weight" d1 weight ->
    line_layers up n line
      ((if (classes =? 1)%Z then LTanh else LSigmoid) :: (if whole && negb up && negb ((fx =? 1) && (fy =? 1))%Z then [LUpscale fx fy] else []) ++
       (if add_loss_layer then [LError weight] else [])) up n.

Inductive text_layers : bool -> nat -> list str -> list layer -> Prop :=
| text_nil up n : text_layers up n [] []
| text_cons up n line lines made up' n' rest : line_layers up n line made up' n' -> text_layers up' n' lines rest ->
    text_layers up n (line :: lines) (made ++ rest).
End Layers.

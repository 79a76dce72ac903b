(** Layer descriptors (src/net/LayerFactory.cpp). *)
From Coq Require Import Ascii String List.
From Verif Require Import Base Str_Model Regex_Model.
Local Open Scope string_scope.
Local Open Scope list_scope.
Local Open Scope nat_scope.

Definition value_char (c : ascii) : bool := is_lower c || is_upper c || is_digit c || Ascii.eqb c ".".

(** Lines 27-41: ^[a-z]+(\(([a-z]+=[a-zA-Z0-9\.]+( [a-z]+=[a-zA-Z0-9\.]+)* )?\))?$ *)
Definition pair_re : regex := RSeq (RPlus (RChar is_lower)) (RSeq (RLit (s_ "=")) (RPlus (RChar value_char))).
Definition valid_descriptor_re : regex :=
  RSeq (RPlus (RChar is_lower))
       (ROpt (RSeq (RLit (s_ "(")) (RSeq (ROpt (RSeq pair_re (RStar (RSeq (RLit (s_ " ")) pair_re)))) (RLit (s_ ")"))))).
Definition is_valid_descriptor (descriptor : str) : bool := rmatch valid_descriptor_re descriptor.

(** Lines 43-57: [a-z]+\((.+)\) *)
Definition extract_configuration (descriptor : str) : str :=
  match match_group (RSeq (RPlus (RChar is_lower)) (RLit (s_ "("))) (RPlus RAny) (RLit (s_ ")")) descriptor with
  | Some g => g
  | None => []
  end.

(** Lines 59-73: ([a-z]+)(\(.*\))? *)
Definition extract_layer_type (descriptor : str) : str :=
  match match_group REps (RPlus (RChar is_lower)) (ROpt (RSeq (RLit (s_ "(")) (RSeq (RStar RAny) (RLit (s_ ")"))))) descriptor with
  | Some g => g
  | None => []
  end.

(** Lines 75-100: which class is constructed; its constructor gets the configuration. *)
Inductive layer_class : Type :=
| ConvolutionC | MaxPoolingC | AdvancedMaxPoolingC | TanhC | SigmoidC | ReLUC | GradientAccumulationC | ResizeC | HMaxC.
Definition str_eqb (a b : str) : bool := starts a b && (length a =? length b).
Definition layer_table : list (str * layer_class) :=
  [ (s_ "convolution", ConvolutionC); (s_ "maxpooling", MaxPoolingC); (s_ "amaxpooling", AdvancedMaxPoolingC); (s_ "tanh", TanhC);
    (s_ "sigm", SigmoidC); (s_ "relu", ReLUC); (s_ "gradientaccumulation", GradientAccumulationC); (s_ "resize", ResizeC); (s_ "hmax", HMaxC) ].
Definition construct_layer (descriptor : str) : option (layer_class * str) :=
  if is_valid_descriptor descriptor then
    let configuration := extract_configuration descriptor in
    let layertype := extract_layer_type descriptor in
    match List.find (fun e => str_eqb layertype (fst e)) layer_table with
    | Some e => Some (snd e, configuration)
    | None => None
    end
  else None.

(** Lines 104-105: .*seed=[0-9]+.* and seed=([0-9])+ *)
Definition new_seed_re : regex := RSeq (RLit (s_ "seed=")) (RPlus (RChar is_digit)).
Definition has_seed_re : regex := RSeq (RStar RAny) (RSeq new_seed_re (RStar RAny)).
(** Lines 102-137; [seed] is an unsigned int. *)
Definition inject_seed (descriptor : str) (seed : Z) : str :=
  if is_valid_descriptor descriptor then
    let configuration := extract_configuration descriptor in
    let layertype := extract_layer_type descriptor in
    let seed_str := s_ "seed=" ++ decimal seed in
    if rmatch has_seed_re configuration then regex_replace new_seed_re seed_str descriptor
    else layertype ++ s_ "(" ++ (if 0 <? length configuration then configuration ++ s_ " " else []) ++ seed_str ++ s_ ")"
  else descriptor.

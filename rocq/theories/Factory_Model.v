(** ConfigurableFactory::AddLayers (src/factory/ConfigurableFactory.cpp:148-502): from the text of a
    network configuration to a network.  Fields of the factory: see [factory] in Receptive_Model.

    Simplifications: datum values are of any type and their extraction from a std::stringstream is a
    function [read_datum]; [rand] gives the values of the std::mt19937 seeded with seed_; log output is
    left out; a layer is described by the arguments of its constructor.  Nodes are kept as in Graph_Model. *)
From Coq Require Import Ascii String List.
From Verif Require Import Base Str_Model Config_Model Graph_Model Receptive_Model.
Local Open Scope string_scope.
Local Open Scope list_scope.
Local Open Scope nat_scope.

Section Factory.
Context {D : Type} (read_datum : str -> D) (d0 d1 : D) (rand : nat -> Z).

(** The layers AddLayers creates, with the arguments of their constructors. *)
Inductive layer : Type :=
| LResize (borderx bordery : Z)
| LConvolution (kx ky k stridex stridey padx pady group seed : Z) (dropout llr : D)
| LNormalization (across : bool) (size : Z) (alpha beta : D)
| LMaxPooling (kx ky : Z)
| LDownSampling (kx ky : Z)
| LAdvancedMaxPooling (kx ky sx sy : Z)
| LSigmoid
| LHMax (mu loss_weight : D)
| LReLU
| LTanh
| LUpscale (fx fy : Z)
| LConcatenation
| LSum
| LError (loss_weight : D).

(** The base classes of the layers: HMaxActivationFunction.h:27 and ErrorLayer.h:26 are loss functions,
    none is a StatLayer, a TrainingLayer or a GradientAccumulationLayer. *)
Definition kind_of (l : layer) : layer_kind :=
  match l with
  | LHMax _ _ | LError _ => mkKind false true false false
  | _ => mkKind false false false false
  end.
(** SimpleLayer.cpp:48-52, ConcatenationLayer.h:32-36, SumLayer.h:32-36: one output; Layer.h:122
    (ErrorLayer): none. *)
Definition buffers_of (l : layer) : nat := match l with LError _ => 0 | _ => 1 end.

(** The local variables of AddLayers.  The stacks have the top in front; [f_made] lists the created
    layers with their nodes; [f_draws] counts the random numbers taken; [f_out] is is_output of the
    current line. *)
Record fstate : Type := mkF {
  f_graph : graph; f_last : connection; f_a : list connection; f_b : list connection;
  f_up : bool; f_draws : nat; f_made : list (nat * layer); f_out : bool }.

(** new NetGraphNode(layer, ...), the assignment to is_output and net.AddNode (NetGraphNode.h:32-41). *)
Definition new_node (st : fstate) (l : layer) (inputs : list connection) (is_output : bool) : res (nat * fstate) :=
  let p := length (heap (f_graph st)) in
  let nd := mkNode (Some (kind_of l)) inputs [] (buffers_of l) "" is_output false in
  g <- add_node (with_heap (f_graph st) (heap (f_graph st) ++ [nd])) (Some p) ;;
  Ok (p, mkF g (f_last st) (f_a st) (f_b st) (f_up st) (f_draws st) (f_made st ++ [(p, l)]) (f_out st)).
Definition set_last (st : fstate) (c : connection) : fstate :=
  mkF (f_graph st) c (f_a st) (f_b st) (f_up st) (f_draws st) (f_made st) (f_out st).
Definition set_up (st : fstate) : fstate :=
  mkF (f_graph st) (f_last st) (f_a st) (f_b st) true (f_draws st) (f_made st) (f_out st).
Definition set_out (st : fstate) (o : bool) : fstate :=
  mkF (f_graph st) (f_last st) (f_a st) (f_b st) (f_up st) (f_draws st) (f_made st) o.
Definition draw (st : fstate) : fstate :=
  mkF (f_graph st) (f_last st) (f_a st) (f_b st) (f_up st) (S (f_draws st)) (f_made st) (f_out st).

(** A node whose output becomes last_connection (for instance lines 260-264). *)
Definition add_last (st : fstate) (l : layer) (inputs : list connection) (is_output backprop : bool) : res fstate :=
  r <- new_node st l inputs is_output ;;
  let '(p, st1) := r in
  Ok (set_last st1 (mkConn (Some p) 0 backprop)).
(** ... with last_connection as its only input. *)
Definition add_behind (st : fstate) (l : layer) (is_output backprop : bool) : res fstate :=
  add_last st l [f_last st] is_output backprop.

(** Lines 158-161 and 223-238: arrays of 64 connections. *)
Definition capacity : nat := 64.
Definition push (s : list connection) (c : connection) : res (list connection) :=
  if length s <? capacity then Ok (c :: s) else UB.
Definition pop (s : list connection) : res (connection * list connection) :=
  match s with c :: s' => Ok (c, s') | [] => UB end.

(** Lines 223-225, 227-229, 231-233, 235-237. *)
Definition push_a (line : str) (st : fstate) : res fstate :=
  if compare0 line (s_ "pusha") then
    s <- push (f_a st) (f_last st) ;;
    Ok (mkF (f_graph st) (f_last st) s (f_b st) (f_up st) (f_draws st) (f_made st) (f_out st))
  else Ok st.
Definition push_b (line : str) (st : fstate) : res fstate :=
  if compare0 line (s_ "pushb") then
    s <- push (f_b st) (f_last st) ;;
    Ok (mkF (f_graph st) (f_last st) (f_a st) s (f_up st) (f_draws st) (f_made st) (f_out st))
  else Ok st.
Definition pop_a (line : str) (st : fstate) : res fstate :=
  if compare0 line (s_ "popa") then
    r <- pop (f_a st) ;;
    Ok (mkF (f_graph st) (fst r) (snd r) (f_b st) (f_up st) (f_draws st) (f_made st) (f_out st))
  else Ok st.
Definition pop_b (line : str) (st : fstate) : res fstate :=
  if compare0 line (s_ "popb") then
    r <- pop (f_b st) ;;
    Ok (mkF (f_graph st) (fst r) (f_a st) (snd r) (f_up st) (f_draws st) (f_made st) (f_out st))
  else Ok st.

Section Call.
(** The fields of the factory and the arguments of AddLayers. *)
Variables (cfg : geo) (data : connection) (classes : Z) (add_loss_layer : bool).
Definition fcn : bool := negb (g_patch cfg).
Definition factorx : Z := a_factor (g_x cfg).
Definition factory_ : Z := a_factor (g_y cfg).

(** sprintf(buf, "%d", output_classes): the bits of the unsigned int are printed as an int. *)
Definition print_int (z : Z) : str := if (z <? 0)%Z then "-"%char :: decimal (- z) else decimal z.

(** Lines 190-194. *)
Definition fill_outputs (line : str) : res str :=
  match find (s_ "(o)") line 0 with Some pos => replace line pos 3 (print_int (to_int classes)) | None => Ok line end.
(** Lines 197-200: replace(npos, ...) throws. *)
Definition fill_connected (line : str) : res str :=
  match find (s_ "fullyconnected") line 0 with
  | Some pos =>
    l <- replace line pos 14 (s_ "convolutional size=1x1") ;;
    match find (s_ "neurons=") l 0 with Some q => replace l q 8 (s_ "kernels=") | None => Fatal end
  | None => Ok line
  end.
(** Lines 202-207. *)
Definition drop_flatten (line : str) : str :=
  if fcn then match find (s_ "flatten") line 0 with Some _ => [] | None => line end else line.
(** Lines 209-218: the line, loss_weight and is_output. *)
Definition read_output (line : str) : res (str * D * bool) :=
  if compare0 line (s_ "?output") then
    w <- parse_datum_param read_datum line (s_ "weight") d1 ;;
    Ok (if (classes =? 1)%Z then s_ "?tanh" else s_ "?sigm", w, true)
  else Ok (line, d1, false).

(** Lines 247-258 and the constructor of ConvolutionLayer (ConvolutionLayer.cpp:30-70). *)
Definition make_convolution (line : str) (seed : Z) : res layer :=
  size <- parse_kernel_size line (s_ "size") 1 1 ;;
  stride <- parse_kernel_size line (s_ "stride") 1 1 ;;
  pad <- parse_kernel_size line (s_ "pad") 0 0 ;;
  k <- parse_count line (s_ "kernels") 1 ;;
  group <- parse_count line (s_ "group") 1 ;;
  dropout <- parse_datum_param read_datum line (s_ "dropout") d0 ;;
  llr <- parse_datum_param read_datum line (s_ "llr") d1 ;;
  if ((fst size =? 0) || (snd size =? 0))%Z then Fatal else
  if ((fst stride =? 0) || (snd stride =? 0))%Z then Fatal else
  if (group =? 0)%Z then UB else
  if negb (k mod group =? 0)%Z then Fatal else
  Ok (LConvolution (fst size) (snd size) k (fst stride) (snd stride) (fst pad) (snd pad) group seed dropout llr).
(** Lines 243-265. *)
Definition on_convolution (line : str) (st : fstate) : res fstate :=
  if starts_with_identifier line (s_ "convolutional") then
    l <- make_convolution line (rand (f_draws st)) ;; add_behind (draw st) l false true
  else Ok st.
(** Lines 267-292. *)
Definition make_normalization (line : str) : res layer :=
  method <- parse_string_param line (s_ "method") [] ;;
  across <- (if compare0 method (s_ "across") then Ok true else if compare0 method (s_ "within") then Ok false else Fatal) ;;
  size <- parse_count line (s_ "size") 1 ;;
  alpha <- parse_datum_param read_datum line (s_ "alpha") d1 ;;
  beta <- parse_datum_param read_datum line (s_ "beta") d1 ;;
  Ok (LNormalization across size alpha beta).
Definition on_normalization (line : str) (st : fstate) : res fstate :=
  if starts_with_identifier line (s_ "lrn") then l <- make_normalization line ;; add_behind st l false true else Ok st.
(** Lines 294-305. *)
Definition on_maxpooling (line : str) (st : fstate) : res fstate :=
  if starts_with_identifier line (s_ "maxpooling") then
    k <- parse_kernel_size line (s_ "size") 1 1 ;; add_behind st (LMaxPooling (fst k) (snd k)) false true
  else Ok st.
(** Lines 307-318. *)
Definition on_downsampling (line : str) (st : fstate) : res fstate :=
  if starts_with_identifier line (s_ "downsampling") then
    k <- parse_kernel_size line (s_ "size") 1 1 ;; add_behind st (LDownSampling (fst k) (snd k)) false false
  else Ok st.
(** Lines 320-333. *)
Definition on_amaxpooling (line : str) (st : fstate) : res fstate :=
  if starts_with_identifier line (s_ "amaxpooling") then
    k <- parse_kernel_size line (s_ "size") 1 1 ;;
    s <- parse_kernel_size line (s_ "stride") (fst k) (snd k) ;;
    add_behind st (LAdvancedMaxPooling (fst k) (snd k) (fst s) (snd s)) false true
  else Ok st.
(** Lines 335-343, 360-368 and 370-378. *)
Definition on_activation (identifier : str) (l : layer) (line : str) (st : fstate) : res fstate :=
  if starts_with_identifier line identifier then add_behind st l (f_out st && (g_patch cfg || f_up st)) true else Ok st.
(** Lines 345-358. *)
Definition on_hmax (line : str) (st : fstate) : res fstate :=
  if starts_with_identifier line (s_ "hmax") then
    mu <- parse_datum_param read_datum line (s_ "mu") d1 ;;
    w <- parse_datum_param read_datum line (s_ "weight") d0 ;;
    add_behind st (LHMax mu w) (f_out st && (g_patch cfg || f_up st)) true
  else Ok st.
(** Lines 380-400.  The factors are converted to unsigned int by the constructor of UpscaleLayer. *)
Definition on_prior (line : str) (st : fstate) : res fstate :=
  if starts_with_identifier line (s_ "spatialprior") then
    st1 <- (if negb (f_up st) && fcn
            then s <- add_behind st (LUpscale (to_uint factorx) (to_uint factory_)) false true ;; Ok (set_up s)
            else Ok st) ;;
    add_last st1 LConcatenation [f_last st1; mkConn (c_node data) 2 false] false true
  else Ok st.
(** Lines 402-424 and 426-448. *)
Definition on_stack (identifier : str) (l : layer) (line : str) (st : fstate) : res fstate :=
  if starts_with_identifier line identifier then
    name <- parse_string_param line (s_ "stack") [] ;;
    add_last st l (if compare0 name (s_ "b") then f_b st else f_a st) false true
  else Ok st.
(** Lines 450-465. *)
Definition on_upscale (line : str) (st : fstate) : res fstate :=
  if starts_with_identifier line (s_ "upscale") then
    u <- parse_kernel_size line (s_ "factor") 1 1 ;;
    o <- parse_count line (s_ "is_output") 0 ;;
    s <- add_behind st (LUpscale (fst u) (snd u)) (o =? 1)%Z true ;;
    Ok (set_up (set_out s (o =? 1)%Z))
  else Ok st.
(** Lines 467-477. *)
Definition final_upscale (st : fstate) : res fstate :=
  if f_out st && negb (f_up st) && fcn && (negb (factorx =? 1)%Z || negb (factory_ =? 1)%Z)
  then add_behind st (LUpscale (to_uint factorx) (to_uint factory_)) true true
  else Ok st.
(** Lines 479-496 and CreateLossLayer (148-151). *)
Definition add_loss (weight : D) (st : fstate) : res fstate :=
  if f_out st && add_loss_layer then
    r <- new_node st (LError weight)
           [mkConn (c_node (f_last st)) 0 true; mkConn (c_node data) 1 (c_backprop data); mkConn (c_node data) 3 (c_backprop data)] false ;;
    Ok (snd r)
  else Ok st.

(** Lines 243-496. *)
Definition read_layer_line (weight : D) (line : str) (st : fstate) : res fstate :=
  st <- on_convolution line st ;;
  st <- on_normalization line st ;;
  st <- on_maxpooling line st ;;
  st <- on_downsampling line st ;;
  st <- on_amaxpooling line st ;;
  st <- on_activation (s_ "sigm") LSigmoid line st ;;
  st <- on_hmax line st ;;
  st <- on_activation (s_ "relu") LReLU line st ;;
  st <- on_activation (s_ "tanh") LTanh line st ;;
  st <- on_prior line st ;;
  st <- on_stack (s_ "concat") LConcatenation line st ;;
  st <- on_stack (s_ "sum") LSum line st ;;
  st <- on_upscale line st ;;
  st <- final_upscale st ;;
  add_loss weight st.

(** Lines 177-499: one line. *)
Definition read_config_line (st : fstate) (line0 : str) : res fstate :=
  if compare0 line0 (s_ "#") then Ok st else
  line1 <- fill_outputs line0 ;;
  line2 <- fill_connected line1 ;;
  r <- read_output (drop_flatten line2) ;;
  let '(line, weight, out) := r in
  let st := set_out st out in
  st <- push_a line st ;;
  st <- push_b line st ;;
  st <- pop_a line st ;;
  st <- pop_b line st ;;
  if compare0 line (s_ "?") then l <- substr line 1 ;; read_layer_line weight l st else Ok st.

(** Lines 154-175. *)
Definition start (g : graph) : res fstate :=
  let st := mkF g data [] [] ((factorx =? 1) && (factory_ =? 1))%Z 0 [] false in
  if fcn && ((0 <? a_rf (g_x cfg)) && (0 <? a_rf (g_y cfg)))%Z
  then add_behind st (LResize (a_rf (g_x cfg)) (a_rf (g_y cfg))) false false
  else Ok st.

(** Lines 153-502: the local variables at the end and the result. *)
Definition add_layers (text : str) (g : graph) : res (fstate * bool) :=
  st0 <- start g ;;
  st <- foldm read_config_line (lines_of text) st0 ;;
  b <- is_complete (f_graph st) ;;
  Ok (st, b).
End Call.
End Factory.

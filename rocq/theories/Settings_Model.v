(** ConfigurableFactory::InitOptimalSettings (src/factory/ConfigurableFactory.cpp:504-535): the training settings in
    a network configuration.  The file is the list of the lines that std::getline returns. *)
From Coq Require Import Ascii String.
From Verif Require Import Base Str_Model Config_Model.
Local Open Scope list_scope.
Local Open Scope nat_scope.

Section Settings.
Context {D : Type} (read_datum : str -> D) (zero : D).

Inductive method : Type := GradientDescent | QuickProp.
(** Trainer.h:33-50; epoch_training_ratio, testing_ratio and stats_during_training cannot be set. *)
Record options : Type := mkOptions {
  o_lr : D; o_l1 : D; o_l2 : D; o_exponent : D; o_gamma : D; o_momentum : D; o_mu : D; o_eta : D;
  o_method : method; o_pbatchsize : Z; o_sbatchsize : Z; o_iterations : Z }.

(** Lines 508-533: one line. *)
Definition settings_line (o : options) (line : str) : res options :=
  if compare0 line (s_ "#") then Ok o else
  let datum name value := parse_datum_if_possible read_datum zero line (s_ name) value in
  let uint name value := parse_uint_if_possible line (s_ name) value in
  l1 <- datum "l1"%string (o_l1 o) ;;
  l2 <- datum "l2"%string (o_l2 o) ;;
  lr <- datum "lr"%string (o_lr o) ;;
  gamma <- datum "gamma"%string (o_gamma o) ;;
  momentum <- datum "momentum"%string (o_momentum o) ;;
  exponent <- datum "exponent"%string (o_exponent o) ;;
  eta <- datum "eta"%string (o_eta o) ;;
  mu <- datum "mu"%string (o_mu o) ;;
  iterations <- uint "iterations"%string (o_iterations o) ;;
  sbatchsize <- uint "sbatchsize"%string (o_sbatchsize o) ;;
  pbatchsize <- uint "pbatchsize"%string (o_pbatchsize o) ;;
  m <- parse_string_if_possible line (s_ "optimization") [] ;;
  let me := if compare0 m (s_ "gradient_descent") then GradientDescent
            else if compare0 m (s_ "quickprop") then QuickProp else o_method o in
  Ok (mkOptions lr l1 l2 exponent gamma momentum mu eta me pbatchsize sbatchsize iterations).

Definition init_settings (lines : list str) (o : options) : res options := foldm settings_line lines o.
End Settings.
Arguments options : clear implicits.

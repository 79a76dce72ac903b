(** What C79 talks about: configurations without branches, and the sizes their layers make. *)
From Coq Require Import String List.
From Verif Require Import Base Str_Model Graph_Model Receptive_Model Receptive_Spec Factory_Model Factory_Spec FactoryLayers_Spec Hybrid_Model Hybrid_Spec.
Local Open Scope string_scope.
Local Open Scope list_scope.
Local Open Scope nat_scope.

Section Sizes.
Context {D : Type}.
Notation layer := (@layer D).
Notation span := (option (slayer * slayer)).

(** What a layer does to the width and height (see Receptive_Spec). *)
Definition span_of (l : layer) : span :=
  match l with
  | LConvolution kx ky _ sx sy px py _ _ _ _ =>
    Some (SConv (Z.to_nat kx) (Z.to_nat sx) (Z.to_nat px), SConv (Z.to_nat ky) (Z.to_nat sy) (Z.to_nat py))
  | LMaxPooling kx ky | LDownSampling kx ky => Some (SPool (Z.to_nat kx), SPool (Z.to_nat ky))
  | LAdvancedMaxPooling kx ky sx sy => Some (SAPool (Z.to_nat kx) (Z.to_nat sx), SAPool (Z.to_nat ky) (Z.to_nat sy))
  | _ => None
  end.
(** A convolution with kernels of one pixel, as in a fully connected layer. *)
Definition pixelwise : span := Some (SConv 1 1 0, SConv 1 1 0).
(** The layers of a line do to the size what the line says. *)
Definition agrees_with (made : list layer) (o : span) : Prop :=
  match o with
  | Some xy => exists l, made = [l] /\ span_of l = Some xy
  | None => Forall (fun l => span_of l = None \/ span_of l = pixelwise) made
  end.

(** The number of channels behind the layers; [helper]: the number of channels a spatial prior adds. *)
Fixpoint channels (helper : Z) (ls : list layer) (m : Z) : option Z :=
  match ls with
  | [] => Some m
  | LConvolution _ _ k _ _ _ _ group _ _ _ :: r => if (m mod group =? 0)%Z then channels helper r k else None
  | LConcatenation :: r => channels helper r (m + helper)
  | _ :: r => channels helper r m
  end.

(** Layers with one input, other than borders and magnification. *)
Definition inner (l : layer) : Prop :=
  match l with LResize _ _ | LUpscale _ _ | LConcatenation | LSum | LError _ => False | _ => True end.

Variables (read_datum : str -> D) (d0 d1 : D) (rand : nat -> Z) (whole : bool) (fx fy classes : Z).
Notation line_layers := (line_layers read_datum d0 d1 rand whole fx fy classes true).

(** Lines with their layers and what they do to the size ([up] and the numbers: see FactoryLayers_Spec). *)
Inductive planned (P : bool -> list layer -> span -> Prop) : bool -> nat -> list str -> list span -> list layer -> bool -> nat -> Prop :=
| planned_nil up n : planned P up n [] [] [] up n
| planned_cons up n line made up1 n1 o lines os rest up2 n2 :
    line_layers up n line made up1 n1 -> Receptive_Spec.describes line o -> agrees_with made o -> P up made o ->
    planned P up1 n1 lines os rest up2 n2 -> planned P up n (line :: lines) (o :: os) (made ++ rest) up2 n2.
(** Lines before the first spatial prior ... *)
Definition early (up : bool) (made : list layer) (o : span) : Prop := Forall inner made.
(** ... and behind: spatial priors and layers that leave the size alone. *)
Definition late (up : bool) (made : list layer) (o : span) : Prop :=
  (o = None \/ o = pixelwise) /\
  (Forall inner made \/ made = (if whole && negb up then [LUpscale fx fy] else []) ++ [LConcatenation]).

(** The lines of a configuration without branches: layers, optionally spatial priors, one output line at the end.
    [body] are the layers before the output line. *)
Inductive straight (lines : list str) (os : list span) (body : list layer) : Prop :=
| straight_intro first second out rest os1 os2 m1 m2 up1 n1 up2 n2 w :
    lines = first ++ second ++ out :: rest -> os = os1 ++ os2 ++ None :: map (fun _ => None) rest -> body = m1 ++ m2 ->
    Forall (fun l => ~ stack_command l /\ ~ collects l) lines ->
    planned early ((fx =? 1) && (fy =? 1))%Z 0 first os1 m1 up1 n1 -> planned late up1 n1 second os2 m2 up2 n2 ->
    output_line out -> unmarked out ->
    line_layers up2 n2 out ((if (classes =? 1)%Z then LTanh else LSigmoid) :: (if whole && negb up2 && negb ((fx =? 1) && (fy =? 1))%Z then [LUpscale fx fy] else []) ++ [LError w]) up2 n2 ->
    Forall (fun l => line_layers up2 n2 l [] up2 n2 /\ Receptive_Spec.describes l None) rest ->
    straight lines os body.
End Sizes.

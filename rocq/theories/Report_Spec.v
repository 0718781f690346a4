(** Vocabulary for the report and the command line of the kinematics converter,
    independent of how the code writes them. *)
From Coq Require Import List Reals String.
From Verif Require Import PyBase Kin_Model Kin_Spec Report_Model.
Import ListNotations.
Open Scope string_scope.

(** A text contains a line. *)
Definition has_line (text line : string) : Prop :=
  exists before after, text = before ++ nl ++ "        " ++ line ++ nl ++ after.

(** The name of each quantity in the report. *)
Definition title (k : kind) : string :=
  match k with
  | Kmomentum => "momentum" | Kvelocity => "velocity" | Kenergy => "energy"
  | Kkenergy => "kinetic energy" | Kbetagamma => "beta * gamma" | Kbrho => "Brho"
  | Kbeta => "beta" | Kgamma => "gamma"
  end.

(** The unit in which a quantity is expressed, after a space; pure numbers have none. *)
Definition unit_text (u : unit_name) (k : kind) : string :=
  match k with
  | Kmomentum => match u with USI => " kg * m/s" | _ => " eV/c" end
  | Kenergy | Kkenergy => match u with USI => " J" | _ => " eV" end
  | Kvelocity => " m/s"
  | Kbrho => " T*m"
  | _ => ""
  end.

Definition mass_unit_text (u : unit_name) : string :=
  match u with USI => "kg" | _ => "eV/c^2" end.

(** How the sentence about the input writes the unit: none for Brho, and the SI
    momentum without spaces. *)
Definition input_unit_text (u : unit_name) (k : kind) : string :=
  match k with
  | Kmomentum => match u with USI => "kg*m/s" | _ => "eV/c" end
  | Kenergy | Kkenergy => match u with USI => "J" | _ => "eV" end
  | Kvelocity => "m/s"
  | _ => ""
  end.

(** Quantities whose SI unit is not the eV-based one. *)
Definition rescaled (k : kind) : bool :=
  match k with Kmomentum | Kenergy | Kkenergy => true | _ => false end.

(** A setting of the command line: the options that set it, the last one counts. *)
Definition last_set {A} (sets : cli_option -> option A) (l : list cli_option) (v : A) : Prop :=
  exists l1 o l2, l = (l1 ++ o :: l2)%list /\ sets o = Some v /\ Forall (fun o' => sets o' = None) l2.
Definition never_set {A} (sets : cli_option -> option A) (l : list cli_option) : Prop :=
  Forall (fun o => sets o = None) l.
Definition setting {A} (sets : cli_option -> option A) (l : list cli_option) (v : option A) : Prop :=
  match v with Some x => last_set sets l x | None => never_set sets l end.
Definition setting_or {A} (sets : cli_option -> option A) (l : list cli_option) (default v : A) : Prop :=
  last_set sets l v \/ (never_set sets l /\ v = default).

Definition names_quantity (k : kind) (o : cli_option) : option R :=
  match o with
  | Quantity k' v => if string_dec (key k) (key k') then Some v else None
  | _ => None
  end.
Definition names_mass (o : cli_option) : option R :=
  match o with Mass m => Some m | _ => None end.
Definition names_mass_unit (o : cli_option) : option unit_name :=
  match o with MassUnit u => Some u | _ => None end.
Definition names_input_unit (o : cli_option) : option unit_name :=
  match o with InputUnit u => Some u | _ => None end.
Definition names_output_unit (o : cli_option) : option unit_name :=
  match o with OutputUnit u => Some u | _ => None end.

(** A command line the program's help describes: known options, units SI or eV,
    and one and only one of the eight quantities. *)
Definition proper_option (o : cli_option) : Prop :=
  match o with
  | MassUnit u | InputUnit u | OutputUnit u => proper_unit u
  | Unknown => False
  | _ => True
  end.
Definition proper_line (l : list cli_option) : Prop :=
  Forall proper_option l /\
  exists k, (exists v, In (Quantity k v) l) /\ forall k' v', In (Quantity k' v') l -> k' = k.

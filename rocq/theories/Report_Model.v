(** Model of the printed report and the command line of
    rsbeams/rsstats/kinematic.py.  The numbers are those of Kin_Model.v; here are
    the labels of the result dictionary, the text that is printed, the argparse
    parser and main().  Simplification: how a float is written as text is the
    parameter [show]; the command line is the list of its options with their
    numbers already read (argparse's splitting of words, its abbreviations and
    its usage messages are not modelled). *)
From Coq Require Import List Reals Bool String Ascii.
From Verif Require Import PyBase Kin_Model.
Import ListNotations.
Open Scope string_scope.

(** Python: string * bool, used in kinematic.py 109-114 and 150-159. *)
Definition times (s : string) (b : bool) : string := if b then s else "".

(** kinematic.py 20-27, 91-98: the names of the quantities as dictionary keys. *)
Definition key (k : kind) : string :=
  match k with
  | Kmomentum => "momentum" | Kvelocity => "velocity" | Kenergy => "energy"
  | Kkenergy => "kenergy" | Kbetagamma => "betagamma" | Kbrho => "brho"
  | Kbeta => "beta" | Kgamma => "gamma"
  end.

(** kinematic.py 109-110: outputs['p_unit'] *)
Definition p_unit (a : kargs) : string :=
  times "eV/c" (unit_eqb (a_output_unit a) UeV) ++
  times "kg * m/s" (unit_eqb (a_output_unit a) USI).

(** kinematic.py 111: outputs['e_unit'] *)
Definition e_unit (a : kargs) : string :=
  times "eV" (unit_eqb (a_output_unit a) UeV) ++
  times "J" (unit_eqb (a_output_unit a) USI).

(** kinematic.py 113-114: outputs['mass_unit'] *)
Definition mass_unit (a : kargs) : string :=
  times "eV/c^2" (unit_eqb (a_mass_unit a) UeV) ++
  times "kg" (unit_eqb (a_mass_unit a) USI).

(** kinematic.py 149-160: outputs['input_unit'], from the key of the input. *)
Definition input_unit (a : kargs) (typ : string) : string :=
  if unit_eqb (a_input_unit a) UeV then
    times "eV" (typ =? "energy") ++ times "eV" (typ =? "kenergy") ++
    times "eV/c" (typ =? "momentum") ++ times "m/s" (typ =? "velocity") ++ ""
  else
    times "J" (typ =? "energy") ++ times "J" (typ =? "kenergy") ++
    times "kg*m/s" (typ =? "momentum") ++ times "" (typ =? "beta") ++
    times "m/s" (typ =? "velocity") ++ "".

(** The line break. *)
Definition nl : string := String (Ascii.ascii_of_nat 10) "".

Section Text.
  (** str.format of a float *)
  Variable show : fl -> string.

  (** A slot of the dictionary as text; [__call__] leaves no method in it. *)
  Definition slot_text (s : slot) : string :=
    match s with Value v => show v | Method => "<bound method>" end.

  Definition opt_text (v : option fl) : string :=
    match v with Some x => show x | None => "None" end.

  (** kinematic.py 167-179, 184: print_string.format applied to the dictionary. *)
  Definition report_text (cv : converter) : string :=
    let a := cv_args cv in
    let o := cv_out cv in
    let typ := match o_input_type o with Some k => key k | None => "None" end in
    nl ++
    "        Based on an input " ++ typ ++ " of " ++
      match o_input o with Some v => show (Some v) | None => "None" end ++ " " ++
      input_unit a typ ++ nl ++
    "        For a particle with mass: " ++ show (Some (o_mass o)) ++ " " ++ mass_unit a ++ nl ++
    "        " ++ nl ++
    "        velocity: " ++ slot_text (o_derived o Dvelocity) ++ " m/s" ++ nl ++
    "        beta: " ++ opt_text (o_beta o) ++ nl ++
    "        gamma: " ++ opt_text (o_gamma o) ++ nl ++
    "        momentum: " ++ slot_text (o_derived o Dmomentum) ++ " " ++ p_unit a ++ nl ++
    "        beta * gamma: " ++ slot_text (o_derived o Dbetagamma) ++ nl ++
    "        energy: " ++ slot_text (o_derived o Denergy) ++ " " ++ e_unit a ++ nl ++
    "        kinetic energy: " ++ slot_text (o_derived o Dkenergy) ++ " " ++ e_unit a ++ nl ++
    "        Brho: " ++ slot_text (o_derived o Dbrho) ++ " T*m" ++ nl ++
    "        ".

  (** kinematic.py 137, 180-186: __call__ with its print; [Some] text is printed
      unless silent. *)
  Definition call_printing (K : consts) (silent : bool) (cv : converter)
    : res (converter * option string) :=
    do cv1 <- call K cv;
    Ok (cv1, if silent then None else Some (report_text cv1)).

  (** kinematic.py 19-46: the options of the command line. *)
  Inductive cli_option :=
  | Quantity (k : kind) (v : R)
  | Mass (m : R)
  | MassUnit (u : unit_name)
  | InputUnit (u : unit_name)
  | OutputUnit (u : unit_name)
  | Unknown.

  (** kinematic.py 32, 37, 42: choices=["SI", "eV"] *)
  Definition choice (u : unit_name) : option unit_name :=
    match u with Uother => None | _ => Some u end.

  Definition kind_eqb (a b : kind) : bool := key a =? key b.

  Definition set_val (a : kargs) (k : kind) (v : R) : kargs :=
    {| a_val := fun k' => if kind_eqb k' k then Some v else a_val a k';
       a_mass := a_mass a; a_mass_unit := a_mass_unit a;
       a_input_unit := a_input_unit a; a_output_unit := a_output_unit a |}.
  Definition set_mass (a : kargs) (m : R) : kargs :=
    {| a_val := a_val a; a_mass := Some m; a_mass_unit := a_mass_unit a;
       a_input_unit := a_input_unit a; a_output_unit := a_output_unit a |}.
  Definition set_mass_unit (a : kargs) (u : unit_name) : kargs :=
    {| a_val := a_val a; a_mass := a_mass a; a_mass_unit := u;
       a_input_unit := a_input_unit a; a_output_unit := a_output_unit a |}.
  Definition set_input_unit (a : kargs) (u : unit_name) : kargs :=
    {| a_val := a_val a; a_mass := a_mass a; a_mass_unit := a_mass_unit a;
       a_input_unit := u; a_output_unit := a_output_unit a |}.
  Definition set_output_unit (a : kargs) (u : unit_name) : kargs :=
    {| a_val := a_val a; a_mass := a_mass a; a_mass_unit := a_mass_unit a;
       a_input_unit := a_input_unit a; a_output_unit := u |}.

  (** argparse, take_action: an option of the mutually exclusive group (19) is
      refused when another option of the group was seen; every option stores its
      value (the default action "store"), so a repeated one replaces it.  A
      refusal is [None]: argparse exits with status 2. *)
  Definition take (o : cli_option) (a : kargs) : option kargs :=
    match o with
    | Quantity k v =>
        if existsb (fun k' => negb (kind_eqb k' k) &&
                              match a_val a k' with Some _ => true | None => false end)
                   all_kinds
        then None else Some (set_val a k v)
    | Mass m => Some (set_mass a m)
    | MassUnit u => option_map (set_mass_unit a) (choice u)
    | InputUnit u => option_map (set_input_unit a) (choice u)
    | OutputUnit u => option_map (set_output_unit a) (choice u)
    | Unknown => None
    end.

  Fixpoint take_all (l : list cli_option) (a : kargs) : option kargs :=
    match l with
    | [] => Some a
    | o :: l' => match take o a with Some a' => take_all l' a' | None => None end
    end.

  (** The defaults of the options: None for numbers (20-30), eV for units. *)
  Definition no_options : kargs :=
    {| a_val := fun _ => None; a_mass := None; a_mass_unit := UeV;
       a_input_unit := UeV; a_output_unit := UeV |}.

  (** kinematic.py 74 with 19: parse_args; the group is required. *)
  Definition parse_args (l : list cli_option) : option kargs :=
    match take_all l no_options with
    | None => None
    | Some a => if existsb (fun k => match a_val a k with Some _ => true | None => false end)
                           all_kinds
                then Some a else None
    end.

  (** kinematic.py 73-75, 86-135: the constructor with start_parser: the two
      assertions of the keyword path are not made. *)
  Definition construct_parsed (K : consts) (a : kargs) : converter :=
    let a1 := if unit_eqb (a_input_unit a) USI then convert_args K true a else a in
    let '(m, rep) := choose_mass K a1 in
    {| cv_args := a1; cv_mass := m;
       cv_out := {| o_derived := fun _ => Method; o_beta := None; o_gamma := None;
                    o_mass := rep; o_mass_label := a_mass_unit a1;
                    o_input := None; o_input_type := None |} |}.

  (** What one run of the program does: [Exits] is argparse's exit with status 2,
      [Runs] the outcome of __call__. [helped]: the help text was printed. *)
  Inductive cli_outcome :=
  | Exits (helped : bool)
  | Runs (r : res (converter * option string)).

  (** kinematic.py 305-311 (and 314-319): main *)
  Definition main (K : consts) (l : list cli_option) : cli_outcome :=
    let helped := match l with [] => true | _ => false end in
    match parse_args l with
    | None => Exits helped
    | Some a => Runs (call_printing K false (construct_parsed K a))
    end.
End Text.

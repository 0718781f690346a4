(** Model of rsbeams/rsstats/kinematic.py (class Converter).
    Simplification: Python floats are exact reals; nan and infinities are [None].
    Arguments are assumed to be Python floats (not numpy scalars), so that plain
    divisions by zero raise.  The printed report and argparse are in Report_Model.v. *)
From Coq Require Import List Reals Bool.
From Verif Require Import PyBase.
Import ListNotations.
Open Scope R_scope.

(** kinematic.py 6-11: the scipy constants the module reads: c, e, the electron
    rest energy in eV and the electron mass in kg (CODATA values, kept symbolic). *)
Record consts := mkConsts {
  c_light : R;
  e_charge : R;
  me_ev : R;
  me_kg : R
}.

(** kinematic.py 11: ev_per_kg *)
Definition ev_per_kg (K : consts) : R := me_ev K / me_kg K.

(** kinematic.py 55-57: the eight kinematic keyword arguments. *)
Inductive kind :=
| Kmomentum | Kvelocity | Kenergy | Kkenergy | Kbetagamma | Kbrho | Kbeta | Kgamma.

(** kinematic.py 81: the keys counted by the constructor, in that order. *)
Definition all_kinds : list kind :=
  [Kmomentum; Kvelocity; Kenergy; Kkenergy; Kbetagamma; Kbrho; Kbeta; Kgamma].

(** kinematic.py 57, 78-79: unit arguments; any other string is [Uother]. *)
Inductive unit_name := UeV | USI | Uother.

Definition unit_eqb (a b : unit_name) : bool :=
  match a, b with UeV, UeV | USI, USI | Uother, Uother => true | _, _ => false end.

(** kinematic.py 77: self.args, the dictionary of constructor arguments. *)
Record kargs := mkArgs {
  a_val : kind -> option R;
  a_mass : option R;
  a_mass_unit : unit_name;
  a_input_unit : unit_name;
  a_output_unit : unit_name
}.

(** kinematic.py 293-298: conversion_factors; [None] for keys not in the table. *)
Definition conversion_factor (K : consts) (k : kind) : option R :=
  match k with
  | Kmomentum => Some (1 / e_charge K * c_light K)
  | Kenergy => Some (1 / e_charge K)
  | Kkenergy => Some (1 / e_charge K)
  | _ => None
  end.

Definition mass_factor (K : consts) : R := 1 / e_charge K * c_light K ^ 2.

(** kinematic.py 302: factor ** (2*(input_unit == 'SI') - 1), i.e. power 1 or -1. *)
Definition pow_sign (from_SI : bool) (f : R) : R := if from_SI then f else / f.

(** kinematic.py 291-302 applied to self.args: every entry that is not None and
    has a conversion factor is multiplied, the mass included. *)
Definition convert_args (K : consts) (from_SI : bool) (a : kargs) : kargs :=
  {| a_val := fun k =>
       match a_val a k, conversion_factor K k with
       | Some v, Some f => Some (v * pow_sign from_SI f)
       | x, _ => x
       end;
     a_mass := match a_mass a with
               | Some m => Some (m * pow_sign from_SI (mass_factor K))
               | None => None
               end;
     a_mass_unit := a_mass_unit a;
     a_input_unit := a_input_unit a;
     a_output_unit := a_output_unit a |}.

(** kinematic.py 101-117: entries of self.outputs that start as bound methods. *)
Inductive dkind := Dmomentum | Dvelocity | Denergy | Dkenergy | Dbetagamma | Dbrho.

Definition all_dkinds : list dkind :=
  [Dmomentum; Dvelocity; Denergy; Dkenergy; Dbetagamma; Dbrho].

Definition dkind_eqb (a b : dkind) : bool :=
  match a, b with
  | Dmomentum, Dmomentum | Dvelocity, Dvelocity | Denergy, Denergy
  | Dkenergy, Dkenergy | Dbetagamma, Dbetagamma | Dbrho, Dbrho => true
  | _, _ => false
  end.

(** A derived entry is either still the method or a computed value. *)
Inductive slot := Method | Value (v : fl).

(** kinematic.py 101-117: self.outputs, without the unit label strings except the
    mass unit label. *)
Record outputs := mkOut {
  o_derived : dkind -> slot;
  o_beta : option fl;     (* None: Python None, not yet computed *)
  o_gamma : option fl;
  o_mass : R;
  o_mass_label : unit_name;
  o_input : option R;
  o_input_type : option kind
}.

(** The Converter object: self.args, self.mass, self.outputs. *)
Record converter := mkConv {
  cv_args : kargs;
  cv_mass : R;
  cv_out : outputs
}.

(** kinematic.py 80-83: declaration counter. *)
Definition declaration (a : kargs) : nat :=
  List.length (filter (fun k => match a_val a k with Some _ => true | None => false end)
                      all_kinds).

(** kinematic.py 79 *)
Definition unit_ok (u : unit_name) : bool := unit_eqb u UeV || unit_eqb u USI.

Definition b2r (b : bool) : R := if b then 1 else 0.

(** kinematic.py 120-135: mass in eV/c^2 for internal use and the mass stored for
    the report.  [if self.args['mass']] is false for None and for zero. *)
Definition choose_mass (K : consts) (a : kargs) : R * R :=
  match a_mass_unit a with
  | UeV =>
      match a_mass a with
      | Some m =>
          if Req_EM_T m 0 then (me_ev K, me_ev K)
          else (m * (1 * b2r (unit_eqb (a_input_unit a) UeV)
                     + 1 / ev_per_kg K * b2r (unit_eqb (a_input_unit a) USI)), m)
      | None => (me_ev K, me_ev K)
      end
  | _ =>
      match a_mass a with
      | Some m =>
          (m * (1 * b2r (unit_eqb (a_input_unit a) USI)
                + ev_per_kg K * b2r (unit_eqb (a_input_unit a) UeV)), m)
      | None => (me_ev K, me_ev K / ev_per_kg K)
      end
  end.

(** kinematic.py 55-135: the constructor (keyword path, start_parser=None). *)
Definition construct (K : consts) (a : kargs) : res converter :=
  if negb (unit_ok (a_mass_unit a) && unit_ok (a_input_unit a) && unit_ok (a_output_unit a))
  then Err AssertionError
  else if negb (Nat.eqb (declaration a) 1) then Err AssertionError
  else
    let a1 := if unit_eqb (a_input_unit a) USI then convert_args K true a else a in
    let '(m, rep) := choose_mass K a1 in
    Ok {| cv_args := a1;
          cv_mass := m;
          cv_out := {| o_derived := fun _ => Method;
                       o_beta := None; o_gamma := None;
                       o_mass := rep;
                       o_mass_label := a_mass_unit a1;
                       o_input := None; o_input_type := None |} |}.

(** kinematic.py 189-201 start_velocity *)
Definition start_velocity (K : consts) (v : R) : res (fl * fl) :=
  do beta <- pdiv v (c_light K);
  Ok (Some beta, ndiv (Some 1) (nsqrt (1 - beta ^ 2))).

(** kinematic.py 203-215 start_gamma *)
Definition start_gamma (g : R) : res (fl * fl) :=
  do q <- pdiv 1 (g ^ 2);
  Ok (nsqrt (1 - q), Some g).

(** kinematic.py 217-228 start_beta *)
Definition start_beta (b : R) : res (fl * fl) :=
  Ok (Some b, ndiv (Some 1) (nsqrt (1 - b ^ 2))).

(** kinematic.py 230-242 start_betagamma *)
Definition start_betagamma (bg : R) : res (fl * fl) :=
  let beta := ndiv (Some bg) (nsqrt (1 + bg ^ 2)) in
  Ok (beta,
      match beta with
      | Some b => ndiv (Some 1) (nsqrt (1 - b ^ 2))
      | None => None
      end).

(** kinematic.py 244-249 start_momentum *)
Definition start_momentum (mass p : R) : res (fl * fl) :=
  do np <- pdiv p mass;
  let beta := ndiv (Some np) (nsqrt (1 + np ^ 2)) in
  Ok (beta,
      match beta with
      | Some b => ndiv (Some 1) (nsqrt (1 - b ^ 2))
      | None => None
      end).

(** kinematic.py 251-256 start_energy *)
Definition start_energy (mass en : R) : res (fl * fl) :=
  do gamma <- pdiv en mass;
  do q <- pdiv 1 (gamma ^ 2);
  Ok (nsqrt (1 - q), Some gamma).

(** kinematic.py 258-262 start_kenergy *)
Definition start_kenergy (mass ke : R) : res (fl * fl) :=
  do g0 <- pdiv ke mass;
  let gamma := g0 + 1 in
  do q <- pdiv 1 (gamma ^ 2);
  Ok (nsqrt (1 - q), Some gamma).

(** kinematic.py 264-267 start_brho *)
Definition start_brho (K : consts) (mass brho : R) : res (fl * fl) :=
  start_momentum mass (brho * c_light K).

(** kinematic.py 91-98 self.startup *)
Definition startup (K : consts) (mass : R) (k : kind) (v : R) : res (fl * fl) :=
  match k with
  | Kmomentum => start_momentum mass v
  | Kvelocity => start_velocity K v
  | Kenergy => start_energy mass v
  | Kkenergy => start_kenergy mass v
  | Kbetagamma => start_betagamma v
  | Kbeta => start_beta v
  | Kgamma => start_gamma v
  | Kbrho => start_brho K mass v
  end.

Definition fmul (x y : fl) : fl := fmap2 Rmult x y.

(** kinematic.py 270-289: the calculate_* methods. *)
Definition calculate (K : consts) (mass : R) (beta gamma : fl) (d : dkind) : fl :=
  match d with
  | Dmomentum => fmul (fmul beta gamma) (Some mass)
  | Denergy => fmul gamma (Some mass)
  | Dkenergy => fmul (Some mass) (fmap1 (fun g => g - 1) gamma)
  | Dbetagamma => fmul beta gamma
  | Dvelocity => fmul beta (Some (c_light K))
  | Dbrho => ndiv (fmul (fmul beta gamma) (Some mass)) (Some (c_light K))
  end.

(** kinematic.py 142-146: loop over self.args setting beta and gamma. *)
Fixpoint set_beta_gamma (K : consts) (cv : converter) (ks : list kind) (o : outputs)
  : res outputs :=
  match ks with
  | [] => Ok o
  | k :: ks' =>
      match a_val (cv_args cv) k with
      | None => set_beta_gamma K cv ks' o
      | Some v =>
          do bg <- startup K (cv_mass cv) k v;
          set_beta_gamma K cv ks'
            {| o_derived := o_derived o;
               o_beta := Some (fst bg); o_gamma := Some (snd bg);
               o_mass := o_mass o; o_mass_label := o_mass_label o;
               o_input := Some v; o_input_type := Some k |}
      end
  end.

(** kinematic.py 163-165: entries that are still callable are replaced by their
    value; entries computed by an earlier call are kept. *)
Definition set_derived (K : consts) (mass : R) (o : outputs) : outputs :=
  let beta := match o_beta o with Some b => b | None => None end in
  let gamma := match o_gamma o with Some g => g | None => None end in
  {| o_derived := fun d =>
       match o_derived o d with
       | Method => Value (calculate K mass beta gamma d)
       | Value v => Value v
       end;
     o_beta := o_beta o; o_gamma := o_gamma o;
     o_mass := o_mass o; o_mass_label := o_mass_label o;
     o_input := o_input o; o_input_type := o_input_type o |}.

(** kinematic.py 293-302 applied to self.outputs with input_unit='eV'. *)
Definition out_factor (K : consts) (d : dkind) : option R :=
  match d with
  | Dmomentum => conversion_factor K Kmomentum
  | Denergy => conversion_factor K Kenergy
  | Dkenergy => conversion_factor K Kkenergy
  | _ => None
  end.

Definition convert_outputs (K : consts) (o : outputs) : outputs :=
  {| o_derived := fun d =>
       match o_derived o d, out_factor K d with
       | Value v, Some f => Value (fmap1 (fun x => x * pow_sign false f) v)
       | s, _ => s
       end;
     o_beta := o_beta o; o_gamma := o_gamma o;
     o_mass := o_mass o * pow_sign false (mass_factor K);
     o_mass_label := o_mass_label o;
     o_input := o_input o; o_input_type := o_input_type o |}.

(** kinematic.py 137-186 __call__: returns the object with its new outputs; the
    returned dictionary is [cv_out] of the new state. *)
Definition call (K : consts) (cv : converter) : res converter :=
  do o1 <- set_beta_gamma K cv all_kinds (cv_out cv);
  let o2 := set_derived K (cv_mass cv) o1 in
  let o3 := if unit_eqb (a_output_unit (cv_args cv)) USI then convert_outputs K o2 else o2 in
  Ok {| cv_args := cv_args cv; cv_mass := cv_mass cv; cv_out := o3 |}.

(** Calling the object n times in a row. *)
Fixpoint call_n (K : consts) (n : nat) (cv : converter) : res converter :=
  match n with
  | O => Ok cv
  | S n' => do cv1 <- call_n K n' cv; call K cv1
  end.

(** Vocabulary for the kinematics properties, independent of how the code computes. *)
From Coq Require Import Reals.
From Verif Require Import PyBase Kin_Model.
Open Scope R_scope.

(** The kinematic state of one particle, in eV-based units. *)
Record particle := mkParticle {
  q_beta : R; q_gamma : R;
  q_momentum : R;      (* eV/c *)
  q_energy : R;        (* eV *)
  q_kenergy : R;       (* eV *)
  q_betagamma : R;
  q_velocity : R;      (* m/s *)
  q_brho : R           (* T m *)
}.

(** Special relativity for a particle of rest energy m (eV), speed of light c. *)
Definition relativistic (c m : R) (q : particle) : Prop :=
  -1 < q_beta q < 1 /\
  1 <= q_gamma q /\
  q_gamma q ^ 2 * (1 - q_beta q ^ 2) = 1 /\
  q_betagamma q = q_beta q * q_gamma q /\
  q_momentum q = q_betagamma q * m /\
  q_energy q ^ 2 = q_momentum q ^ 2 + m ^ 2 /\
  0 < q_energy q /\
  q_kenergy q = q_energy q - m /\
  q_velocity q = q_beta q * c /\
  q_brho q * c = q_momentum q.

(** The quantity of a given kind. *)
Definition quantity (q : particle) (k : kind) : R :=
  match k with
  | Kmomentum => q_momentum q | Kvelocity => q_velocity q
  | Kenergy => q_energy q | Kkenergy => q_kenergy q
  | Kbetagamma => q_betagamma q | Kbrho => q_brho q
  | Kbeta => q_beta q | Kgamma => q_gamma q
  end.

(** Values of each kind that a massive particle can have. *)
Definition physical (c m : R) (k : kind) (v : R) : Prop :=
  match k with
  | Kmomentum | Kbetagamma | Kbrho => True
  | Kvelocity => - c < v < c
  | Kbeta => -1 < v < 1
  | Kgamma => 1 <= v
  | Kenergy => m <= v
  | Kkenergy => 0 <= v
  end.

(** Kinds that determine the direction of motion. *)
Definition signed_kind (k : kind) : bool :=
  match k with Kgamma | Kenergy | Kkenergy => false | _ => true end.

(** How many SI units one eV-based unit of a kind is (1 when the unit is the same). *)
Definition si_per_ev (K : consts) (k : kind) : R :=
  match k with
  | Kmomentum => e_charge K / c_light K
  | Kenergy | Kkenergy => e_charge K
  | _ => 1
  end.
Definition in_unit (K : consts) (u : unit_name) (k : kind) (x_ev : R) : R :=
  match u with USI => x_ev * si_per_ev K k | _ => x_ev end.

(** kg per (eV/c^2) *)
Definition kg_per_ev (K : consts) : R := e_charge K / c_light K ^ 2.

(** What the output dictionary says about a kind. *)
Definition reported (o : outputs) (k : kind) : option fl :=
  let d s := match s with Value v => Some v | Method => None end in
  match k with
  | Kmomentum => d (o_derived o Dmomentum) | Kvelocity => d (o_derived o Dvelocity)
  | Kenergy => d (o_derived o Denergy) | Kkenergy => d (o_derived o Dkenergy)
  | Kbetagamma => d (o_derived o Dbetagamma) | Kbrho => d (o_derived o Dbrho)
  | Kbeta => o_beta o | Kgamma => o_gamma o
  end.

(** The dictionary reports the particle q in output unit u. *)
Definition reports (K : consts) (u : unit_name) (o : outputs) (q : particle) : Prop :=
  forall k, reported o k = Some (Some (in_unit K u k (quantity q k))).

Definition wf_consts (K : consts) : Prop :=
  0 < c_light K /\ 0 < e_charge K /\ 0 < me_ev K /\ 0 < me_kg K.

(** The electron mass in kg and in eV denote the same mass. *)
Definition exact_consts (K : consts) : Prop :=
  wf_consts K /\ me_kg K = me_ev K * kg_per_ev K.

(** The constructor arguments: one quantity k = v given in unit iu, and a mass. *)
Definition given (a : kargs) (k : kind) (v : R) : Prop :=
  a_val a k = Some v /\ forall k', k' <> k -> a_val a k' = None.

Definition proper_unit (u : unit_name) : Prop := u = UeV \/ u = USI.
Definition proper_units (a : kargs) : Prop :=
  proper_unit (a_mass_unit a) /\ proper_unit (a_input_unit a) /\ proper_unit (a_output_unit a).

(** The rest energy in eV that the user means: mass in the declared mass unit,
    the electron's if no mass is given. *)
Definition meant_mass (K : consts) (a : kargs) : R :=
  match a_mass a with
  | None => me_ev K
  | Some m => match a_mass_unit a with USI => m / kg_per_ev K | _ => m end
  end.

(** The mass the user supplied, in the unit the user declared. *)
Definition supplied_mass (K : consts) (a : kargs) : R :=
  match a_mass a with
  | Some m => m
  | None => match a_mass_unit a with USI => me_kg K | _ => me_ev K end
  end.

(** Vocabulary of the bunch properties. *)
From Coq Require Import List Reals String.
From Verif Require Import PyBase Bunch_Model Stats_Model Stats_Spec Twiss_Spec.
Import ListNotations.
Open Scope R_scope.

(** The value printed under a label. *)
Fixpoint printed (label : string) (l : list (string * R)) : option R :=
  match l with
  | [] => None
  | (k, v) :: r => if String.eqb k label then Some v else printed label r
  end.
Definition shows (b : bunch) (label : string) (v : R) : Prop := printed label (print_Twiss b) = Some v.

(** The printed Twiss values of a plane are consistent: gamma beta = 1 + alpha^2. *)
Definition consistent_x (b : bunch) : Prop := exists be al ga,
  shows b "betax" be /\ shows b "alphax" al /\ shows b "gammax" ga /\ ga * be = 1 + al ^ 2.
Definition consistent_y (b : bunch) : Prop := exists be al ga,
  shows b "betay" be /\ shows b "alphay" al /\ shows b "gammay" ga /\ ga * be = 1 + al ^ 2.

(** Assignments a user can make to the Twiss properties, and running a history of them. *)
Inductive setting := Betax (v : R) | Betay (v : R) | Alphax (v : R) | Alphay (v : R).
Definition assign (b : bunch) (s : setting) : run :=
  match s with
  | Betax v => set_betax b v | Betay v => set_betay b v
  | Alphax v => set_alphax b v | Alphay v => set_alphay b v
  end.
Fixpoint history (b : bunch) (l : list setting) : run :=
  match l with [] => (b, Ok tt) | s :: r => then_ (assign b s) (fun b => history b r) end.
Definition positive_beta (s : setting) : Prop :=
  match s with Betax v => 0 < v | Betay v => 0 < v | _ => True end.

(** The value a property was last given: [pick] says which assignments concern it. *)
Definition last_given (pick : setting -> option R) (start : R) (l : list setting) : R :=
  fold_left (fun v s => match pick s with Some w => w | None => v end) l start.
Definition of_betax (s : setting) := match s with Betax v => Some v | _ => None end.
Definition of_betay (s : setting) := match s with Betay v => Some v | _ => None end.
Definition of_beta (s : setting) := match s with Betax v => Some v | Betay v => Some v | _ => None end.
Definition of_alphax (s : setting) := match s with Alphax v => Some v | _ => None end.
Definition of_alphay (s : setting) := match s with Alphay v => Some v | _ => None end.

(** All transverse coordinates are finite and equal to these numbers. *)
Definition columns (l : list coords) (xs pxs ys pys : list R) : Prop :=
  map c_x l = map Some xs /\ map c_px l = map Some pxs /\ map c_y l = map Some ys /\ map c_py l = map Some pys.
Definition zero_centroid (l : list coords) : Prop := exists xs pxs ys pys,
  columns l xs pxs ys pys /\ total xs = 0 /\ total pxs = 0 /\ total ys = 0 /\ total pys = 0.

(** Courant-Snyder invariant of a point for Twiss parameters alpha, beta. *)
Definition courant_snyder (alpha beta x px : R) : R :=
  (1 + alpha ^ 2) / beta * x ^ 2 + 2 * alpha * x * px + beta * px ^ 2.

(** Normalised coordinates of a point. *)
Definition norm_x (beta x : R) : R := x / sqrt beta.
Definition norm_p (alpha beta x px : R) : R := alpha * x / sqrt beta + sqrt beta * px.

(** The Hamiltonian of a particle, evaluated in the normalised coordinates of the Twiss
    parameters that print_Twiss shows. *)
Definition hamiltonian_is (b : bunch) (p : coords) (h : R) : Prop := exists x px y py,
  p = {| c_x := Some x; c_px := Some px; c_y := Some y; c_py := Some py |} /\
  forall bx ax by_ ay, shows b "betax" bx -> shows b "alphax" ax -> shows b "betay" by_ -> shows b "alphay" ay ->
  compute_Hamiltonian b (norm_x bx x) (norm_p ax bx x px) (norm_x by_ y) (norm_p ay by_ y py) = Ok (Some h).

(** The flips of a quiet start leave the invariants alone only for an upright ellipse. *)
Definition upright_if_quiet (b : bunch) : Prop :=
  b_quiet b = true -> shows b "alphax" 0 /\ shows b "alphay" 0.
Definition equal_betas (b : bunch) : Prop := exists v, 0 < v /\ shows b "betax" v /\ shows b "betay" v.

(** The routines that honour the quiet flag. *)
Definition quiet_routine (newton : (R -> res fl) -> fl -> res R) (rnd : nat -> R) (f : bunch -> run) : Prop :=
  (exists fuel, f = distribute_KV newton rnd fuel) \/
  (exists inner fuel, f = distribute_waterbag newton rnd inner fuel) \/
  (exists inner fuel, f = distribute_Gaussian_nonlinear newton rnd inner fuel).

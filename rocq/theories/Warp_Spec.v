(** Vocabulary for the text written for Warp and for the magnet strengths. *)
From Coq Require Import List Reals Bool Arith String Ascii.
From Verif Require Import PyBase PyDict PyText Line_Model Line_Spec Warp_Model.
Import ListNotations.
Open Scope R_scope.

(** Capital letters for small ones. *)
Fixpoint capital_of (c : ascii) (s b : list ascii) : ascii :=
  match s, b with x :: s, y :: b => if Ascii.eqb c x then y else capital_of c s b | _, _ => c end.
Definition in_capitals (s : string) : text := map (fun c => capital_of c smalls capitals) (list_ascii_of_string s).
Definition uname (e : element) : text := in_capitals (e_name e).

(** The definition of an element: its type and parameters if the type is known, a drift of its
    length, or of none, if not. *)
Inductive defines (m : mapping) (show : value -> text) (e : element) : text -> Prop :=
| def_known : forall ty ps vs, In (in_capitals (e_type e), (ty, ps)) m ->
    Forall2 (fun p v => agn_get (e_params e) p = Some v) ps vs ->
    defines m show e (uname e ++ T " = wp." ++ ty ++ T "(" ++
      List.concat (map (fun pv => T " " ++ T (fst pv) ++ T "=" ++ show (snd pv) ++ T ",") (combine ps vs)) ++ T ")" ++ [newline])
| def_drift : forall v, (forall x, ~ In (in_capitals (e_type e), x) m) ->
    agn_get (e_params e) "l" = Some v -> v <> VNum 0 -> v <> VStr "" ->
    defines m show e (uname e ++ T " = wp.Drft( l=" ++ show v ++ T ",)" ++ [newline])
| def_nothing : (forall x, ~ In (in_capitals (e_type e), x) m) ->
    (agn_get (e_params e) "l" = None \/ agn_get (e_params e) "l" = Some (VNum 0) \/ agn_get (e_params e) "l" = Some (VStr "")) ->
    defines m show e (uname e ++ T " = wp.Drft( l=" ++ show (VNum 0) ++ T ",)" ++ [newline]).

(** The first element of its name in the list. *)
Definition first_of_name (els : list element) (e : element) : Prop :=
  exists p q, els = p ++ e :: q /\ forall x, In x p -> uname x <> uname e.
(** All parameters to be written are there. *)
Definition complete (m : mapping) (e : element) : Prop := forall ty ps p, In (in_capitals (e_type e), (ty, ps)) m -> In p ps ->
  exists v, agn_get (e_params e) p = Some v.

(** A program: the import, one line for each definition, and the sum. *)
Definition program (definitions : list text) (line_name : text) (names : list text) : text :=
  T "import warp as wp" ++ [newline] ++ List.concat definitions ++ line_name ++ T " = " ++ join (T " + ") names ++ T " ".

(** Momentum over charge for a momentum in eV/c: T m. *)
Definition rigidity (p : R) : R := p / light.
(** Momentum in eV/c at a total energy in eV. *)
Definition momentum_at (energy mass : R) : R := sqrt (energy ^ 2 - mass ^ 2).

(** The number that a parameter holds, as such or written out. *)
Definition holds (ps : params) (k : string) (x : R) : Prop :=
  agn_get ps k = Some (VNum x) \/ exists s, agn_get ps k = Some (VStr s) /\ py_float (T s) = Some x.

(** Vocabulary for the particle beam object. *)
From Coq Require Import List Reals.
From Verif Require Import PyBase Stats_Model Stats_Spec Twiss_Model Ptcl_Model.
Import ListNotations.
Open Scope R_scope.

(** The questions whose answer needs the spread of the particles. *)
Definition needs_spread (q : query) : bool :=
  match q with CalcTwiss | AskRms | AskPeakCurrent => true | _ => false end.

(** How many of them a history has. *)
Definition spread_count (qs : list query) : nat := List.length (filter needs_spread qs).

(** Particle k of a beam, in coordinate i. *)
Definition coordinate (b : beam) (i k : nat) : R := nth k (row b i) 0.

(** The centroid of all particles but the first. *)
Definition rest_mean (b : beam) (i : nat) : R := mean (tl (row b i)).

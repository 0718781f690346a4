(** Vocabulary of the Twiss properties. *)
From Coq Require Import List Reals.
From Verif Require Import PyBase Stats_Model Stats_Spec Twiss_Model.
Import ListNotations.
Open Scope R_scope.

(** The second moments of a plane are those of an ellipse with these parameters. *)
Definition matched (alpha beta emit : R) (u v : list R) : Prop :=
  covariance u u = emit * beta /\
  covariance u v = - (emit * alpha) /\
  covariance v v = emit * ((1 + alpha ^ 2) / beta).

(** The plane is a unit, uncorrelated plane. *)
Definition unit_plane (u v : list R) : Prop :=
  covariance u u = 1 /\ covariance v v = 1 /\ covariance u v = 0.

(** The object carries these parameters, with the gamma that goes with them. *)
Definition twiss_is (t : twiss) (alpha beta emit : R) : Prop :=
  tw_alpha t = alpha /\ tw_beta t = beta /\ tw_emit t = emit /\
  tw_beta t * tw_gamma t - tw_alpha t ^ 2 = 1.

(** gamma = beta with a negative alpha: the parameters that the code gets wrong. *)
Definition round_tilted (alpha beta : R) : Prop := alpha < 0 /\ beta ^ 2 = 1 + alpha ^ 2.

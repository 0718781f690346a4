(** Vocabulary of the decoherence properties. *)
From Coq Require Import List Reals.
From Coquelicot Require Import Coquelicot.
Import ListNotations.
Open Scope R_scope.

(** Tune shift with amplitude: mu0*A + mu1*A^2 + ..., A the (squared) amplitude between 0 and 1. *)
Fixpoint tune_shift (mu : list R) (A : R) : R :=
  match mu with [] => 0 | m :: rest => A * (m + tune_shift rest A) end.

(** Centroid after n turns of a beam uniformly spread over A in [0,1], starting at Z: the
    average of Z cos(2 pi n (nu0 - tune shift)). *)
Definition centroid_after (Z nu0 : R) (mu : list R) (n : nat) (x : R) : Prop :=
  is_RInt (fun A => Z * cos (2 * PI * INR n * (nu0 - tune_shift mu A))) 0 1 x.

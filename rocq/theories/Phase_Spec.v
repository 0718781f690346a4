(** Vocabulary of the phase and tune properties. *)
From Coq Require Import List Reals.
Import ListNotations.
Open Scope R_scope.

(** Point p turned clockwise by th and stretched by s. *)
Definition turned (s th : R) (p : R * R) : R * R :=
  (s * (cos th * fst p + sin th * snd p), s * (cos th * snd p - sin th * fst p)).

(** A sampled oscillation: amplitude amp, m periods in n samples, phase ph, offset off;
    sample number k. *)
Definition tone (off amp ph : R) (m n k : nat) : R :=
  off + amp * cos (2 * PI * INR m * INR k / INR n + ph).

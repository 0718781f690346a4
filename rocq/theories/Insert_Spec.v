(** Vocabulary of the nonlinear-insert properties. *)
From Coq Require Import Reals.
Open Scope R_scope.

(** Beta function of a drift of length L with waist w at its centre. *)
Definition drift_beta (L w s : R) : R := w + (s - L / 2) ^ 2 / w.

(** Centre of slice k of n. *)
Definition slice_centre (L : R) (n k : nat) : R := (INR k + 1 / 2) * (L / INR n).

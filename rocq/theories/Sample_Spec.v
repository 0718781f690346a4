(** Vocabulary of the sampling properties. *)
From Coq Require Import List Reals.
From Verif Require Import PyBase Stats_Spec.
Import ListNotations.
Open Scope R_scope.

(** Sum of the first k entries. *)
Definition partial_sum (w : list R) (k : nat) : R := total (firstn k w).

(** Usable weights: none negative, and not all zero. *)
Definition weights_ok (w : list R) : Prop := (forall x, In x w -> 0 <= x) /\ 0 < total w.

(** k-th of n equally spaced points from a to b. *)
Definition grid_point (a b : R) (n k : nat) : R := a + INR k * ((b - a) / INR (n - 1)).

(** i is the first index at which the cumulative fraction of the weights reaches y. *)
Definition first_reaching (w : list R) (y : R) (i : nat) : Prop :=
  (i < length w)%nat /\ y <= partial_sum w (S i) / total w /\
  forall j, (j < i)%nat -> partial_sum w (S j) / total w < y.

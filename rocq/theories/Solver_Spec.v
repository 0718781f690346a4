(** Vocabulary for the eigenvalue solver of stats6d.py, independent of the code. *)
From Coq Require Import List Reals.
From Verif Require Import PyBase Stats_Model Stats_Spec.
Import ListNotations.
Open Scope R_scope.

(** No coordinate is coupled with more than one other: for instance the matrix of a beam
    whose three planes are independent of each other. *)
Definition paired6 (s : mat) : Prop :=
  forall i j k, (i < 6)%nat -> (j < 6)%nat -> (k < 6)%nat -> i <> j -> i <> k ->
    s i j <> 0 -> s i k <> 0 -> j = k.

(** The symmetric matrix with the diagonal of s and, on both sides of it, the cells that s
    has above it. *)
Definition from_upper (s : mat) : mat := fun i j => s (Nat.min i j) (Nat.max i j).

(** The same for the coordinates of a beam. *)
Definition paired_beam (b : beam) : Prop := paired6 (fun i j => covariance (row b i) (row b j)).

(** The two sides of one plane: x and x', y and y', s and dp. *)
Definition same_plane (i j : nat) : Prop := (i / 2 = j / 2)%nat.

(** The planes of a beam are independent. *)
Definition planes_independent (b : beam) : Prop :=
  forall i j, (i < 6)%nat -> (j < 6)%nat -> ~ same_plane i j -> covariance (row b i) (row b j) = 0.

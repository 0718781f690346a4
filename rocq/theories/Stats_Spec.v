(** Textbook statistics, independent of the code. *)
From Coq Require Import List Reals.
From Verif Require Import PyBase Stats_Model.
Import ListNotations.
Open Scope R_scope.

(** Sum, mean, variance and covariance of finite samples. *)
Definition total (l : list R) : R := fold_right Rplus 0 l.
Definition mean (l : list R) : R := total l / INR (length l).
Definition variance (l : list R) : R :=
  total (map (fun x => (x - mean l) ^ 2) l) / INR (length l).
Definition covariance (l k : list R) : R :=
  total (map (fun xy => (fst xy - mean l) * (snd xy - mean k)) (combine l k)) / INR (length l).

(** A beam of N particles: six rows of N numbers. *)
Definition is_beam (N : nat) (b : beam) : Prop :=
  length b = 6%nat /\ Forall (fun row => length row = N) b.

Definition row (b : beam) (i : nat) : list R := nth i b [].

(** The beam with its first particle moved to the centroid. *)
Definition recentre_first (b : beam) : beam :=
  map (fun r => match r with [] => [] | _ :: xs => mean r :: xs end) b.

(** The first particle sits exactly on the centroid. *)
Definition first_on_centroid (b : beam) : Prop :=
  forall r, In r b -> match r with [] => True | x :: _ => x = mean r end.

(** ** 6x6 matrices *)
Definition sum6 (f : nat -> R) : R := f 0%nat + f 1%nat + f 2%nat + f 3%nat + f 4%nat + f 5%nat.

Definition symmetric6 (s : mat) : Prop :=
  forall i j, (i < 6)%nat -> (j < 6)%nat -> s i j = s j i.
Definition psd6 (s : mat) : Prop :=
  forall x : vec, 0 <= sum6 (fun i => sum6 (fun j => x i * s i j * x j)).

(** Columns of v are orthonormal. *)
Definition orthonormal_columns (v : mat) : Prop :=
  forall i j, (i < 6)%nat -> (j < 6)%nat ->
    sum6 (fun k => v k i * v k j) = (if Nat.eqb i j then 1 else 0).

(** Column j of v is an eigenvector of s with eigenvalue l j. *)
Definition eigen_columns (s : mat) (l : vec) (v : mat) : Prop :=
  forall i j, (i < 6)%nat -> (j < 6)%nat ->
    sum6 (fun k => s i k * v k j) = l j * v i j.

Definition eigen_decomposition (s : mat) (l : vec) (v : mat) : Prop :=
  orthonormal_columns v /\ eigen_columns s l v /\
  sum6 l = sum6 (fun i => s i i).

(** new is the beam b expressed in the basis given by the columns of v. *)
Definition in_basis (N : nat) (v : mat) (b new : beam) : Prop :=
  is_beam N new /\
  forall i k, (i < 6)%nat -> (k < N)%nat ->
    nth k (row new i) 0 = sum6 (fun j => v j i * nth k (row b j) 0).

(** Model of rsbeams/rsstats/stats6d.py calc_min6d and calc_max6d (lines 44-48). *)
From Coq Require Import List Reals.
From Verif Require Import PyBase Stats_Model.
Import ListNotations.

(** numpy.min(array6D, axis=1) and numpy.max(array6D, axis=1): one row after the other. *)
Fixpoint along_rows (f : list R -> res R) (b : beam) : res (list R) :=
  match b with
  | [] => Ok []
  | row :: b' => do m <- f row; do ms <- along_rows f b'; Ok (m :: ms)
  end.
(** stats6d.py 44-45 *)
Definition calc_min6d (b : beam) : res (list R) := along_rows min_row b.
(** stats6d.py 47-48 *)
Definition calc_max6d (b : beam) : res (list R) := along_rows max_row b.

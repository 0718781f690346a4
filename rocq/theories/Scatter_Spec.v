(** Vocabulary for phase space objects, scatter plots and contour levels, independent of the model. *)
From Coq Require Import List Reals Arith ZArith.
Import ListNotations.
Open Scope R_scope.

(** The members of a list with a property, in order *)
Inductive kept {A} (P : A -> Prop) : list A -> list A -> Prop :=
| k_nil : kept P [] []
| k_yes : forall a l r, P a -> kept P l r -> kept P (a :: l) (a :: r)
| k_no : forall a l r, ~ P a -> kept P l r -> kept P (a :: l) r.

(** An interval that is symmetric about zero and holds all numbers *)
Definition symmetric_range (lo hi : R) (l : list R) : Prop := lo = - hi /\ forall x, In x l -> lo <= x <= hi.

(** A number with three decimals that is as close to x as there is *)
Definition three_decimals (x r : R) : Prop := (exists k, r = IZR k / 1000) /\ Rabs (r - x) <= / 2000.

(** The largest absolute value *)
Definition peak (l : list R) (a : R) : Prop := (exists x, In x l /\ Rabs x = a) /\ forall x, In x l -> Rabs x <= a.

(** n levels from -m, equally spaced, the last one below m by one step *)
Definition level (m : R) (n i : nat) : R := - m + INR i * (2 * m / INR n).

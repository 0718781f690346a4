(** Model of rsbeams/rsphysics/decoherence.py.  Floats are exact reals, turn numbers are
    natural numbers, SciPy's quad is the exact integral and SciPy's fresnel the exact
    Fresnel integrals. *)
From Coq Require Import List Reals Bool Arith.
From Coquelicot Require Import Coquelicot.
From Verif Require Import PyBase.
Import ListNotations.
Open Scope R_scope.

(** decoherence.py 27-30: the constructor's attributes. *)
Record centroid := { d_N : nat; d_Z : R; d_nu0 : R; d_mu : list R }.

(** decoherence.py 42-46: the loop over mu, starting at [order]. *)
Fixpoint advance_from (mu : list R) (order : nat) (a n : R) : R :=
  match mu with
  | [] => 0
  | m :: rest => m * a ^ order / (2 * PI * n) ^ (order - 1) + advance_from rest (S order) a n
  end.

(** decoherence.py 32-63 _reduced_integrand, for a scalar amplitude (the array branch is
    not used by the integrator). *)
Definition reduced_integrand (s : centroid) (a n : R) : R :=
  let advance := advance_from (d_mu s) 1 a n in
  let coeff := d_Z s / (2 * n) in
  let const_slip := 2 * PI * d_nu0 s * n in
  let angular_term := cos const_slip * cos advance + sin const_slip * sin advance in
  let distr := if Rle_dec a (2 * PI * n) then angular_term / PI else 0 in
  coeff * distr.

(** decoherence.py 74-77: which turn to use. *)
Definition turn_of (s : centroid) (turn : option nat) : nat :=
  match turn with Some n => n | None => d_N s end.

(** decoherence.py 65-85 integrate_any_order *)
Definition integrate_any_order (s : centroid) (turn : option nat) : res R :=
  let n := turn_of s turn in
  if Nat.eqb n 0 then Ok (d_Z s)
  else Ok (RInt (fun a => reduced_integrand s a (INR n)) 0 (2 * PI * INR n)).

(** mu[i]: IndexError when there are too few coefficients. *)
Definition mu_at (s : centroid) (i : nat) : res R :=
  match nth_error (d_mu s) i with Some v => Ok v | None => Err IndexError end.

(** decoherence.py 87-108 integrate_first_order; dividing a Python float by zero raises. *)
Definition integrate_first_order (s : centroid) (turn : option nat) : res R :=
  let n := turn_of s turn in
  if Nat.eqb n 0 then Ok (d_Z s) else
  let n := INR n in
  do m0 <- mu_at s 0;
  do k <- pdiv (d_Z s) (2 * PI * n * m0);
  Ok (k * (cos (2 * PI * d_nu0 s * n) * sin (2 * PI * n * m0)
           + 2 * sin (2 * PI * d_nu0 s * n) * sin (PI * n * m0) ^ 2)).

(** scipy.special.fresnel *)
Definition fresnel_S (x : R) : R := RInt (fun t => sin (PI / 2 * t ^ 2)) 0 x.
Definition fresnel_C (x : R) : R := RInt (fun t => cos (PI / 2 * t ^ 2)) 0 x.

(** decoherence.py 127-132: the inner function.  np.sqrt of a negative number is nan. *)
Definition second_integrand (s : centroid) (m0 m1 u n : R) : res fl :=
  let arg := ndiv (Some (m0 * n * PI + m1 * u)) (nsqrt (m1 * n * PI ^ 2)) in
  do q <- pdiv (PI * m0 ^ 2 * n) (2 * m1);
  let term1 := cos (q + 2 * PI * d_nu0 s * n) in
  let term2 := sin (q + 2 * PI * d_nu0 s * n) in
  Ok (fmap1 (fun x => fresnel_C x * term1 + fresnel_S x * term2) arg).

(** decoherence.py 110-136 integrate_second_order; None is nan. *)
Definition integrate_second_order (s : centroid) (turn : option nat) : res fl :=
  let n := turn_of s turn in
  if Nat.eqb n 0 then Ok (Some (d_Z s)) else
  let n := INR n in
  do m0 <- mu_at s 0;
  do m1 <- mu_at s 1;
  do i1 <- second_integrand s m0 m1 (2 * PI * n) n;
  do i0 <- second_integrand s m0 m1 0 n;
  Ok (ndiv (fmap1 (fun x => x * d_Z s) (fmap2 Rminus i1 i0)) (nsqrt (4 * m1 * n))).

(** decoherence.py 162-170: the choice of the routine, mapped over range(N) (a pool's map
    keeps the order of its argument). *)
Fixpoint map_res {A B} (f : A -> res B) (l : list A) : res (list B) :=
  match l with
  | [] => Ok []
  | a :: r => do b <- f a; do bs <- map_res f r; Ok (b :: bs)
  end.
Definition calculate_centroids (s : centroid) : res (list fl) :=
  let f := match List.length (d_mu s) with
           | 1%nat => fun n => rmap Some (integrate_first_order s (Some n))
           | 2%nat => fun n => integrate_second_order s (Some n)
           | _ => fun n => rmap Some (integrate_any_order s (Some n))
           end in
  map_res f (seq 0 (d_N s)).

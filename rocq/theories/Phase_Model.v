(** Model of rsbeams/rsptcls/phases.py.  Floats are exact reals. *)
From Coq Require Import List Reals Bool Arith ZArith.
From Verif Require Import PyBase.
Import ListNotations.
Open Scope R_scope.

(** numpy.arctan2 on reals (the IEEE signed zeros are not distinguished: y = -0.0 with
    x < 0 gives -pi in IEEE arithmetic and pi here). *)
Definition arctan2 (y x : R) : R :=
  if Rlt_dec 0 x then atan (y / x)
  else if Rlt_dec x 0 then (if Rle_dec 0 y then atan (y / x) + PI else atan (y / x) - PI)
  else if Rlt_dec 0 y then PI / 2
  else if Rlt_dec y 0 then - (PI / 2)
  else 0.

(** phases.py 35-62 phase_advance *)
Definition phase_advance (p1 p2 : R * R) (clockwise : bool) : R :=
  let guess := arctan2 (snd p1) (fst p1) - arctan2 (snd p2) (fst p2) in
  let advance := if Rlt_dec guess 0 then 2 * PI + guess else guess in
  if negb clockwise then 2 * PI - advance else advance.

(** Python slice bound: negative counts from the end, then clamped. *)
Definition slice_bound (len : nat) (z : Z) : nat :=
  let n := Z.of_nat len in
  Z.to_nat (Z.min n (Z.max 0 (if (z <? 0)%Z then z + n else z))).

(** l[t_i:t_f] *)
Definition py_slice (l : list R) (t_i t_f : Z) : list R :=
  let i := slice_bound (List.length l) t_i in
  let f := slice_bound (List.length l) t_f in
  firstn (f - i) (skipn i l).

(** numpy.fft.fft: real and imaginary part of output j. *)
Fixpoint dft_from (n k j : nat) (l : list R) : R * R :=
  match l with
  | [] => (0, 0)
  | x :: r =>
      let w := 2 * PI * INR j * INR k / INR n in
      let s := dft_from n (S k) j r in
      (x * cos w + fst s, - (x * sin w) + snd s)
  end.
Definition dft (l : list R) (j : nat) : R * R := dft_from (List.length l) 0 j l.

(** numpy.abs of the outputs *)
Definition spectrum (l : list R) : list R :=
  map (fun j => sqrt (fst (dft l j) ^ 2 + snd (dft l j) ^ 2)) (seq 0 (List.length l)).

(** numpy.argmax: position of the first maximum. *)
Fixpoint argmax_loop (l : list R) (pos best : nat) (best_v : R) : nat :=
  match l with
  | [] => best
  | x :: r => if Rlt_dec best_v x then argmax_loop r (S pos) pos x else argmax_loop r (S pos) best best_v
  end.
Definition argmax (l : list R) : nat :=
  match l with [] => 0 | x :: r => argmax_loop r 1 0 x end.

(** phases.py 67-92 tune_fft; numpy.fft.fft refuses an empty slice with ValueError. *)
Definition tune_fft (x_c : list R) (t_i : Z) (t_f : option Z) : res R :=
  let t_f := match t_f with
             | None => Z.of_nat (List.length x_c)
             | Some 0%Z => Z.of_nat (List.length x_c)
             | Some z => z
             end in
  let used := py_slice x_c t_i t_f in
  if Nat.eqb (List.length used) 0 then Err ValueError else
  let m_ind := argmax (spectrum used) in
  let Q_guess := INR m_ind / INR (List.length used) in
  Ok (if Rlt_dec (1/2) Q_guess then 1 - Q_guess else Q_guess).

(** Model of rsbeams/rsstats/sample.py.  Floats are exact reals. *)
From Coq Require Import List Reals Bool Arith String.
From Verif Require Import PyBase.
Import ListNotations.
Open Scope R_scope.

(** numpy.sum of a one-dimensional array (any order of summation is the same in exact reals). *)
Fixpoint np_sum (l : list R) : R := match l with [] => 0 | x :: r => x + np_sum r end.

(** sample.py 18-22: the loop.  Division of numpy floats: a zero total gives a non-finite value. *)
Fixpoint cdf_loop (total cumulative : R) (weights : list R) : list fl :=
  match weights with
  | [] => []
  | w :: rest =>
      let cumulative' := cumulative + w in
      ndiv (Some cumulative') (Some total) :: cdf_loop total cumulative' rest
  end.

(** sample.py 6-23 _calculate_cdf *)
Definition calculate_cdf (weights : list R) : list fl := cdf_loop (np_sum weights) 0 weights.

(** The [args] parameter: None, a number, or a sequence of numbers. *)
Inductive args := NoArgs | Scalar (v : R) | Seq (l : list R).

(** sample.py 42-49: what the distribution is called with besides the grid.  A falsy
    [args] (None, 0, an empty sequence) passes nothing. *)
Definition call_args (a : args) : list R :=
  match a with
  | NoArgs => []
  | Scalar v => if Req_EM_T v 0 then [] else [v]
  | Seq l => l
  end.

(** A distribution is a vectorised function of the grid and the extra arguments. *)
Definition distribution := list R -> list R -> res (list R).

(** sample.py 26-52 cdf_on_grid *)
Definition cdf_on_grid (d : distribution) (grid : list R) (a : args) : res (list fl) :=
  do weights <- d grid (call_args a);
  Ok (calculate_cdf weights).

(** numpy.linspace(a, b, n) *)
Definition linspace (a b : R) (n : nat) : list R :=
  match n with
  | 1%nat => [a]
  | _ => map (fun k => a + INR k * ((b - a) / INR (n - 1))) (seq 0 n)
  end.

(** Order used by numpy.searchsorted; a non-finite entry counts as the largest. *)
Definition np_lt (x : fl) (y : R) : bool :=
  match x with
  | Some a => if Rlt_dec a y then true else false
  | None => false
  end.

(** numpy.searchsorted(arr, key), side 'left': the bisection of numpy's C code,
    while min < max: mid = min + (max - min) // 2; ...  The interval shrinks on every
    pass, so [fuel] = length of the array is enough.  (For keys after the first numpy starts from
    an interval left by the key before; in an array in order this changes nothing, and no theorem
    is about others.) *)
Fixpoint bisect (fuel : nat) (arr : list fl) (key : R) (min max : nat) : nat :=
  match fuel with
  | O => min
  | S fuel' =>
      if (min <? max)%nat then
        let mid := (min + (max - min) / 2)%nat in
        if np_lt (nth mid arr None) key then bisect fuel' arr key (mid + 1) max
        else bisect fuel' arr key min mid
      else min
  end.
Definition searchsorted (arr : list fl) (key : R) : nat :=
  bisect (List.length arr) arr key 0 (List.length arr).

(** A numpy array of samples: shape (n,), or shape (n,1). *)
Inductive array := Flat (l : list R) | Column (l : list R).

(** x[samples]: fancy indexing raises IndexError when an index is out of range. *)
Fixpoint fancy (x : list R) (idx : list nat) : res (list R) :=
  match idx with
  | [] => Ok []
  | i :: rest =>
      match nth_error x i with
      | None => Err IndexError
      | Some v => do r <- fancy x rest; Ok (v :: r)
      end
  end.

Fixpoint mapM {A B} (f : A -> res B) (l : list A) : res (list B) :=
  match l with
  | [] => Ok []
  | a :: r => do b <- f a; do bs <- mapM f r; Ok (b :: bs)
  end.

(** sample.py 55-105 sample.  [rand n] are the numbers of numpy.random.random(n), [halton n]
    those of the Halton sampler (an array of shape (n,1)); [interp1d] is SciPy's cubic
    interpolation, left abstract. *)
Definition sample (rand halton : nat -> list R) (interp1d : list fl -> list R -> res (R -> res R))
  (is_callable : bool) (n : nat) (d : distribution) (a b : R) (ar : args) (wn : nat)
  (method invert : string) : res array :=
  if negb is_callable then Err AssertionError else
  let x := linspace a b wn in
  do cdf_vals <- cdf_on_grid d x ar;
  do2 (y, shape) <-
     (if String.eqb method "random" then Ok (rand n, Flat)
      else if String.eqb method "halton" then Ok (halton n, Column)
      else Err NotImplementedError);
  if String.eqb invert "numeric" then
    do v <- fancy x (map (searchsorted cdf_vals) y); Ok (shape v)
  else if String.eqb invert "interpolate" then
    do icdf <- interp1d cdf_vals x;
    do v <- mapM icdf y; Ok (shape v)
  else Err NotImplementedError.

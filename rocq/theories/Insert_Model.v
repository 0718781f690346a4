(** Model of rsbeams/rslattice/nonlinear.py.  Floats are exact reals; a non-finite numpy
    value is None. *)
From Coq Require Import List Reals Bool Arith ZArith String.
From Verif Require Import PyBase Sample_Model.
Import ListNotations.
Open Scope R_scope.

(** nonlinear.py 46-59 __init__: the attributes.  [num_slices] is an integer. *)
Record insert := { i_length : R; i_phase : R; i_t : R; i_c : R; i_slices : Z }.
Definition new_insert (length phase t c : R) (num_slices : Z) : insert :=
  {| i_length := length; i_phase := phase; i_t := t; i_c := c; i_slices := num_slices |}.

(** Assigning to the plain attributes (no setter is defined for them). *)
Definition set_length (v : R) (s : insert) : res insert := Ok (new_insert v (i_phase s) (i_t s) (i_c s) (i_slices s)).
Definition set_phase (v : R) (s : insert) : res insert := Ok (new_insert (i_length s) v (i_t s) (i_c s) (i_slices s)).
Definition set_t (v : R) (s : insert) : res insert := Ok (new_insert (i_length s) (i_phase s) v (i_c s) (i_slices s)).
Definition set_slices (v : Z) (s : insert) : res insert := Ok (new_insert (i_length s) (i_phase s) (i_t s) (i_c s) v).

(** nonlinear.py 66-70: the setter of c.  Line 70 reads the name [c], which is bound
    neither in the function nor in the module. *)
Definition set_c (v : R) (s : insert) : res insert :=
  if Rlt_dec v 0 then Err ValueError else Err NameError.

(** What generate_sequence stores. *)
Record sequence := { q_s : list R; q_beta0 : fl; q_betas : list fl; q_knll : list fl; q_cnll : list fl }.

(** 1.0 / np.tan(x) ** 2.  At a pole of the tangent the float is huge and the quotient
    negligible: 0 here. *)
Definition inv_tan2 (x : R) : fl :=
  if Req_EM_T (cos x) 0 then Some 0 else ndiv (Some 1) (Some (tan x ^ 2)).

(** nonlinear.py 76 *)
Definition focal_length (s : insert) : fl :=
  fmap1 (fun u => i_length s / 4 * (1 + u)) (inv_tan2 (PI * i_phase s)).

Definition fsqrt (x : fl) : fl := match x with Some a => nsqrt a | None => None end.

(** nonlinear.py 88 and 95: np.sqrt(1.0 - (1.0 - self.length / 2.0 / f0) ** 2) *)
Definition beta_den (s : insert) : fl :=
  fsqrt (fmap1 (fun u => 1 - (1 - u) ^ 2) (ndiv (Some (i_length s / 2)) (focal_length s))).

(** nonlinear.py 72-105 generate_sequence *)
Definition generate_sequence (s : insert) : res sequence :=
  let L := i_length s in
  let n := IZR (i_slices s) in
  let f0 := focal_length s in
  do ds <- pdiv L n;
  let start := ds * (1/2) in
  let end_ := L - start in
  if (i_slices s <? 0)%Z then Err ValueError else
  let s_vals := linspace start end_ (Z.to_nat (i_slices s)) in
  do zero <- pdiv (0 * L) L;
  let beta0 := ndiv (fmap1 (fun u => L * (1 - u)) (ndiv (Some zero) f0)) (beta_den s) in
  let bn := map (fun x => ndiv (fmap1 (fun u => L * (1 - u)) (ndiv (Some (x * (L - x) / L)) f0)) (beta_den s)) s_vals in
  let knn := map (fun b => ndiv (Some (i_t s * L / n)) (fmap1 (fun v => v ^ 2) b)) bn in
  let cnll := map (fun b => fmap1 (fun v => i_c s * v) (fsqrt b)) bn in
  let knll := map (fun p => fmap2 (fun k c => k * c ^ 2) (fst p) (snd p)) (combine knn cnll) in
  Ok {| q_s := s_vals; q_beta0 := beta0; q_betas := bn; q_knll := knll; q_cnll := cnll |}.

(** nonlinear.py 121-140 create_madx; [fmt] is how a float is printed.  Before
    generate_sequence the attribute does not exist. *)
Fixpoint madx_loop (fmt : fl -> string) (knll cnll : list fl) : list string :=
  match knll, cnll with
  | k :: ks, c :: cs => ("nllens, knll = " ++ fmt k ++ ", cnll = " ++ fmt c ++ ";")%string :: madx_loop fmt ks cs
  | _, _ => []
  end.
Definition create_madx (fmt : fl -> string) (q : option sequence) : res (list string) :=
  match q with
  | None => Err AttributeError
  | Some q => Ok (madx_loop fmt (q_knll q) (q_cnll q))
  end.

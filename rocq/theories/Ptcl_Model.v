(** Model of the object rsbeams/rsptcls/RsPtclBeam6D.py as a whole: its
    constructor, and its methods as steps of one object whose array is changed
    in place.  The parts are those of Twiss_Model.v and Stats_Model.v.
    Simplification: an array with a row of infinities or nan (a coordinate that
    does not vary) is only recorded as such; methods are modelled for finite
    arrays. *)
From Coq Require Import List Reals Bool ZArith String.
From Verif Require Import PyBase Stats_Model Twiss_Model.
Import ListNotations.
Open Scope R_scope.

(** RsPtclBeam6D.py 33-43: the attributes; [pb_array] is the array of
    distrib6d.phase_space_6d. *)
Record ptcl_beam := {
  pb_design_p : R;
  pb_charge : R;
  pb_mass : R;
  pb_twiss : twiss * twiss * twiss;
  pb_array : beam
}.

(** RsDistrib6D.py 43-47: the random numbers drawn by the constructor; None: a
    rejection loop is still running. *)
Definition draw (fuel : nat) (rnd : nat -> R) (num : nat) (distrib_type : string) (cut : R)
  : option beam :=
  if String.eqb distrib_type "uniform" then make_unif_distrib fuel rnd num
  else make_gauss_distrib fuel rnd cut num.

(** The rows as one finite array. *)
Fixpoint finite_rows (rows : list (option (list R))) : option beam :=
  match rows with
  | [] => Some []
  | Some r :: rows' => match finite_rows rows' with Some b => Some (r :: b) | None => None end
  | None :: _ => None
  end.

(** RsDistrib6D.py 162-223 on an array that is not finite: only the coefficients
    of the planes can raise. *)
Definition try_planes (tx ty tz : twiss) : res unit :=
  do _ <- plane_coeffs tx; do _ <- plane_coeffs ty; do _ <- plane_coeffs tz; Ok tt.

(** RsPtclBeam6D.py 30-45 __init__ with RsDistrib6D.py 22-50.  The outer None: the
    constructor does not return.  [Ok None]: the array is not finite. *)
Definition new_ptcl_beam (fuel : nat) (rnd : nat -> R)
    (num_ptcls : Z) (design_p charge mass : R) (dist_type : string) (max_rms_fac : R)
    (ax bx ex ay by_ ey az bz ez : R) : option (res (option ptcl_beam)) :=
  match new_twiss ax bx ex, new_twiss ay by_ ey, new_twiss az bz ez with
  | Ok tx, Ok ty, Ok tz =>
      match distrib_args num_ptcls dist_type max_rms_fac with
      | Ok _ =>
          match draw fuel rnd (Z.to_nat num_ptcls) dist_type max_rms_fac with
          | None => None
          | Some b0 =>
              Some (do rows <- clean_phase_space_6d b0;
                    match finite_rows rows with
                    | None => do _ <- try_planes tx ty tz; Ok None
                    | Some b =>
                        do b' <- make_twiss_dist_6d b tx ty tz;
                        Ok (Some {| pb_design_p := design_p; pb_charge := charge; pb_mass := mass;
                                    pb_twiss := (tx, ty, tz); pb_array := b' |})
                    end)
          end
      | Err e => Some (Err e)
      | Diverges => None
      end
  | Err e, _, _ => Some (Err e)
  | Ok _, Err e, _ => Some (Err e)
  | Ok _, Ok _, Err e => Some (Err e)
  | _, _, _ => None
  end.

(** The methods of the object and of its distribution (RsPtclBeam6D.py 47-79,
    RsDistrib6D.py 112-118). *)
Inductive query :=
| AskMomentum | AskCharge | AskMass | AskBetaGamma | AskGamma | AskBeta
| AskTwissObject (name : string)
| CalcTwiss | AskAverages | AskRms | AskPeakCurrent.

Inductive answer :=
| Number (x : R)
| Numbers (l : list R)
| Averages (l : list fl)
| Current (x : fl)
| TwissObject (t : twiss)
| Nothing.

Definition with_array (o : ptcl_beam) (b : beam) : ptcl_beam :=
  {| pb_design_p := pb_design_p o; pb_charge := pb_charge o; pb_mass := pb_mass o;
     pb_twiss := pb_twiss o; pb_array := b |}.
Definition with_twiss (o : ptcl_beam) (t : twiss * twiss * twiss) : ptcl_beam :=
  {| pb_design_p := pb_design_p o; pb_charge := pb_charge o; pb_mass := pb_mass o;
     pb_twiss := t; pb_array := pb_array o |}.

(** stats6d.py 25-34 and 50-52: what calc_variance6d has done to the array, also
    when what follows it raises. *)
Definition array_after (b : beam) : beam :=
  match calc_variance6d b with Ok (b', _) => b' | _ => b end.

(** RsPtclBeam6D.py 66-67: twiss6d[twiss_name] *)
Definition twiss_by_name (t : twiss * twiss * twiss) (name : string) : res twiss :=
  let '(x, y, z) := t in
  if String.eqb name "twiss_x" then Ok x
  else if String.eqb name "twiss_y" then Ok y
  else if String.eqb name "twiss_z" then Ok z
  else Err KeyError.

(** One method call: what it returns or raises, and the object afterwards. *)
Definition ask (c : R) (o : ptcl_beam) (q : query) : ptcl_beam * res answer :=
  match q with
  | AskMomentum => (o, Ok (Number (pb_design_p o)))        (* 47-48 *)
  | AskCharge => (o, Ok (Number (pb_charge o)))            (* 50-51 *)
  | AskMass => (o, Ok (Number (pb_mass o)))                (* 53-54 *)
  | AskBetaGamma => (o, rmap Number (get_beta0_gamma0 (pb_design_p o) (pb_mass o)))
  | AskGamma => (o, rmap Number (get_gamma0 (pb_design_p o) (pb_mass o)))
  | AskBeta => (o, rmap Number (get_beta0 (pb_design_p o) (pb_mass o)))
  | AskTwissObject name => (o, rmap TwissObject (twiss_by_name (pb_twiss o) name))
  | CalcTwiss =>                                           (* 69-71 *)
      match calc_twiss6d (pb_array o) with
      | Ok (b', t) => (with_twiss (with_array o b') t, Ok Nothing)
      | Err e => (with_array o (array_after (pb_array o)), Err e)
      | Diverges => (o, Diverges)
      end
  | AskAverages => (o, Ok (Averages (calc_avg6d (pb_array o))))
  | AskRms =>
      match calc_rms6d (pb_array o) with
      | Ok (b', l) => (with_array o b', Ok (Numbers l))
      | Err e => (with_array o (array_after (pb_array o)), Err e)
      | Diverges => (o, Diverges)
      end
  | AskPeakCurrent =>                                      (* 76-79 *)
      match get_peak_current_rms c (pb_design_p o) (pb_mass o) (pb_charge o) (pb_array o) with
      | Ok (b', i) => (with_array o b', Ok (Current i))
      | Err e => (with_array o (array_after (pb_array o)), Err e)
      | Diverges => (o, Diverges)
      end
  end.

(** A history of calls; an exception ends a call, not the object. *)
Fixpoint ask_all (c : R) (o : ptcl_beam) (qs : list query) : ptcl_beam * list (res answer) :=
  match qs with
  | [] => (o, [])
  | q :: qs' =>
      let '(o1, a) := ask c o q in
      let '(o2, l) := ask_all c o1 qs' in
      (o2, a :: l)
  end.

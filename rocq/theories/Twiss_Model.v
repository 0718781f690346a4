(** Model of rsbeams/rsptcls/RsTwiss2D.py, RsDistrib6D.py, RsPhaseSpace6D.py and
    RsPtclBeam6D.py.  Floats are exact reals. *)
From Coq Require Import List Reals Bool Arith ZArith String.
From Verif Require Import PyBase Stats_Model.
Import ListNotations.
Open Scope R_scope.

(** math.sqrt: a negative argument raises ValueError. *)
Definition msqrt (x : R) : res R := if Rlt_dec x 0 then Err ValueError else Ok (sqrt x).

(** RsTwiss2D.py 16-20: the four attributes. *)
Record twiss := { tw_emit : R; tw_beta : R; tw_alpha : R; tw_gamma : R }.

(** RsTwiss2D.py 16-20 *)
Definition new_twiss (alpha beta emit : R) : res twiss :=
  do g <- pdiv (1 + alpha ^ 2) beta;
  Ok {| tw_emit := emit; tw_beta := beta; tw_alpha := alpha; tw_gamma := g |}.

(** Assignment to a plain attribute (the class defines no setters). *)
Definition set_beta (t : twiss) (v : R) : twiss :=
  {| tw_emit := tw_emit t; tw_beta := v; tw_alpha := tw_alpha t; tw_gamma := tw_gamma t |}.

(** RsDistrib6D.py 178-210, the coefficients computed for one plane:
    (fac, f_inv, sin_phi, cos_phi, rt_fac). *)
Definition plane_coeffs (t : twiss) : res (R * R * R * R * R) :=
  let alphaII := tw_alpha t in
  let betaII := tw_beta t in
  do gammaII <- pdiv (1 + alphaII ^ 2) betaII;
  let gMinusB := gammaII - betaII in
  do rt_fac <- msqrt (gMinusB ^ 2 + 4 * alphaII ^ 2);
  do2 ff <- (if Rle_dec 0 gMinusB then
       do fac <- msqrt (1/2 * (gammaII + betaII - rt_fac));
       do f_inv <- msqrt (1/2 * (gammaII + betaII + rt_fac));
       Ok (fac, f_inv)
     else
       do fac <- msqrt (1/2 * (gammaII + betaII + rt_fac));
       do f_inv <- msqrt (1/2 * (gammaII + betaII - rt_fac));
       Ok (fac, f_inv));
  do2 sc <- (if Req_EM_T alphaII 0 then Ok (0, 1)
     else
       do q <- pdiv (Rabs gMinusB) rt_fac;
       do s <- msqrt (1/2 * (1 - q));
       do c <- msqrt (1/2 * (1 + q));
       Ok (s, c));
  let sin_phi := if Rlt_dec (alphaII * gMinusB) 0 then - fst sc else fst sc in
  do rt <- msqrt (tw_emit t);
  Ok (fst ff, snd ff, sin_phi, snd sc, rt).

(** RsDistrib6D.py 215-219: the particle loop of one plane, on the two rows. *)
Definition make_plane (t : twiss) (u v : list R) : res (list R * list R) :=
  do k <- plane_coeffs t;
  let '(fac, f_inv, sin_phi, cos_phi, rt) := k in
  Ok (map (fun p => rt * (fac * cos_phi * fst p - f_inv * sin_phi * snd p)) (combine u v),
      map (fun p => rt * (fac * sin_phi * fst p + f_inv * cos_phi * snd p)) (combine u v)).

(** RsDistrib6D.py 162-223 make_twiss_dist_6d: the array afterwards.  (What is left in
    the array when a later plane raises is modelled in Match_Model.v.) *)
Definition make_twiss_dist_6d (b : beam) (tx ty tz : twiss) : res beam :=
  do p0 <- make_plane tx (nth 0 b []) (nth 1 b []);
  do p1 <- make_plane ty (nth 2 b []) (nth 3 b []);
  do p2 <- make_plane tz (nth 4 b []) (nth 5 b []);
  Ok [fst p0; snd p0; fst p1; snd p1; fst p2; snd p2].

(** RsDistrib6D.py 126-152: one turn of the plane loop. *)
Definition plane_twiss (sigma : mat) (i_loop : nat) : res (R * R * R) :=
  let ii := (2 * i_loop)%nat in
  let emitSQ := sigma ii ii * sigma (ii + 1)%nat (ii + 1)%nat
                - sigma ii (ii + 1)%nat * sigma (ii + 1)%nat ii in
  if Rle_dec emitSQ 0 then Err GenericException
  else
    do emit <- msqrt emitSQ;
    do beta <- pdiv (sigma ii ii) emit;
    do alpha <- pdiv (- sigma ii (ii + 1)%nat) emit;
    Ok (alpha, beta, emit).

(** RsDistrib6D.py 120-160 calc_twiss6d: the array afterwards (calc_correlations6d works
    on it in place) and the three objects stored. *)
Definition calc_twiss6d (b : beam) : res (beam * (twiss * twiss * twiss)) :=
  do cs <- calc_correlations6d b;
  do px <- plane_twiss (snd cs) 0;
  do py <- plane_twiss (snd cs) 1;
  do pz <- plane_twiss (snd cs) 2;
  do tx <- (let '(a, bt, e) := px in new_twiss a bt e);
  do ty <- (let '(a, bt, e) := py in new_twiss a bt e);
  do tz <- (let '(a, bt, e) := pz in new_twiss a bt e);
  Ok (fst cs, (tx, ty, tz)).

(** RsDistrib6D.py 64-75 and 77-88: one of the two rejection loops of make_unif_distrib.
    [rnd k] is the k-th number drawn from numpy.random.uniform(0,1).  [fuel] bounds the
    number of passes only to make the function total: None means that the loop is
    still running. *)
Fixpoint unif_loop (fuel : nat) (rnd : nat -> R) (pos : nat) (left : nat)
  : option (list (R * R * R) * nat) :=
  match left with
  | O => Some ([], pos)
  | S left' =>
      match fuel with
      | O => None
      | S fuel' =>
          let x := 2 * rnd pos - 1 in
          let y := 2 * rnd (pos + 1)%nat - 1 in
          let z := 2 * rnd (pos + 2)%nat - 1 in
          if Rlt_dec (x ^ 2 + y ^ 2 + z ^ 2) 1 then
            match unif_loop fuel' rnd (pos + 3) left' with
            | Some (l, p) => Some ((x, y, z) :: l, p)
            | None => None
            end
          else unif_loop fuel' rnd (pos + 3) left
      end
  end.

(** RsDistrib6D.py 61-90 make_unif_distrib *)
Definition make_unif_distrib (fuel : nat) (rnd : nat -> R) (num : nat) : option beam :=
  match unif_loop fuel rnd 0 num with
  | None => None
  | Some (q, pos) =>
      match unif_loop fuel rnd pos num with
      | None => None
      | Some (p, _) =>
          Some [map (fun t => fst (fst t)) q; map (fun t => fst (fst t)) p;
                map (fun t => snd (fst t)) q; map (fun t => snd (fst t)) p;
                map (fun t => snd t) q; map (fun t => snd t) p]
      end
  end.

(** RsDistrib6D.py 96-102: the loop over one coordinate of make_gauss_distrib;
    [rnd k] is the k-th number drawn from numpy.random.normal. *)
Fixpoint gauss_loop (fuel : nat) (rnd : nat -> R) (cut : R) (pos : nat) (left : nat)
  : option (list R * nat) :=
  match left with
  | O => Some ([], pos)
  | S left' =>
      match fuel with
      | O => None
      | S fuel' =>
          let t := rnd pos in
          if Rlt_dec (t * t) cut then
            match gauss_loop fuel' rnd cut (pos + 1) left' with
            | Some (l, p) => Some (t :: l, p)
            | None => None
            end
          else gauss_loop fuel' rnd cut (pos + 1) left
      end
  end.

(** RsDistrib6D.py 92-103 make_gauss_distrib *)
Fixpoint gauss_rows (rows fuel : nat) (rnd : nat -> R) (cut : R) (pos num : nat) : option beam :=
  match rows with
  | O => Some []
  | S rows' =>
      match gauss_loop fuel rnd cut pos num with
      | None => None
      | Some (r, pos') =>
          match gauss_rows rows' fuel rnd cut pos' num with
          | None => None
          | Some b => Some (r :: b)
          end
      end
  end.
Definition make_gauss_distrib (fuel : nat) (rnd : nat -> R) (cut : R) (num : nat) : option beam :=
  gauss_rows 6 fuel rnd cut 0 num.

(** RsDistrib6D.py 105-110 clean_phase_space_6d *)
Definition clean_phase_space_6d (b : beam) : res (list (option (list R))) :=
  do b2 <- rm_correlations6d (sub_avg6d b);
  normalize_rms6d (sub_avg6d b2).

(** RsDistrib6D.py 22-50 __init__: the argument checks, in order (RsPhaseSpace6D.py 31-38
    first).  A bad type name is reported through self.distrib_type, which does not exist. *)
Definition distrib_args (num_ptcls : Z) (distrib_type : string) (max_rms_fac : R) : res unit :=
  if (num_ptcls <=? 0)%Z then Err GenericException
  else if negb (String.eqb distrib_type "uniform") && negb (String.eqb distrib_type "gaussian")
       then Err AttributeError
  else if Rlt_dec 0 max_rms_fac then Ok tt else Err GenericException.

(** RsDistrib6D.py 225-233 offset_component and 235-243 multiply_component *)
Fixpoint upd_row (b : beam) (i : nat) (f : R -> R) : beam :=
  match b, i with
  | [], _ => []
  | r :: b', O => map f r :: b'
  | r :: b', S i' => r :: upd_row b' i' f
  end.
Definition offset_component (b : beam) (offset : R) (index : Z) : res beam :=
  if (index <? 0)%Z || (5 <? index)%Z then Err GenericException
  else Ok (upd_row b (Z.to_nat index) (fun x => x + offset)).
Definition multiply_component (b : beam) (factor : R) (index : Z) : res beam :=
  if (index <? 0)%Z || (5 <? index)%Z then Err GenericException
  else Ok (upd_row b (Z.to_nat index) (fun x => x * factor)).

(** RsPtclBeam6D.py 56-63 *)
Definition get_beta0_gamma0 (p m : R) : res R := pdiv p m.
Definition get_gamma0 (p m : R) : res R := do bg <- get_beta0_gamma0 p m; msqrt (bg ^ 2 + 1).
Definition get_beta0 (p m : R) : res R :=
  do bg <- get_beta0_gamma0 p m; do g <- get_gamma0 p m; pdiv bg g.

(** RsPtclBeam6D.py 76-79 get_peak_current_rms; [c] is scipy.constants.c.  Also gives the
    array afterwards.  The length is a numpy number, so that nothing is raised for a beam at
    rest, whose time is infinite and whose current is zero, or for a beam without length. *)
Definition get_peak_current_rms (c p m charge : R) (b : beam) : res (beam * fl) :=
  do r <- calc_rms6d b;
  let rms_length := nth 4 (snd r) 0 in
  do b0 <- get_beta0 p m;
  Ok (fst r,
      if Req_EM_T (b0 * c) 0 then (if Req_EM_T rms_length 0 then None else Some 0)
      else ndiv (Some charge) (Some (rms_length / (b0 * c)))).

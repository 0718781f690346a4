(** Model of rsbeams/rsptcls/bunch.py.  Python floats are exact reals; a non-finite numpy
    value is None.  All attributes are Python numbers (with numpy scalars a division by zero
    would give an infinity instead of an exception). *)
From Coq Require Import List Reals Bool Arith String.
From Verif Require Import PyBase.
Import ListNotations.
Open Scope R_scope.

(** bunch.py 31 StandardBunch and 306 NonlinearBunch *)
Inductive kind := Standard | Nonlinear.

(** bunch.py 83-90: the private Twiss attributes _betax, _alphax, ... *)
Record twiss4 := { u_betax : R; u_alphax : R; u_betay : R; u_alphay : R; u_gammax : R; u_gammay : R }.

(** Columns 0-3 of one row of the particle array: x, xp, y, yp. *)
Record coords := { c_x : fl; c_px : fl; c_y : fl; c_py : fl }.

(** The object.  The particle array is kept as columns 0-3, columns 4-5 and column 6.  The
    last three attributes exist on a NonlinearBunch only. *)
Record bunch := {
  b_kind : kind; b_npart : nat; b_dist : string;
  b_emitx : R; b_emity : R; b_emit : R; b_tw : twiss4; b_stdz : R; b_dpop : R;
  b_quiet : bool; b_trans : list coords; b_long : list (R * R); b_ids : list nat;
  b_t : R; b_c : R; b_cutoff : R }.

Definition zero4 : coords := {| c_x := Some 0; c_px := Some 0; c_y := Some 0; c_py := Some 0 |}.

(** bunch.py 53-109 __init__.  The seed is not modelled. *)
Definition new_bunch (k : kind) (npart : nat) (dist : string) (emitx emity betax alphax betay alphay stdz dpop : R)
  (quiet : bool) (t c cutoff : R) : res bunch :=
  do gx <- pdiv (1 + alphax ^ 2) betax;
  do gy <- pdiv (1 + alphay ^ 2) betay;
  Ok {| b_kind := k; b_npart := npart; b_dist := dist; b_emitx := emitx; b_emity := emity;
        b_emit := emitx + emity;
        b_tw := {| u_betax := betax; u_alphax := alphax; u_betay := betay; u_alphay := alphay;
                   u_gammax := gx; u_gammay := gy |};
        b_stdz := stdz; b_dpop := dpop; b_quiet := quiet;
        b_trans := repeat zero4 npart; b_long := repeat (0, 0) npart; b_ids := seq 0 npart;
        b_t := t; b_c := c; b_cutoff := cutoff |}.
Definition new_standard npart dist emitx emity betax alphax betay alphay stdz dpop quiet : res bunch :=
  new_bunch Standard npart dist emitx emity betax alphax betay alphay stdz dpop quiet 0 0 0.

(** bunch.py 330-356 __init__ of the derived class: its argument [queit] is not used, the
    base class is called without [quiet]. *)
Definition new_nonlinear npart dist emitx emity betax alphax betay alphay stdz dpop (queit : bool) t c cutoff : res bunch :=
  new_bunch Nonlinear npart dist emitx emity betax alphax betay alphay stdz dpop false t c cutoff.

(** Assignments to single attributes. *)
Definition with_tw (b : bunch) (t : twiss4) : bunch :=
  {| b_kind := b_kind b; b_npart := b_npart b; b_dist := b_dist b; b_emitx := b_emitx b; b_emity := b_emity b;
     b_emit := b_emit b; b_tw := t; b_stdz := b_stdz b; b_dpop := b_dpop b; b_quiet := b_quiet b;
     b_trans := b_trans b; b_long := b_long b; b_ids := b_ids b; b_t := b_t b; b_c := b_c b; b_cutoff := b_cutoff b |}.
Definition with_emits (b : bunch) (ex ey e : R) : bunch :=
  {| b_kind := b_kind b; b_npart := b_npart b; b_dist := b_dist b; b_emitx := ex; b_emity := ey;
     b_emit := e; b_tw := b_tw b; b_stdz := b_stdz b; b_dpop := b_dpop b; b_quiet := b_quiet b;
     b_trans := b_trans b; b_long := b_long b; b_ids := b_ids b; b_t := b_t b; b_c := b_c b; b_cutoff := b_cutoff b |}.
Definition with_emit (b : bunch) (e : R) : bunch := with_emits b (b_emitx b) (b_emity b) e.
Definition with_trans (b : bunch) (l : list coords) : bunch :=
  {| b_kind := b_kind b; b_npart := b_npart b; b_dist := b_dist b; b_emitx := b_emitx b; b_emity := b_emity b;
     b_emit := b_emit b; b_tw := b_tw b; b_stdz := b_stdz b; b_dpop := b_dpop b; b_quiet := b_quiet b;
     b_trans := l; b_long := b_long b; b_ids := b_ids b; b_t := b_t b; b_c := b_c b; b_cutoff := b_cutoff b |}.
Definition with_long (b : bunch) (stdz dpop : R) (l : list (R * R)) : bunch :=
  {| b_kind := b_kind b; b_npart := b_npart b; b_dist := b_dist b; b_emitx := b_emitx b; b_emity := b_emity b;
     b_emit := b_emit b; b_tw := b_tw b; b_stdz := stdz; b_dpop := dpop; b_quiet := b_quiet b;
     b_trans := b_trans b; b_long := l; b_ids := b_ids b; b_t := b_t b; b_c := b_c b; b_cutoff := b_cutoff b |}.
Definition with_insert (b : bunch) (t c : R) : bunch :=
  {| b_kind := b_kind b; b_npart := b_npart b; b_dist := b_dist b; b_emitx := b_emitx b; b_emity := b_emity b;
     b_emit := b_emit b; b_tw := b_tw b; b_stdz := b_stdz b; b_dpop := b_dpop b; b_quiet := b_quiet b;
     b_trans := b_trans b; b_long := b_long b; b_ids := b_ids b; b_t := t; b_c := c; b_cutoff := b_cutoff b |}.
Definition with_quiet (b : bunch) (q : bool) : bunch :=
  {| b_kind := b_kind b; b_npart := b_npart b; b_dist := b_dist b; b_emitx := b_emitx b; b_emity := b_emity b;
     b_emit := b_emit b; b_tw := b_tw b; b_stdz := b_stdz b; b_dpop := b_dpop b; b_quiet := q;
     b_trans := b_trans b; b_long := b_long b; b_ids := b_ids b; b_t := b_t b; b_c := b_c b; b_cutoff := b_cutoff b |}.

(** Running a method: the object afterwards, also when it raises, and the outcome. *)
Definition run := (bunch * res unit)%type.
Definition then_ (r : run) (f : bunch -> run) : run :=
  match r with (b, Ok _) => f b | (b, Err e) => (b, Err e) | (b, Diverges) => (b, Diverges) end.

(** Reading the properties: bunch.py 113-115, 135-137, 144-146 (again 391-393, 423-434), and for betay 124-128 and 407-411: the
    decorator is [@betax.setter], so the property bound to betay has the getter of betax. *)
Definition get_betax (b : bunch) : R := u_betax (b_tw b).
Definition get_betay (b : bunch) : R := u_betax (b_tw b).
Definition get_alphax (b : bunch) : R := u_alphax (b_tw b).
Definition get_alphay (b : bunch) : R := u_alphay (b_tw b).

Definition set_bx (t : twiss4) v := {| u_betax := v; u_alphax := u_alphax t; u_betay := u_betay t; u_alphay := u_alphay t; u_gammax := u_gammax t; u_gammay := u_gammay t |}.
Definition set_ax (t : twiss4) v := {| u_betax := u_betax t; u_alphax := v; u_betay := u_betay t; u_alphay := u_alphay t; u_gammax := u_gammax t; u_gammay := u_gammay t |}.
Definition set_by (t : twiss4) v := {| u_betax := u_betax t; u_alphax := u_alphax t; u_betay := v; u_alphay := u_alphay t; u_gammax := u_gammax t; u_gammay := u_gammay t |}.
Definition set_ay (t : twiss4) v := {| u_betax := u_betax t; u_alphax := u_alphax t; u_betay := u_betay t; u_alphay := v; u_gammax := u_gammax t; u_gammay := u_gammay t |}.
Definition set_gx (t : twiss4) v := {| u_betax := u_betax t; u_alphax := u_alphax t; u_betay := u_betay t; u_alphay := u_alphay t; u_gammax := v; u_gammay := u_gammay t |}.
Definition set_gy (t : twiss4) v := {| u_betax := u_betax t; u_alphax := u_alphax t; u_betay := u_betay t; u_alphay := u_alphay t; u_gammax := u_gammax t; u_gammay := v |}.

(** The statements [self._gammax = (1 + self._alphax**2) / self._betax] and the like. *)
Definition assign_gx (b : bunch) : run :=
  match pdiv (1 + u_alphax (b_tw b) ^ 2) (u_betax (b_tw b)) with
  | Ok g => (with_tw b (set_gx (b_tw b) g), Ok tt) | Err e => (b, Err e) | Diverges => (b, Diverges) end.
Definition assign_gy (b : bunch) : run :=
  match pdiv (1 + u_alphay (b_tw b) ^ 2) (u_betay (b_tw b)) with
  | Ok g => (with_tw b (set_gy (b_tw b) g), Ok tt) | Err e => (b, Err e) | Diverges => (b, Diverges) end.
(** bunch.py 404: [self._gammay = (1 + self._alphax**2) / self._betax] *)
Definition assign_gy_from_x (b : bunch) : run :=
  match pdiv (1 + u_alphax (b_tw b) ^ 2) (u_betax (b_tw b)) with
  | Ok g => (with_tw b (set_gy (b_tw b) g), Ok tt) | Err e => (b, Err e) | Diverges => (b, Diverges) end.

(** bunch.py 116-122 and 394-404 *)
Definition set_betax (b : bunch) (bet : R) : run :=
  if Rlt_dec bet 0 then (b, Err ValueError) else
  let b := with_tw b (set_bx (b_tw b) bet) in
  match b_kind b with
  | Standard => assign_gx b
  | Nonlinear =>
      then_ (assign_gx b) (fun b => assign_gy_from_x (with_tw b (set_by (b_tw b) bet)))
  end.

(** bunch.py 127-133 and 410-420 *)
Definition set_betay (b : bunch) (bet : R) : run :=
  if Rlt_dec bet 0 then (b, Err ValueError) else
  let b := with_tw b (set_by (b_tw b) bet) in
  match b_kind b with
  | Standard => assign_gy b
  | Nonlinear =>
      then_ (assign_gy b) (fun b => assign_gx (with_tw b (set_bx (b_tw b) bet)))
  end.

(** bunch.py 138-142 and 426-430 *)
Definition set_alphax (b : bunch) (alph : R) : run := assign_gx (with_tw b (set_ax (b_tw b) alph)).

(** bunch.py 147-151 and 435-439 *)
Definition set_alphay (b : bunch) (alph : R) : run := assign_gy (with_tw b (set_ay (b_tw b) alph)).

(** bunch.py 363-367 and 374-378 *)
Definition set_c (b : bunch) (v : R) : run :=
  if Rlt_dec v 0 then (b, Err ValueError) else (with_insert b (b_t b) v, Ok tt).
Definition set_t (b : bunch) (v : R) : run :=
  if Rlt_dec v 0 then (b, Err ValueError) else (with_insert b v (b_c b), Ok tt).

(** bunch.py 384-388: the setter of cutoff reads the name [cval], which does not exist. *)
Definition set_cutoff (b : bunch) (v : R) : run := (b, Err NameError).

(** bunch.py 260-269 print_Twiss: labels and values printed. *)
Definition print_Twiss (b : bunch) : list (string * R) :=
  let t := b_tw b in
  [("betax", u_betax t); ("betay", u_betay t); ("alphax", u_alphax t); ("alphay", u_alphay t);
   ("gammax", u_gammax t); ("gammay", u_gammay t)]%string.

(** ** Potentials *)
(** numpy.arccosh and numpy.arccos: nan outside their domain. *)
Definition narccosh (u : R) : fl := if Rle_dec 1 u then Some (ln (u + sqrt (u ^ 2 - 1))) else None.
Definition narccos (v : R) : fl := if Rle_dec (-1) v then (if Rle_dec v 1 then Some (acos v) else None) else None.

(** bunch.py 684-687: the elliptic coordinates of a normalised point. *)
Definition elliptic_u (xN yN : R) : fl :=
  fmap1 (fun s => s / 2) (fmap2 Rplus (nsqrt ((xN + 1) ^ 2 + yN ^ 2)) (nsqrt ((xN - 1) ^ 2 + yN ^ 2))).
Definition elliptic_v (xN yN : R) : fl :=
  fmap1 (fun s => s / 2) (fmap2 Rminus (nsqrt ((xN + 1) ^ 2 + yN ^ 2)) (nsqrt ((xN - 1) ^ 2 + yN ^ 2))).

Definition fbind (x : fl) (f : R -> fl) : fl := match x with Some a => f a | None => None end.

(** bunch.py 689-690 *)
Definition f2u (u : R) : fl := fmap2 Rmult (fmap1 (Rmult u) (nsqrt (u ^ 2 - 1))) (narccosh u).
Definition g2v (v : R) : fl :=
  fmap2 Rmult (fmap1 (Rmult v) (nsqrt (1 - v ^ 2))) (fmap1 (fun a => - PI / 2 + a) (narccos v)).

(** bunch.py 279-283 and 669-697 compute_potential *)
Definition compute_potential (b : bunch) (xHat yHat : R) : res fl :=
  let quadratic := 1/2 * (xHat ^ 2 + yHat ^ 2) in
  match b_kind b with
  | Standard => Ok (Some quadratic)
  | Nonlinear =>
      if Req_EM_T (b_t b) 0 then Ok (Some (quadratic + 1 * 0)) else
      do xN <- pdiv xHat (b_c b);
      do yN <- pdiv yHat (b_c b);
      let kfac := -1 * b_t b * b_c b ^ 2 in
      let elliptic :=
        fbind (elliptic_u xN yN) (fun u => fbind (elliptic_v xN yN) (fun v =>
          ndiv (fmap2 Rplus (f2u u) (g2v v)) (Some (u ^ 2 - v ^ 2)))) in
      Ok (fmap1 (fun e => quadratic + kfac * e) elliptic)
  end.

(** bunch.py 272-277 and 660-667 compute_Hamiltonian *)
Definition compute_Hamiltonian (b : bunch) (xHat pxHat yHat pyHat : R) : res fl :=
  match b_kind b with
  | Standard => Ok (Some (1/2 * (pxHat ^ 2 + pyHat ^ 2) + 1/2 * (xHat ^ 2 + yHat ^ 2)))
  | Nonlinear =>
      do p <- compute_potential b xHat yHat;
      Ok (fmap1 (fun v => 1/2 * (pxHat ^ 2 + pyHat ^ 2) + v) p)
  end.

(** bunch.py 285-288 whatsleft *)
Definition whatsleft (b : bunch) (yHat : R) : res fl :=
  do p <- compute_potential b 0 yHat; Ok (fmap1 (fun v => b_emit b - v) p).

(** ** Distributions *)
(** bunch.py 290-303 exact_centroids: the three particles appended. *)
Definition fneg (x : fl) : fl := fmap1 Ropp x.
Definition exact_centroids (p : coords) : list coords :=
  [{| c_x := fneg (c_x p); c_px := c_px p; c_y := fneg (c_y p); c_py := c_py p |};
   {| c_x := fneg (c_x p); c_px := fneg (c_px p); c_y := fneg (c_y p); c_py := fneg (c_py p) |};
   {| c_x := c_x p; c_px := fneg (c_px p); c_y := c_y p; c_py := fneg (c_py p) |}].

(** bunch.py 234-246, 504-516, 565-573, 635-643: the particle made from an accepted trial
    point (x,y) of potential [pot] below [h]; [u] is the random number that gives the
    direction of the momentum. *)
Definition make_particle (b : bunch) (h x y pot u : R) : coords :=
  let pMag := sqrt (2 * (h - pot)) in
  let pDir := 2 * PI * u in
  let pxHat := pMag * cos pDir in
  let pyHat := pMag * sin pDir in
  {| c_x := fmap1 (Rmult x) (nsqrt (get_betax b));
     c_px := match nsqrt (get_betax b) with Some s => ndiv (Some (pxHat - get_alphax b * x)) (Some s) | None => None end;
     c_y := fmap1 (Rmult y) (nsqrt (get_betay b));
     c_py := match nsqrt (get_betay b) with Some s => ndiv (Some (pyHat - get_alphay b * y)) (Some s) | None => None end |}.

(** bunch.py 247-253 (and 517-523, 574-580, 644-650): what one accepted particle appends. *)
Definition appended (b : bunch) (p : coords) : list coords :=
  p :: (if b_quiet b then exact_centroids p else []).

(** [self.particles[:,:4] = np.asarray(phaseSpaceList)]: numpy refuses a list of another
    length, and the empty list, which has shape (0,). *)
Definition store (b : bunch) (l : list coords) : run :=
  if Nat.eqb (List.length l) (b_npart b) && negb (Nat.eqb (List.length l) 0) then (with_trans b l, Ok tt)
  else (b, Err ValueError).

(** The random numbers: [rnd k] is the k-th value returned by random.random().  [newton] is
    scipy.optimize.newton, arbitrary here.  [fuel] bounds the passes of a loop only to make
    the functions total: Diverges means that the loop is still running. *)
Section Distributions.
Variable newton : (R -> res fl) -> fl -> res R.
Variable rnd : nat -> R.

(** bunch.py 224-253 and 494-523: the loop of distribute_KV. *)
Fixpoint kv_loop (fuel : nat) (b : bunch) (xMax yMax : R) (pos made : nat) (acc : list coords) : res (list coords) :=
  match fuel with
  | O => Diverges
  | S fuel =>
      if (made <? b_npart b)%nat then
        let xTrial := 2 * (1/2 - rnd pos) * xMax in
        let yTrial := 2 * (1/2 - rnd (pos + 1)%nat) * yMax in
        do pot <- compute_potential b xTrial yTrial;
        match pot with
        | Some v =>
            if Rlt_dec v (b_emit b) then
              let p := make_particle b (b_emit b) xTrial yTrial v (rnd (pos + 2)%nat) in
              kv_loop fuel b xMax yMax (pos + 3) (made + (if b_quiet b then 4 else 1)) (acc ++ appended b p)
            else kv_loop fuel b xMax yMax (pos + 2) made acc
        | None => kv_loop fuel b xMax yMax (pos + 2) made acc
        end
      else Ok acc
  end.

(** bunch.py 203-255 and 468-525 distribute_KV *)
Definition distribute_KV (fuel : nat) (b : bunch) : run :=
  if Req_EM_T (b_emitx b) (b_emity b) then
    let emit := match b_kind b with Standard => 4 * b_emitx b | Nonlinear => b_emitx b end in
    let b := with_emit b emit in
    match newton (whatsleft b) (nsqrt (b_emit b)) with
    | Ok yMax =>
        let xMax := match b_kind b with Standard => yMax | Nonlinear => b_c b end in
        match kv_loop fuel b xMax yMax 0 0 [] with
        | Ok l => store b l
        | Err e => (b, Err e)
        | Diverges => (b, Diverges)
        end
    | Err e => (b, Err e)
    | Diverges => (b, Diverges)
    end
  else (b, Err AssertionError).

(** bunch.py 541-543: draw until positive. *)
Fixpoint draw_positive (fuel pos : nat) : res (R * nat) :=
  match fuel with
  | O => Diverges
  | S fuel => if Rle_dec (rnd pos) 0 then draw_positive fuel (pos + 1) else Ok (rnd pos, (pos + 1)%nat)
  end.

(** bunch.py 557-561 and 628-632: trial points until the potential is not above [newH] (a
    nan ends the loop too).  [pt] and [value] are the variables xTrial, yTrial and
    trialValue; the points are unbound before the first trial of the method. *)
Fixpoint trial_loop (fuel : nat) (b : bunch) (newH xMax yMax : R) (pos : nat)
  (pt : option (R * R)) (value : fl) : res (option (R * R) * fl * nat) :=
  match fuel with
  | O => Diverges
  | S fuel =>
      match value with
      | None => Ok (pt, value, pos)
      | Some v =>
          if Rle_dec newH v then
            let xTrial := 2 * (1/2 - rnd pos) * xMax in
            let yTrial := 2 * (1/2 - rnd (pos + 1)%nat) * yMax in
            do pot <- compute_potential b xTrial yTrial;
            trial_loop fuel b newH xMax yMax (pos + 2) (Some (xTrial, yTrial)) pot
          else Ok (pt, value, pos)
      end
  end.

(** bunch.py 538-582: the loop of distribute_waterbag. *)
Fixpoint waterbag_loop (inner fuel : nat) (b : bunch) (pos made : nat) (pt : option (R * R)) (acc : list coords)
  : res (list coords) :=
  match fuel with
  | O => Diverges
  | S fuel =>
      if (made <? b_npart b)%nat then
        do2 (ranU, pos) <- draw_positive inner pos;
        let newH := b_emit b * sqrt ranU in
        do yMax <- newton (whatsleft b) (nsqrt newH);
        do2 (pt, value, pos) <- trial_loop inner b newH (b_c b) yMax pos pt (Some (10 ^ 10));
        match value with
        | Some v =>
            if Rlt_dec v newH then
              match pt with
              | Some (x, y) =>
                  let p := make_particle b newH x y v (rnd pos) in
                  waterbag_loop inner fuel b (pos + 1) (made + (if b_quiet b then 4 else 1)) pt (acc ++ appended b p)
              | None => Err UnboundLocalError
              end
            else waterbag_loop inner fuel b pos made pt acc
        | None => waterbag_loop inner fuel b pos made pt acc
        end
      else Ok acc
  end.

(** bunch.py 528-584 distribute_waterbag *)
Definition distribute_waterbag (inner fuel : nat) (b : bunch) : run :=
  match waterbag_loop inner fuel b 0 0 None [] with
  | Ok l => store b l
  | Err e => (b, Err e)
  | Diverges => (b, Diverges)
  end.

(** bunch.py 607-611: draw two numbers until their product is positive. *)
Fixpoint draw_two (fuel pos : nat) : res (R * nat) :=
  match fuel with
  | O => Diverges
  | S fuel =>
      let q := rnd pos * rnd (pos + 1)%nat in
      if Rle_dec q 0 then draw_two fuel (pos + 2) else Ok (q, (pos + 2)%nat)
  end.

(** bunch.py 605-612: draw trialH until it is not above the cutoff. *)
Fixpoint draw_H (inner fuel : nat) (cutoff trialH : R) (pos : nat) : res (R * nat) :=
  match fuel with
  | O => Diverges
  | S fuel =>
      if Rlt_dec cutoff trialH then
        do2 (q, pos) <- draw_two inner pos;
        draw_H inner fuel cutoff (-1 * ln q) pos
      else Ok (trialH, pos)
  end.

(** bunch.py 602-652: the loop of the derived class's distribute_Gaussian; the object is
    threaded because the loop writes self.emit. *)
Fixpoint gaussian_loop (inner fuel : nat) (emit0 : R) (b : bunch) (pos made : nat) (pt : option (R * R))
  (acc : list coords) : bunch * res (list coords) :=
  match fuel with
  | O => (b, Diverges)
  | S fuel =>
      if (made <? b_npart b)%nat then
        match draw_H inner inner (b_cutoff b) (10 ^ 10) pos with
        | Err e => (b, Err e)
        | Diverges => (b, Diverges)
        | Ok (trialH, pos) =>
            let newH := emit0 * trialH in
            let b := with_emit b newH in
            match (do yMax <- newton (whatsleft b) (nsqrt newH);
                   trial_loop inner b newH (b_c b) yMax pos pt (Some (10 ^ 10))) with
            | Err e => (b, Err e)
            | Diverges => (b, Diverges)
            | Ok (pt, value, pos) =>
                match value with
                | Some v =>
                    if Rlt_dec v newH then
                      match pt with
                      | Some (x, y) =>
                          let p := make_particle b newH x y v (rnd pos) in
                          gaussian_loop inner fuel emit0 b (pos + 1) (made + (if b_quiet b then 4 else 1)) pt (acc ++ appended b p)
                      | None => (b, Err UnboundLocalError)
                      end
                    else gaussian_loop inner fuel emit0 b pos made pt acc
                | None => gaussian_loop inner fuel emit0 b pos made pt acc
                end
            end
        end
      else (b, Ok acc)
  end.

(** bunch.py 587-657 distribute_Gaussian of the derived class *)
Definition distribute_Gaussian_nonlinear (inner fuel : nat) (b : bunch) : run :=
  let bunch_emittance := b_emit b in
  match gaussian_loop inner fuel bunch_emittance b 0 0 None [] with
  | (b, Ok l) => store (with_emit b bunch_emittance) l
  | (b, Err e) => (b, Err e)
  | (b, Diverges) => (b, Diverges)
  end.

(** bunch.py 188-200 distribute_Gaussian of the base class; [randn k] are the numbers of the
    k-th call of numpy.random.randn(npart).  It does not look at [quiet]. *)
Definition fmul (r : R) (s : fl) : fl := fmap1 (Rmult r) s.
Definition distribute_Gaussian_standard (randn : nat -> list R) (b : bunch) : run :=
  let t := b_tw b in
  let sigma_x := nsqrt (b_emitx b * u_betax t) in
  let sigma_xp := nsqrt (b_emitx b * u_gammax t) in
  let sigma_y := nsqrt (b_emity b * u_betay t) in
  let sigma_yp := nsqrt (b_emity b * u_gammay t) in
  (with_trans b (map (fun p => {| c_x := fmul (fst (fst p)) sigma_x; c_px := fmul (snd (fst p)) sigma_xp;
                                  c_y := fmul (fst (snd p)) sigma_y; c_py := fmul (snd (snd p)) sigma_yp |})
                     (combine (combine (randn 0%nat) (randn 1%nat)) (combine (randn 2%nat) (randn 3%nat)))), Ok tt).

(** An optional keyword argument. *)
Definition optional (f : bunch -> R -> run) (v : option R) (b : bunch) : run :=
  match v with None => (b, Ok tt) | Some v => f b v end.
Definition assign_emitx (b : bunch) (v : R) : run := (with_emits b v (b_emity b) (b_emit b), Ok tt).
Definition assign_emity (b : bunch) (v : R) : run := (with_emits b (b_emitx b) v (b_emit b), Ok tt).

(** bunch.py 165-185: set_transverse_coordinates of the base class, the assignments and the
    choice of the distribution.  Line 173 assigns betay to betax. *)
Definition set_transverse_standard (randn : nat -> list R) (fuel : nat)
  (emitx emity betax alphax betay alphay : option R) (b : bunch) : run :=
  then_ (optional set_betax betax b) (fun b =>
  then_ (optional set_alphax alphax b) (fun b =>
  then_ (optional set_betax betay b) (fun b =>
  then_ (optional set_alphay alphay b) (fun b =>
  then_ (optional assign_emitx emitx b) (fun b =>
  then_ (optional assign_emity emity b) (fun b =>
  if String.eqb (b_dist b) "Gaussian" then distribute_Gaussian_standard randn b
  else if String.eqb (b_dist b) "KV" then distribute_KV fuel b
  else (b, Ok tt))))))).

(** bunch.py 442-466: set_transverse_coordinates of the derived class. *)
Definition set_transverse_nonlinear (inner fuel : nat)
  (emitx emity betax alphax cutoff : option R) (b : bunch) : run :=
  then_ (optional set_betax betax b) (fun b =>
  then_ (optional set_alphax alphax b) (fun b =>
  then_ (optional assign_emitx emitx b) (fun b =>
  then_ (optional assign_emity emity b) (fun b =>
  then_ (optional set_cutoff cutoff b) (fun b =>
  if String.eqb (b_dist b) "KV" then distribute_KV fuel b
  else if String.eqb (b_dist b) "waterbag" then distribute_waterbag inner fuel b
  else if String.eqb (b_dist b) "Gaussian" then distribute_Gaussian_nonlinear inner fuel b
  else (b, Ok tt)))))).

End Distributions.

(** bunch.py 154-163 set_longitudinal_coordinates *)
Definition set_longitudinal (randn : nat -> list R) (stdz dpop : option R) (b : bunch) : run :=
  let s := match stdz with Some v => v | None => b_stdz b end in
  let d := match dpop with Some v => v | None => b_dpop b end in
  (with_long b s d (map (fun p => (fst p * s, snd p * d)) (combine (randn 0%nat) (randn 1%nat))), Ok tt).

(** Model of rsbeams/rsstats/stats6d.py.
    A beam (numpy array of shape (6, N)) is the list of its rows.  Floats are exact reals.
    numpy statements that act on a whole column of six numbers act on the six rows
    independently; they are modelled row by row. *)
From Coq Require Import List Reals Bool Arith ZArith.
From Verif Require Import PyBase.
Import ListNotations.
Open Scope R_scope.

Definition beam := list (list R).

(** Python's sum of a list (numpy.add.reduce), exact. *)
Definition rsum (l : list R) : R := fold_right Rplus 0 l.

(** stats6d.py 17-18, one row: scipy.average; the mean of no numbers is nan. *)
Definition avg_row (row : list R) : fl := ndiv (Some (rsum row)) (Some (INR (length row))).

(** stats6d.py 17-18 calc_avg6d *)
Definition calc_avg6d (b : beam) : list fl := map avg_row b.

(** stats6d.py 23: array6D[nLoop,:] -= avg6d[nLoop], for all rows.  The average is nan
    only for an empty row, where there is nothing to subtract from. *)
Fixpoint sub_rows (b : beam) (avg : list fl) : beam :=
  match b, avg with
  | row :: b', Some a :: avg' => map (fun x => x - a) row :: sub_rows b' avg'
  | row :: b', None :: avg' => row :: sub_rows b' avg'
  | _, _ => []
  end.

(** stats6d.py 20-23 sub_avg6d: the new content of the array. *)
Definition sub_avg6d (b : beam) : beam := sub_rows b (calc_avg6d b).

(** stats6d.py 29-33, one row: the loop over particles n, n+1, ...; [avg] is the
    content of the array cell [row, 0], of which avgIter is a view. *)
Fixpoint welford (n : nat) (avg var : R) (xs : list R) : R * R :=
  match xs with
  | [] => (avg, var)
  | x :: xs' =>
      let tmpIter := x - avg in
      let avg' := avg + (x - avg) / INR (n + 1) in
      welford (S n) avg' (var + (x - avg') * tmpIter) xs'
  end.

(** stats6d.py 25-34, one row: returns the row as it is left in the array (cell 0 holds
    the final avgIter) and the returned value.  An empty array has no column 0. *)
Definition variance_row (row : list R) : res (list R * R) :=
  match row with
  | [] => Err IndexError
  | x0 :: xs =>
      let '(avg, var) := welford 1 x0 0 xs in
      Ok (avg :: xs, var / INR (length row))
  end.

(** stats6d.py 25-34 calc_variance6d: the array afterwards and the six results. *)
Fixpoint calc_variance6d (b : beam) : res (beam * list R) :=
  match b with
  | [] => Ok ([], [])
  | row :: b' =>
      do r <- variance_row row;
      do rs <- calc_variance6d b';
      Ok (fst r :: fst rs, snd r :: snd rs)
  end.

(** stats6d.py 36-37 calc_rms6d.  The argument of the root is never negative
    (see Stats_Proofs), so the real square root is used. *)
Definition calc_rms6d (b : beam) : res (beam * list R) :=
  do r <- calc_variance6d b; Ok (fst r, map sqrt (snd r)).

(** stats6d.py 41-42: multiply row by the inverse rms; 1./0. gives an infinity,
    modelled as None for the whole row. *)
Fixpoint scale_rows (b : beam) (f : list fl) : list (option (list R)) :=
  match b, f with
  | row :: b', Some a :: f' => Some (map (fun x => x * a) row) :: scale_rows b' f'
  | _ :: b', None :: f' => None :: scale_rows b' f'
  | _, _ => []
  end.

(** stats6d.py 39-42 normalize_rms6d. *)
Definition normalize_rms6d (b : beam) : res (list (option (list R))) :=
  do r <- calc_rms6d b;
  Ok (scale_rows (fst r) (map (fun s => ndiv (Some 1) (Some s)) (snd r))).

(** stats6d.py 44-48: numpy.min / numpy.max along axis 1; a zero-size array raises ValueError. *)
Definition min_row (row : list R) : res R :=
  match row with [] => Err ValueError | x :: xs => Ok (fold_left Rmin xs x) end.
Definition max_row (row : list R) : res R :=
  match row with [] => Err ValueError | x :: xs => Ok (fold_left Rmax xs x) end.

(** stats6d.py 60-64: the accumulation over particles for i <> j. *)
Fixpoint corr_acc (acc : R) (ri rj : list R) (mi mj : R) : R :=
  match ri, rj with
  | x :: ri', y :: rj' => corr_acc (acc + (x - mi) * (y - mj)) ri' rj' mi mj
  | _, _ => acc
  end.

(** stats6d.py 50-65 calc_correlations6d: the array afterwards (calc_variance6d is
    called on it) and the matrix as a function of the two indices.  The means are finite
    because calc_variance6d has refused an empty array. *)
Definition calc_correlations6d (b : beam) : res (beam * (nat -> nat -> R)) :=
  let avg := calc_avg6d b in
  do vr <- calc_variance6d b;
  let b1 := fst vr in
  let mean i := match nth i avg None with Some a => a | None => 0 end in
  let npoints := length (nth 0 b []) in
  Ok (b1, fun i j =>
        if Nat.eqb i j then nth i (snd vr) 0
        else corr_acc 0 (nth i b1 []) (nth j b1 []) (mean i) (mean j) / INR npoints).

(* ------------------------------------------------------------------ *)
(** ** jacobi_eigen_solver6d (stats6d.py 85-168) *)

Definition mat := nat -> nat -> R.
Definition vec := nat -> R.

Definition upd1 (v : vec) (i : nat) (x : R) : vec :=
  fun k => if Nat.eqb k i then x else v k.
Definition upd2 (m : mat) (i j : nat) (x : R) : mat :=
  fun k l => if Nat.eqb k i && Nat.eqb l j then x else m k l.

(** The mutable variables of the solver. *)
Record jst := mkJ {
  j_sig : mat;    (* sigma6D, overwritten in place *)
  j_vec : mat;    (* eVecs *)
  j_val : vec;    (* eVals *)
  j_b : vec;      (* bTemp *)
  j_z : vec       (* zTemp *)
}.

(** stats6d.py 87-95 *)
Definition jacobi_init (s : mat) : jst :=
  {| j_sig := s;
     j_vec := fun i j => if Nat.eqb i j then 1 else 0;
     j_val := fun i => s i i;
     j_b := fun i => s i i;
     j_z := fun _ => 0 |}.

(** stats6d.py 101-102 and 116-117: the pairs (ip, iq) in loop order. *)
Definition pairs6 : list (nat * nat) :=
  flat_map (fun p => map (fun q => (p, q)) (seq (p + 1) (6 - (p + 1)))) (seq 0 5).

(** stats6d.py 100-103 *)
Definition off_sum (s : mat) : R :=
  fold_left (fun acc pq => acc + Rabs (s (fst pq) (snd pq))) pairs6 0.

(** stats6d.py 139-143 with cells (j,ip) and (j,iq); 144-148 with (ip,j),(j,iq);
    149-153 with (ip,j),(iq,j); 154-158 with (j,ip),(j,iq) of eVecs: the same update of
    two cells a and b. *)
Definition rot2 (sT tau : R) (a b : nat * nat) (m : mat) : mat :=
  let gScal := m (fst a) (snd a) in
  let hScal := m (fst b) (snd b) in
  let m1 := upd2 m (fst a) (snd a) (gScal - sT * (hScal + gScal * tau)) in
  upd2 m1 (fst b) (snd b) (hScal + sT * (gScal - hScal * tau)).

(** stats6d.py 139-153 *)
Definition rotate_sigma (sT tau : R) (p q : nat) (m : mat) : mat :=
  let m1 := fold_left (fun m j => rot2 sT tau (j, p) (j, q) m) (seq 0 p) m in
  let m2 := fold_left (fun m j => rot2 sT tau (p, j) (j, q) m) (seq (p + 1) (q - (p + 1))) m1 in
  fold_left (fun m j => rot2 sT tau (p, j) (q, j) m) (seq (q + 1) (6 - (q + 1))) m2.

(** stats6d.py 154-158 *)
Definition rotate_vecs (sT tau : R) (p q : nat) (m : mat) : mat :=
  fold_left (fun m j => rot2 sT tau (j, p) (j, q) m) (seq 0 6) m.

(** stats6d.py 123-129: tScal *)
Definition jacobi_t (d : vec) (spq : R) (gScal : R) (p q : nat) : R :=
  let hScal := d q - d p in
  if Req_EM_T (Rabs hScal + gScal) (Rabs hScal) then spq / hScal
  else
    let theta := (1 / 2) * hScal / spq in
    let t := 1 / (Rabs theta + sqrt (1 + theta ^ 2)) in
    if Rlt_dec theta 0 then t * -1 else t.

(** stats6d.py 130-158 *)
Definition jacobi_rotate (t : R) (p q : nat) (st : jst) : jst :=
  let cT := 1 / sqrt (1 + t ^ 2) in
  let sT := t * cT in
  let tau := sT / (1 + cT) in
  let hScal := t * j_sig st p q in
  {| j_z := upd1 (upd1 (j_z st) p (j_z st p - hScal)) q
              (upd1 (j_z st) p (j_z st p - hScal) q + hScal);
     j_val := upd1 (upd1 (j_val st) p (j_val st p - hScal)) q
              (upd1 (j_val st) p (j_val st p - hScal) q + hScal);
     j_sig := rotate_sigma sT tau p q (upd2 (j_sig st) p q 0);
     j_vec := rotate_vecs sT tau p q (j_vec st);
     j_b := j_b st |}.

(** stats6d.py 118-159: one pair of the sweep. *)
Definition jacobi_pair (nMaster : nat) (threshold : R) (st : jst) (pq : nat * nat) : jst :=
  let '(p, q) := pq in
  let gScal := 100 * Rabs (j_sig st p q) in
  if Nat.ltb 3 nMaster
     && (if Req_EM_T (Rabs (j_val st p + gScal)) (Rabs (j_val st p)) then true else false)
     && (if Req_EM_T (Rabs (j_val st q + gScal)) (Rabs (j_val st q)) then true else false)
  then {| j_sig := upd2 (j_sig st) p q 0; j_vec := j_vec st; j_val := j_val st;
          j_b := j_b st; j_z := j_z st |}
  else if Rlt_dec threshold (Rabs (j_sig st p q))
  then jacobi_rotate (jacobi_t (j_val st) (j_sig st p q) gScal p q) p q st
  else st.

(** stats6d.py 110-165: one master iteration after the convergence test failed. *)
Definition jacobi_sweep (nMaster : nat) (sm : R) (st : jst) : jst :=
  let threshold := if Nat.ltb nMaster 3 then (2 / 10) * sm / 36 else 0 in
  let st1 := fold_left (jacobi_pair nMaster threshold) pairs6 st in
  let b1 := fun i => j_b st1 i + j_z st1 i in
  {| j_sig := j_sig st1; j_vec := j_vec st1; j_val := b1; j_b := b1; j_z := fun _ => 0 |}.

(** stats6d.py 99-168: the master loop; [left] iterations are left out of 50. *)
Fixpoint jacobi_loop (left nMaster : nat) (st : jst) : res (vec * mat) :=
  match left with
  | O => Err GenericException
  | S left' =>
      let sm := off_sum (j_sig st) in
      if Req_EM_T sm 0 then Ok (j_val st, j_vec st)
      else jacobi_loop left' (S nMaster) (jacobi_sweep nMaster sm st)
  end.

Definition jacobi_eigen_solver6d (s : mat) : res (vec * mat) :=
  jacobi_loop 50 0 (jacobi_init s).

(* ------------------------------------------------------------------ *)

(** stats6d.py 80-83, row i: the accumulation over j of eigVecs[j,i] * temp6D[j]. *)
Fixpoint add_rows (a b : list R) : list R :=
  match a, b with
  | x :: a', y :: b' => (x + y) :: add_rows a' b'
  | _, _ => []
  end.
Definition mix_row (v : mat) (b : beam) (npoints i : nat) : list R :=
  fold_left (fun acc j => add_rows acc (map (fun x => v j i * x) (nth j b [])))
            (seq 0 6) (repeat 0 npoints).

(** stats6d.py 67-83 rm_correlations6d: the array afterwards. *)
Definition rm_correlations6d (b : beam) : res beam :=
  do cr <- calc_correlations6d b;
  let npoints := length (nth 0 b []) in
  do ev <- jacobi_eigen_solver6d (snd cr);
  Ok (map (mix_row (snd ev) (fst cr) npoints) (seq 0 6)).

(* ------------------------------------------------------------------ *)

(** Python floor of a real. *)
Definition rfloor (x : R) : Z := (up x - 1)%Z.

(** Python round to an integer: nearest, ties to even. *)
Definition round_half_even (x : R) : Z :=
  let f := rfloor x in
  let d := x - IZR f in
  if Rlt_dec d (1/2) then f
  else if Rlt_dec (1/2) d then (f + 1)%Z
  else if Z.even f then f else (f + 1)%Z.

(** Python round(x, n). *)
Definition py_round (x : R) (n : Z) : R :=
  IZR (round_half_even (x * powerRZ 10 n)) / powerRZ 10 n.

(** stats6d.py 170-179 specify_significant_figures; math.log10(0) raises ValueError. *)
Definition specify_significant_figures (v : R) (n : Z) : R :=
  if Req_EM_T v 0 then 0
  else
    let my_exp := rfloor (ln (Rabs v) / ln 10) in
    let my_mult := v / powerRZ 10 my_exp in
    py_round my_mult (n - 1) * powerRZ 10 my_exp.

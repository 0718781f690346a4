(** Vocabulary for the claims about the switchyard (C65-C68, C90-C95). *)
From Coq Require Import List Bool Arith Ascii String ZArith Reals.
From Verif Require Import PyBase PyText Sdds_Model Sdds_Spec Switch_Model.
Import ListNotations.
Open Scope Z_scope.

(** A number that survives as a double: eight bytes, read as the same number *)
Definition exact (nb : numbers) (v : fl) : Prop := List.length (bits nb v) = 8%nat /\ num nb (bits nb v) = v.

(** A particle with a momentum that is not zero, whose elegant coordinates are doubles *)
Definition representable (nb : numbers) (p : particle) : Prop :=
  exists x ux y uy ct pt : R, p = {| px := Some x; pux := Some ux; py := Some y; puy := Some uy; pct := Some ct; ppt := Some pt |} /\ pt <> 0%R /\
    exact nb (Some x) /\ exact nb (Some (ux / pt)%R) /\ exact nb (Some y) /\ exact nb (Some (uy / pt)%R) /\
    exact nb (Some (ct / 299792458)%R) /\ exact nb (Some pt).

(** A species that has just been read or made: [s] is under the name [n] *)
Definition registered (y : yard) (n : text) (s : species) : Prop := species_of y n = Some s.
Definition unregistered (y : yard) (n : text) : Prop := species_of y n = None.

(** The name a call uses: the default if none or an empty one is given *)
Definition meant (name : option text) (n : text) : Prop :=
  ((name = None \/ name = Some []) /\ n = T "species_0") \/ (name = Some n /\ n <> []).

(** A call that reads a species successfully, under a name *)
Definition yields (nb : numbers) (fuel : nat) (c : call) (n : text) (s : species) : Prop :=
  exists w file format name kw, c = Read w file format name kw /\ meant name n /\ read_species nb fuel w file format kw = Some (Ok s).
(** the first call of a history that does so *)
Definition first_yield (nb : numbers) (fuel : nat) (calls : list call) (n : text) (s : species) : Prop :=
  exists before c after, calls = before ++ c :: after /\ yields nb fuel c n s /\ forall c' s', In c' before -> ~ yields nb fuel c' n s'.

(** Particles of an OPAL step: the coordinates x, px, y, py, z, pz *)
Record opal_particle := { ox : fl; opx : fl; oy : fl; opy : fl; oz : fl; opz : fl }.
Definition lookup_key {A} (l : list (text * A)) (k : text) (v : A) : Prop := exists a b, l = a ++ (k, v) :: b /\ ~ In k (map fst a).
Definition holds (g : h5group) (ps : list opal_particle) : Prop :=
  lookup_key (g_data g) (T "x") (map ox ps) /\ lookup_key (g_data g) (T "px") (map opx ps) /\
  lookup_key (g_data g) (T "y") (map oy ps) /\ lookup_key (g_data g) (T "py") (map opy ps) /\
  lookup_key (g_data g) (T "z") (map oz ps) /\ lookup_key (g_data g) (T "pz") (map opz ps).
(** the total charge is that of a monitor, or of a dump *)
Definition charged (g : h5group) (q : fl) : Prop :=
  (lookup_key (g_attrs g) (T "TotalCharge") q /\ q <> Some 0%R) \/
  (~ In (T "TotalCharge") (map fst (g_attrs g)) /\ lookup_key (g_attrs g) (T "CHARGE") q).
Definition same_particle (o : opal_particle) (p : particle) : Prop :=
  px p = ox o /\ pux p = opx o /\ py p = oy o /\ puy p = opy o /\ pct p = oz o /\ ppt p = opz o.

(** A file with steps: the keys are different, each is a step or ends in a letter *)
Definition step_key (k : Z) : text := T "Step#" ++ dec k.
Definition letter (c : ascii) : Prop := let n := nat_of_ascii c in (65 <= n <= 90 \/ 97 <= n <= 122)%nat.
Definition opal_file (f : h5file) : Prop :=
  NoDup (map fst f) /\ forall key, In key (map fst f) -> (exists k, 0 <= k /\ key = step_key k) \/ (exists a c, key = a ++ [c] /\ letter c).
Definition has_step (f : h5file) (k : Z) (g : h5group) : Prop := In (step_key k, g) f.
Definition largest_step (f : h5file) (k : Z) : Prop := In (step_key k) (map fst f) /\ forall j, 0 <= j -> In (step_key j) (map fst f) -> j <= k.

(** Columns of an elegant file *)
Definition elegant_names : list text := [T "x"; T "xp"; T "y"; T "yp"; T "t"; T "p"].
Definition elegant_columns (cs : list (text * kind)) : Prop := forall n, In n elegant_names -> In (n, Double) cs.
Definition cell (names : list text) (row : list value) (n : text) (v : value) : Prop := In (n, v) (combine names row).
(** a particle is that of a row: positions as they are, angles times momentum, time in metres *)
Definition particle_of (nb : numbers) (names : list text) (row : list value) (q : particle) : Prop :=
  forall x xp y yp t p, cell names row (T "x") (VDouble x) -> cell names row (T "xp") (VDouble xp) -> cell names row (T "y") (VDouble y) ->
    cell names row (T "yp") (VDouble yp) -> cell names row (T "t") (VDouble t) -> cell names row (T "p") (VDouble p) ->
    px q = num nb x /\ pux q = fmap2 Rmult (num nb xp) (num nb p) /\ py q = num nb y /\ puy q = fmap2 Rmult (num nb yp) (num nb p) /\
    pct q = fmap2 Rmult (num nb t) (Some 299792458%R) /\ ppt q = num nb p.

(** Total momentum of transverse momenta and a longitudinal one *)
Definition total (ux uy uz : R) : R := sqrt (ux * ux + uy * uy + uz * uz).

(** Lines of numbers *)
Definition shown_row (show : fl -> text) (row : list fl) : text := join [space] (map show row).
Definition finite (v : fl) : Prop := exists r, v = Some r.
Fixpoint rsum (l : list R) : R := match l with [] => 0%R | x :: r => (x + rsum r)%R end.

(** Files of numbers: lines *)
Definition lines (ls : list text) : text := List.concat (map (fun l => l ++ [newline]) ls).
(** the six numbers of a particle with another time *)
Definition genesis_row (p : particle) (t : R) : list fl := [px p; pux p; py p; puy p; Some t; ppt p].

(** Rows of all pages, in order *)
Definition rows_of_pages (pgs : list page) : list (list value) := List.concat (map pg_rows pgs).
(** The charge parameter, if it is in the data, is a double *)
Definition charge_readable (ps : list (text * kind)) : Prop := In (T "Charge") (map fst ps) -> In (T "Charge", Double) ps.
Definition page_charge (ps : list (text * kind)) (pg : page) (b : text) : Prop := In (T "Charge", VDouble b) (combine (map fst ps) (pg_params pg)).

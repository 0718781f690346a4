(** Model of rsbeams/rsdata/switchyard.py and rsbeams/rsptcls/species.py: particle species read from
    elegant and OPAL files, kept by name and written for elegant, OPAL and Genesis.
    Floating-point numbers are reals, [None] is nan or an infinity. The elegant files are the bytes
    of Sdds_Model. An HDF5 file is its groups with their datasets and attributes. A missing file
    raises [GenericException], which stands for FileNotFoundError. *)
From Coq Require Import List Bool Arith Ascii String ZArith Reals.
From Verif Require Import PyBase PyText Sdds_Model.
Import ListNotations.
Open Scope Z_scope.

(** species.py 9-46: the columns of the coordinates, their count, and the other attributes. The
    coordinates are a table with six columns. Reading several pages of an elegant file makes the
    total charge an array. *)
Record particle := { px : fl; pux : fl; py : fl; puy : fl; pct : fl; ppt : fl }.
Inductive charge := NoCharge | Charge (q : fl) | Charges (qs : list fl).
Record species := { coordinates : list particle; sp_charge : option R; sp_mass : option R; total_charge : charge }.

(** Conversions done by numpy, pandas and str, which are not modelled: the bytes of a double, the
    number of some bytes, and what to_csv, savetxt and str print *)
Record numbers := { bits : fl -> text; num : text -> fl; csv : fl -> text; sci : fl -> text; str : charge -> text }.

(** scipy.constants.c *)
Definition light_speed : R := 299792458.
Definition times (x y : fl) : fl := fmap2 Rmult x y.
Definition minus (x y : fl) : fl := fmap2 Rminus x y.

(* ------------------------------------------------------------------ *)
(** Reading elegant files *)

(** an entry of a structured array, assigned to an array of doubles *)
Definition to_number (nb : numbers) (v : value) : res fl :=
  match v with
  | VDouble b | VFloat b => Ok (num nb b)
  | VInt z => Ok (Some (IZR z))
  | VReal x => Ok x
  | VStr t => match py_float t with Some x => Ok (Some x) | None => Err ValueError end
  end.
Fixpoint all_ok {A} (l : list (res A)) : res (list A) :=
  match l with [] => Ok [] | x :: r => do a <- x; do b <- all_ok r; Ok (a :: b) end.

(** the tables of all pages; an array of objects or of floats has no fields *)
Fixpoint tables (pages : list (option array)) : option (list array) :=
  match pages with
  | [] => Some []
  | None :: _ => None
  | Some a :: r => option_map (cons a) (tables r)
  end.
(** an entry of every row of every page; a missing name raises ValueError *)
Definition entries (name : text) (pages : list array) : res (list value) :=
  do cols <- all_ok (map (fun a => match position_of name (a_names a) with
                                   | Some i => Ok (map (fun row => nth i row (VInt 0)) (a_rows a))
                                   | None => Err ValueError
                                   end) pages);
  Ok (List.concat cols).

(** switchyard.py 31 and 39-40: squeeze, and one column of the result. A table of one row has no
    dimension left and cannot be sliced; one of several pages with several rows has two. *)
Definition column_of (nb : numbers) (pages : list array) (name : text) : res (list fl) :=
  do vs <- entries name pages;
  match List.length pages, vs with
  | 1%nat, [_] => Err IndexError
  | 1%nat, _ => all_ok (map (to_number nb) vs)
  | _, _ => if forallb (fun a => Nat.eqb (List.length (a_rows a)) 1) pages then all_ok (map (to_number nb) vs) else Err ValueError
  end.

(** switchyard.py 32-36: the charge, 0 if there is no such parameter *)
Definition charge_of (nb : numbers) (parameters : option (list (option array))) : res charge :=
  match parameters with
  | None => Err TypeError
  | Some pages =>
      match tables pages with
      | None | Some [] => Err IndexError
      | Some ts =>
          match entries (T "Charge") ts with
          | Ok vs => do qs <- all_ok (map (to_number nb) vs); Ok (match qs with [q] => Charge q | _ => Charges qs end)
          | Err ValueError => Ok (Charge (Some 0%R))
          | Err e => Err e
          | Diverges => Diverges
          end
      end
  end.

(** switchyard.py 38-45: the table of coordinates, with the conversions *)
Definition elegant_particle (x xp y yp t p : fl) : particle :=
  {| px := x; pux := times xp p; py := y; puy := times yp p; pct := times t (Some light_speed); ppt := p |}.
Fixpoint elegant_rows (xs xps ys yps ts ps : list fl) : list particle :=
  match xs, xps, ys, yps, ts, ps with
  | x :: xs, xp :: xps, y :: ys, yp :: yps, t :: ts, p :: ps => elegant_particle x xp y yp t p :: elegant_rows xs xps ys yps ts ps
  | _, _, _, _, _, _ => []
  end.

(** switchyard.py 11-49 read_elegant, on the bytes of the file. The outer [None] means that reading
    took more than [fuel] pages. *)
Definition read_elegant (nb : numbers) (fuel : nat) (f : text) : option (res species) :=
  match open_sdds f true 100 with
  | Err e => Some (Err e)
  | Diverges => Some Diverges
  | Ok r =>
      match read fuel r None with
      | None => None
      | Some (_, Err e) => Some (Err e)
      | Some (_, Diverges) => Some Diverges
      | Some (r, Ok _) =>
          Some (match r_columns r with
                | None => Err AttributeError
                | Some pages =>
                    do q <- charge_of nb (r_parameters r);
                    match tables pages with
                    | None | Some [] => Err IndexError
                    | Some ts =>
                        do xs <- column_of nb ts (T "x"); do xps <- column_of nb ts (T "xp"); do ys <- column_of nb ts (T "y");
                        do yps <- column_of nb ts (T "yp"); do tms <- column_of nb ts (T "t"); do ps <- column_of nb ts (T "p");
                        Ok {| coordinates := elegant_rows xs xps ys yps tms ps; sp_charge := Some (-1)%R; sp_mass := Some 511000%R; total_charge := q |}
                    end
                end)
      end
  end.

(* ------------------------------------------------------------------ *)
(** Reading OPAL files *)
Record h5group := { g_data : list (text * list fl); g_attrs : list (text * fl) }.
Definition h5file := list (text * h5group).
Definition assoc {A} (k : text) (l : list (text * A)) : option A := option_map snd (List.find (fun kv => teqb (fst kv) k) l).

(** switchyard.py 299-301 _get_step_number: the last piece of a split *)
Fixpoint last_piece (fuel : nat) (p s : text) : text :=
  match fuel with
  | O => s
  | S fuel => match find p s with Some n => last_piece fuel p (skipn (n + List.length p) s) | None => s end
  end.
Definition step_prefix : text := T "Step#".
Definition get_step_number (key : text) : text := last_piece (List.length key) step_prefix key.

(** switchyard.py 74-82: the largest of the numbers; numpy.max of nothing raises ValueError *)
Definition step_numbers (keys : list text) : list Z :=
  flat_map (fun k => match py_int (get_step_number k) with Some z => [z] | None => [] end) keys.
Definition last_step (keys : list text) : res Z :=
  match step_numbers keys with [] => Err ValueError | z :: r => Ok (fold_left Z.max r z) end.

(** switchyard.py 84-87: a dataset is assigned to a column of [n] entries; a single entry is repeated *)
Definition assigned (n : nat) (d : list fl) : res (list fl) :=
  if Nat.eqb (List.length d) n then Ok d else match d with [x] => Ok (repeat x n) | _ => Err ValueError end.
Definition dataset (g : h5group) (name : text) : res (list fl) :=
  match assoc name (g_data g) with Some d => Ok d | None => Err KeyError end.
(** switchyard.py 89-90 *)
Definition opal_charge (g : h5group) : res charge :=
  match (match assoc (T "TotalCharge") (g_attrs g) with
         | Some (Some q) => if Req_EM_T q 0 then assoc (T "CHARGE") (g_attrs g) else Some (Some q)
         | Some None => Some None
         | None => assoc (T "CHARGE") (g_attrs g)
         end) with
  | Some q => Ok (Charge q)
  | None => Err AssertionError
  end.

Fixpoint opal_rows (xs pxs ys pys zs pzs : list fl) : list particle :=
  match xs, pxs, ys, pys, zs, pzs with
  | x :: xs, p :: pxs, y :: ys, q :: pys, z :: zs, s :: pzs =>
      {| px := x; pux := p; py := y; puy := q; pct := z; ppt := s |} :: opal_rows xs pxs ys pys zs pzs
  | _, _, _, _, _, _ => []
  end.

(** switchyard.py 52-95 read_opal. A step number of 0 is false, as None is. *)
Definition read_opal (f : h5file) (step : option Z) : res species :=
  do k <- match step with Some 0 | None => last_step (map fst f) | Some k => Ok k end;
  match assoc (step_prefix ++ dec k) f with
  | None => Err KeyError
  | Some g =>
      do z <- dataset g (T "z");
      let n := List.length z in
      let get name := do d <- dataset g (T name); assigned n d in
      do xs <- get "x"%string; do pxs <- get "px"%string; do ys <- get "y"%string; do pys <- get "py"%string;
      do zs <- get "z"%string; do pzs <- get "pz"%string;
      do q <- opal_charge g;
      Ok {| coordinates := opal_rows xs pxs ys pys zs pzs; sp_charge := Some (-1)%R; sp_mass := Some 511000%R; total_charge := q |}
  end.

(* ------------------------------------------------------------------ *)
(** The switchyard *)
Definition yard := list (text * species).
Definition new_yard : yard := [].
Definition species_of (y : yard) (name : text) : option species := assoc name y.
Definition default_name : text := T "species_0".
(** switchyard.py 174-175 and 291-292: no name, or an empty one *)
Definition resolve (name : option text) : text := match name with None | Some [] => default_name | Some n => n end.

(** switchyard.py 118, 133-138 and 145-147 *)
Definition supported_codes : list text := [T "genesis"; T "elegant"; T "opal"].
Definition is_supported (code : text) : bool := existsb (teqb code) supported_codes.

(** switchyard.py 140-143 _species_insert: setdefault; the comparison with != is by identity and
    only prints *)
Definition species_insert (y : yard) (name : text) (s : species) : yard :=
  match assoc name y with Some _ => y | None => y ++ [(name, s)] end.

(** the files a reader finds; keywords: the step number, if it is given, and its value *)
Record world := { sdds_files : text -> option text; h5_files : text -> option h5file }.
Definition keywords := option (option Z).

(** switchyard.py 130 and 149-155: the readers; there is none for genesis *)
Definition read_species (nb : numbers) (fuel : nat) (w : world) (file format : text) (kw : keywords) : option (res species) :=
  if teqb format (T "elegant") then
    match kw with
    | Some _ => Some (Err TypeError)
    | None => match sdds_files w file with Some f => read_elegant nb fuel f | None => Some (Err GenericException) end
    end
  else if teqb format (T "opal") then
    Some (match h5_files w file with
          | Some f => read_opal f (match kw with Some k => k | None => None end)
          | None => Err GenericException
          end)
  else Some (Err LookupError).

(** switchyard.py 157-177 read *)
Definition read_into (nb : numbers) (fuel : nat) (y : yard) (w : world) (file format : text) (name : option text) (kw : keywords) : option (yard * res unit) :=
  match read_species nb fuel w file format kw with
  | None => None
  | Some (Ok s) => Some (species_insert y (resolve name) s, Ok tt)
  | Some (Err e) => Some (y, Err e)
  | Some Diverges => Some (y, Diverges)
  end.

(* ------------------------------------------------------------------ *)
(** Writing *)

(** switchyard.py 191-205: the SDDS writer; a column is a table of doubles *)
Definition elegant_writer (nb : numbers) (s : species) (q : option fl) : writer :=
  let col name units f := {| w_name := T name; w_data := CDouble (map (fun p => bits nb (f p)) (coordinates s)); w_type := T "double";
                             w_units := T units; w_symbol := []; w_format := []; w_description := []; w_length := 0 |} in
  {| w_params := [{| p_name := T "Charge"; p_data := option_map (fun q => WDouble (bits nb q)) q; p_type := T "double"; p_units := T "C";
                     p_symbol := []; p_format := []; p_description := []; p_fixed := NoFix |}];
     w_cols := [col "x"%string "m"%string px; col "xp"%string ""%string (fun p => ndiv (pux p) (ppt p)); col "y"%string "m"%string py;
                col "yp"%string ""%string (fun p => ndiv (puy p) (ppt p)); col "t"%string "s"%string (fun p => ndiv (pct p) (Some light_speed));
                col "p"%string "m$be$nc"%string ppt] |}.
(** switchyard.py 179-208 write_elegant: the bytes of the file. An array of charges has no item. *)
Definition write_elegant (nb : numbers) (s : species) : res text :=
  let save q := let '(pieces, x) := save (elegant_writer nb s q) false (fun _ => []) (fun _ => []) in do _ <- x; Ok (List.concat pieces) in
  match total_charge s with
  | NoCharge => save None
  | Charge q => save (Some q)
  | Charges [q] => save (Some q)
  | Charges _ => Err ValueError
  end.

(** a line of numbers *)
Definition number_line (show : fl -> text) (row : list fl) : text := join [space] (map show row) ++ [newline].
Definition row_of (p : particle) : list fl := [px p; pux p; py p; puy p; pct p; ppt p].
(** switchyard.py 210-224 write_opal *)
Definition write_opal (nb : numbers) (s : species) : text :=
  dec (Z.of_nat (List.length (coordinates s))) ++ [newline] ++ List.concat (map (fun p => number_line (sci nb) (row_of p)) (coordinates s)).

(** numpy.average; it is nan for no entries, or with an entry that is not finite *)
Definition sum (l : list fl) : fl := fold_right (fmap2 Rplus) (Some 0%R) l.
Definition average (l : list fl) : fl := ndiv (sum l) (Some (INR (List.length l))).

(** switchyard.py 226-272 write_genesis: the text of the file *)
Definition genesis_rows (s : species) : list (list fl) :=
  let ts := map (fun p => ndiv (pct p) (Some light_speed)) (coordinates s) in
  let m := average ts in
  map (fun p => [px p; pux p; py p; puy p; minus (ndiv (pct p) (Some light_speed)) m; ppt p]) (coordinates s).
Definition write_genesis (nb : numbers) (s : species) (version : text) : text :=
  T "? VERSION = " ++ version ++ [newline] ++
  T "? CHARGE = " ++ str nb (total_charge s) ++ [newline] ++
  T "? SIZE = " ++ dec (Z.of_nat (List.length (coordinates s))) ++ [newline] ++
  T "? COLUMNS X PX Y PY T P" ++ [newline] ++
  List.concat (map (number_line (csv nb)) (genesis_rows s)).

(** switchyard.py 131 and 274-296 write: the contents of the file. Only the Genesis writer has a keyword. *)
Definition write (nb : numbers) (y : yard) (code : text) (name : option text) (version : option text) : res text :=
  let find := match species_of y (resolve name) with Some s => Ok s | None => Err KeyError end in
  if teqb code (T "genesis") then do s <- find; Ok (write_genesis nb s (match version with Some v => v | None => T "2.0" end))
  else if teqb code (T "elegant") then match version with Some _ => Err TypeError | None => do s <- find; write_elegant nb s end
  else if teqb code (T "opal") then match version with Some _ => Err TypeError | None => do s <- find; Ok (write_opal nb s) end
  else Err KeyError.

(* ------------------------------------------------------------------ *)
(** Histories of calls on one switchyard. The files may change between calls. *)
Inductive call :=
| Read (w : world) (file format : text) (name : option text) (kw : keywords)
| Write (code : text) (name : option text) (version : option text).
Definition step (nb : numbers) (fuel : nat) (y : yard) (c : call) : option (yard * res unit) :=
  match c with
  | Read w file format name kw => read_into nb fuel y w file format name kw
  | Write code name version => Some (y, do _ <- write nb y code name version; Ok tt)
  end.
Fixpoint run (nb : numbers) (fuel : nat) (y : yard) (calls : list call) : option yard :=
  match calls with
  | [] => Some y
  | c :: r => match step nb fuel y c with Some (y, _) => run nb fuel y r | None => None end
  end.

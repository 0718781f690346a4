(** Model of rsbeams/rsptcls/RsPhaseSpace6D.py, rsbeams/rsplot/RsScatterPS6D.py,
    rsbeams/rsplot/plot_ptcls.py and rsbeams/rsphysics/rsconst.py. Floats are exact reals. What
    matplotlib is told to draw is recorded. *)
From Coq Require Import List Reals Bool Arith String Ascii ZArith.
From Verif Require Import PyBase PyDict Sample_Model Stats_Model Plot_Model Beam_Model.
Import ListNotations.
Open Scope R_scope.

(* ------------------------------------------------------------------ *)
(** ** Phase space *)

(** A numpy array: its shape and its entries by rows *)
Record ndarray := { shape : list nat; entries : list R }.
Definition np_zeros (rows cols : nat) : ndarray := {| shape := [rows; cols]; entries := repeat 0 (rows * cols) |}.
(** array[i, :] *)
Definition row (a : ndarray) (i : nat) : res (list R) :=
  match shape a with
  | [r; c] => if (i <? r)%nat then Ok (firstn c (skipn (i * c) (entries a))) else Err IndexError
  | _ => Err IndexError
  end.

(** RsPhaseSpace6D.py 18-26 *)
Record phase_space_6d := { num_ptcls : Z; array_6d : ndarray; file_name : string }.
(** The saved files *)
Definition files := list (string * ndarray).

(** RsPhaseSpace6D.py 18-26 and 31-42: the constructor *)
Definition new_space (n : Z) : res phase_space_6d :=
  if (0 <? n)%Z then Ok {| num_ptcls := n; array_6d := np_zeros 6 (Z.to_nat n); file_name := "ps6d" |} else Err GenericException.
(** RsPhaseSpace6D.py 31-42 set_num_ptcls and initialize_array *)
Definition set_num_ptcls (p : phase_space_6d) (n : Z) : phase_space_6d * res unit :=
  if (0 <? n)%Z then ({| num_ptcls := n; array_6d := np_zeros 6 (Z.to_nat n); file_name := file_name p |}, Ok tt) else (p, Err GenericException).
(** RsPhaseSpace6D.py 47-54 set_file_name *)
Definition set_file_name (p : phase_space_6d) (f : string) : phase_space_6d * res unit :=
  if string_dec f "" then (p, Err GenericException) else ({| num_ptcls := num_ptcls p; array_6d := array_6d p; file_name := f |}, Ok tt).
(** RsPhaseSpace6D.py 56-58 write_array; an existing file is replaced *)
Definition write_array (p : phase_space_6d) (fs : files) : files := dset string_dec fs (file_name p ++ ".npz")%string (array_6d p).
(** RsPhaseSpace6D.py 66-82 check_array *)
Definition check_array (p : phase_space_6d) : phase_space_6d * res unit :=
  match shape (array_6d p) with
  | [r; c] =>
      if negb (r =? 6)%nat then (p, Err GenericException)
      else if (c <? 1)%nat then (p, Err GenericException)
      else ({| num_ptcls := Z.of_nat c; array_6d := array_6d p; file_name := file_name p |}, Ok tt)
  | _ => (p, Err GenericException)
  end.
(** RsPhaseSpace6D.py 60-64 read_array; a missing file raises FileNotFoundError *)
Definition read_array (p : phase_space_6d) (fs : files) : phase_space_6d * res unit :=
  match dget string_dec fs (file_name p ++ ".npz")%string with
  | None => (p, Err GenericException)
  | Some a => check_array {| num_ptcls := num_ptcls p; array_6d := a; file_name := file_name p |}
  end.
(** RsPhaseSpace6D.py 87-89 set_array_6d *)
Definition set_array_6d (p : phase_space_6d) (a : ndarray) : phase_space_6d := {| num_ptcls := num_ptcls p; array_6d := a; file_name := file_name p |}.

(** Calls on one object *)
Inductive ps_call := SetNum (n : Z) | SetFile (f : string) | WriteArray | ReadArray | CheckArray | SetArray (a : ndarray).
Definition ps_step (st : phase_space_6d * files) (c : ps_call) : phase_space_6d * files * res unit :=
  let (p, fs) := st in
  match c with
  | SetNum n => let (q, x) := set_num_ptcls p n in (q, fs, x)
  | SetFile f => let (q, x) := set_file_name p f in (q, fs, x)
  | WriteArray => (p, write_array p fs, Ok tt)
  | ReadArray => let (q, x) := read_array p fs in (q, fs, x)
  | CheckArray => let (q, x) := check_array p in (q, fs, x)
  | SetArray a => (set_array_6d p a, fs, Ok tt)
  end.

(* ------------------------------------------------------------------ *)
(** ** Scatter plots *)

(** RsScatterPS6D.py 19-35. The labels are a numpy array of texts of five characters. The title,
    and the figures shown, saved or cleared, are not modelled. *)
Record scatter := { data6d : ndarray; labels : list string; fig_num : nat }.
Definition label_width : nat := 5.
Definition new_scatter (p : phase_space_6d) : phase_space_6d * res scatter :=
  match check_array p with
  | (q, Ok _) =>
      if (1 <? num_ptcls q)%Z
      then (q, Ok {| data6d := array_6d q; labels := ["x [m]"; "px/p0"; "y [m]"; "py/p0"; "s [m]"; "dp/p0"]%string; fig_num := 0 |})
      else (q, Err GenericException)
  | (q, Err e) => (q, Err e)
  | (q, Diverges) => (q, Diverges)
  end.
(** an index of an array of six, negative ones from the end *)
Definition index6 (i : Z) : res nat :=
  let k := (if i <? 0 then i + 6 else i)%Z in if ((0 <=? k) && (k <? 6))%Z then Ok (Z.to_nat k) else Err IndexError.
Fixpoint prefix_of (n : nat) (s : string) : string :=
  match n, s with S n, String c r => String c (prefix_of n r) | _, _ => ""%string end.
Fixpoint set_nth {A} (l : list A) (n : nat) (x : A) : list A :=
  match l, n with [], _ => [] | _ :: r, O => x :: r | a :: r, S n => a :: set_nth r n x end.
(** RsScatterPS6D.py 44-46 set_label: numpy cuts the text to the width of the array. (A text that ends in
    NUL characters also loses them; not modelled.) *)
Definition set_label (s : scatter) (i : Z) (l : string) : res scatter :=
  do k <- index6 i; Ok {| data6d := data6d s; labels := set_nth (labels s) k (prefix_of label_width l); fig_num := fig_num s |}.
(** RsScatterPS6D.py 48-49 get_label *)
Definition get_label (s : scatter) (i : Z) : res string :=
  do k <- index6 i; match nth_error (labels s) k with Some l => Ok l | None => Err IndexError end.
(** RsScatterPS6D.py 54-56 set_data6d *)
Definition set_data6d (s : scatter) (a : ndarray) : scatter := {| data6d := a; labels := labels s; fig_num := fig_num s |}.

(** A figure: its number, the points, the limits of the axes and the labels *)
Record figure := { number : nat; dots : list (R * R); h_limits : R * R; v_limits : R * R; h_label : string; v_label : string }.
(** RsScatterPS6D.py 62-74: the limits along one axis. min of nothing raises ValueError. *)
Definition limits (l : list R) : res (R * R) :=
  match l with
  | [] => Err ValueError
  | x :: r =>
      let lo := np_min x r in
      let hi := np_max x r in
      Ok (if Rlt_dec hi (- lo) then (lo, Rabs lo) else (- hi, hi))
  end.
(** array[index, :] with an index that can be negative *)
Definition row_of (a : ndarray) (i : Z) : res (list R) :=
  match shape a with
  | [r; c] => let k := (if i <? 0 then i + Z.of_nat r else i)%Z in if (0 <=? k)%Z then row a (Z.to_nat k) else Err IndexError
  | _ => Err IndexError
  end.
(** RsScatterPS6D.py 58-85 plot_data6d *)
Definition plot_data6d (s : scatter) (h v : Z) : res (scatter * figure) :=
  do hs <- row_of (data6d s) h; do vs <- row_of (data6d s) v;
  do hl <- limits hs; do vl <- limits vs;
  do xl <- get_label s h; do yl <- get_label s v;
  let n := S (fig_num s) in
  Ok ({| data6d := data6d s; labels := labels s; fig_num := n |},
      {| number := n; dots := combine hs vs; h_limits := hl; v_limits := vl; h_label := xl; v_label := yl |}).

(* ------------------------------------------------------------------ *)
(** ** Contour levels *)

(** plot_ptcls.py 133-150 gen_contour_levels. numpy.around rounds to even. *)
Definition gen_contour_levels (field : list R) (n_levels : Z) (multiplier : R) : res (list R) :=
  match field with
  | [] => Err ValueError
  | x :: r =>
      let max_e := multiplier * np_max x r in
      let min_e := multiplier * np_min x r in
      let (lo, hi) :=
        if Rlt_dec (Rabs min_e) max_e then (- py_round max_e 3, py_round max_e 3)
        else (py_round min_e 3, Rabs (py_round min_e 3)) in
      let delta := (hi - lo) / IZR n_levels in
      Ok (map (fun i => lo + INR i * delta) (seq 0 (Z.to_nat n_levels)))
  end.

(* ------------------------------------------------------------------ *)
(** ** Scatter and contour plots *)

(** What is asked of matplotlib: the polygons of a contour line of a histogram at a level
    (Axes.contour) and whether a point is inside a polygon (Path.contains_points). *)
Definition polygon := list (R * R).
Record mpl := { outlines : list (list nat) -> R -> list polygon; contains : polygon -> R * R -> bool }.

(** The data: coordinates of particles, or two axes with the values of a grid (x_data is a list) *)
Inductive plot_data := Particles (xs ys : list R) | Grid (xs ys zs : list R).
(** The levels: a number of them, or an array. An array with one level is taken for a number; not modelled. *)
Inductive level_arg := Count (n : nat) | Levels (l : list R).

Record drawing := { filled : option (list (list nat) * list R); marks : option (list (R * R)); path : option (list (R * R)); x_scale : option string; y_scale : option string }.

Fixpoint starts_with (p s : string) : bool :=
  match p, s with
  | EmptyString, _ => true
  | String a p, String b s => Ascii.eqb a b && starts_with p s
  | _, _ => false
  end.
Fixpoint ends_with (p s : string) : bool :=
  if string_dec p s then true else match s with EmptyString => false | String _ r => ends_with p r end.
Definition is_one_of (s : string) (l : list string) : bool := existsb (fun t => if string_dec s t then true else false) l.

Definition hist_max (h : list (list nat)) : nat := fold_right Nat.max 0%nat (List.concat h).
(** matplotlib refuses fewer than two levels, and levels that do not increase *)
Fixpoint increasing (l : list R) : bool :=
  match l with a :: ((b :: _) as r) => (if Rlt_dec a b then true else false) && increasing r | _ => true end.
Definition contourf_levels (l : list R) : res (list R) :=
  match l with _ :: _ :: _ => if increasing l then Ok l else Err ValueError | _ => Err ValueError end.

(** plot_ptcls.py 35-55: the branch for grids, with Python floats. The shape given to reshape has floats, which numpy refuses. *)
Definition grid_contour (xs ys zs : list R) : res unit :=
  match xs, ys, zs with
  | x :: xr, y :: yr, _ :: _ =>
      do _ <- pdiv (np_max x xr - np_min x xr) (np_max y yr - np_min y yr); Err TypeError
  | _, _, _ => Err ValueError
  end.

(** plot_ptcls.py 57-83: the histogram, the levels and the outline at the lowest level *)
Definition particle_contour (m : mpl) (combo : bool) (xs ys : list R) (divs : Z) (levels : level_arg) : res (list (list nat) * list R * list polygon) :=
  let threshold := if combo then 8 else 1 in
  do2 (cex, ey) <- histogram2d xs ys divs;
  let (h, ex) := cex in
  let ls := match levels with Count n => linspace threshold (INR (hist_max h)) n | Levels l => l end in
  match ls with
  | [] => Err ValueError
  | l0 :: lr => do ok <- contourf_levels ls; Ok (h, ok, outlines m h (np_min l0 lr))
  end.

(** plot_ptcls.py 85-97: the particles outside the first polygon *)
Definition low_density (m : mpl) (pts : list (R * R)) (polys : list polygon) : list (R * R) :=
  match polys with [] => pts | p :: _ => filter (fun q => negb (contains m p q)) pts end.

(** plot_ptcls.py 89 and 99-100: hstack of columns of different lengths raises ValueError *)
Definition stacked (d : plot_data) : res (list (R * R)) :=
  match d with
  | Particles xs ys => if (List.length xs =? List.length ys)%nat then Ok (combine xs ys) else Err ValueError
  | Grid _ _ _ => Err TypeError
  end.

(** plot_ptcls.py 117-128: the scales of the axes *)
Definition scales (flag plot_type : string) : option string * option string :=
  if is_one_of flag ["line"; "scatter"; "scatter-line"]%string then
    (if is_one_of plot_type ["linear"; "semi-logy"]%string then Some "linear"%string else if is_one_of plot_type ["log-log"; "semi-logx"]%string then Some "log"%string else None,
     if is_one_of plot_type ["linear"; "semi-logx"]%string then Some "linear"%string else if is_one_of plot_type ["log-log"; "semi-logy"]%string then Some "log"%string else None)
  else (None, None).

(** plot_ptcls.py 31-130 scatter_contour. The white line that is drawn and removed at once (lines
    110-112) and the options of the scales are not modelled. *)
Definition scatter_contour (m : mpl) (flag plot_type : string) (d : plot_data) (divs : Z) (levels : level_arg) : res drawing :=
  let combo := if string_dec flag "combo" then true else false in
  do contour <- (if is_one_of flag ["contour"; "combo"]%string then
                   match d with
                   | Grid xs ys zs => do _ <- grid_contour xs ys zs; Ok None
                   | Particles xs ys => do c <- particle_contour m combo xs ys divs levels; Ok (Some c)
                   end
                 else Ok None);
  do x_plot <- (if (starts_with "scatter" flag || ends_with "line" flag)%bool then do pts <- stacked d; Ok (Some pts)
                else match contour with
                     | Some (_, _, polys) => if combo then do pts <- stacked d; Ok (Some (low_density m pts polys)) else Ok None
                     | None => Ok None
                     end);
  let (sx, sy) := scales flag plot_type in
  Ok {| filled := match contour with Some (h, ls, _) => Some (transpose (Z.to_nat divs) h, ls) | None => None end;
        marks := if is_one_of flag ["combo"; "scatter"; "scatter-line"]%string then x_plot else None;
        path := if ends_with "line" flag then x_plot else None; x_scale := sx; y_scale := sy |}.

(* ------------------------------------------------------------------ *)
(** ** Constants *)

(** Expressions of rsconst.py: numbers, attributes of scipy.constants and math.pi, names of the module *)
Inductive expr := Num (x : R) | Attr (name : string) | Name (name : string) | Mul (a b : expr) | Div (a b : expr) | Sq (a : expr) | Sqrt (a : expr).
Fixpoint eval (consts : string -> R) (env : list (string * R)) (e : expr) : res R :=
  match e with
  | Num x => Ok x
  | Attr n => Ok (consts n)
  | Name n => match dget string_dec env n with Some x => Ok x | None => Err NameError end
  | Mul a b => do x <- eval consts env a; do y <- eval consts env b; Ok (x * y)
  | Div a b => do x <- eval consts env a; do y <- eval consts env b; pdiv x y
  | Sq a => do x <- eval consts env a; Ok (x ^ 2)
  | Sqrt a => do x <- eval consts env a; if Rlt_dec x 0 then Err ValueError else Ok (sqrt x)
  end.
Fixpoint exec (consts : string -> R) (env : list (string * R)) (p : list (string * expr)) : res (list (string * R)) :=
  match p with [] => Ok env | (n, e) :: r => do x <- eval consts env e; exec consts (dset string_dec env n x) r end.
(** rsconst.py 11-33, in order *)
Definition rsconst : list (string * expr) :=
  [("C_to_STATC", Mul (Attr "c") (Num 10));
   ("EV_to_ERG", Num (1602 / 10 ^ 15));
   ("KG_to_EV", Div (Name "c_SQ") (Name "e"));
   ("MKS_factor", Div (Num 1) (Mul (Mul (Num 4) (Attr "pi")) (Attr "epsilon_0")));
   ("RT_2", Sqrt (Num 2));
   ("RT_2_OVER_PI", Sqrt (Div (Num 2) (Attr "pi")));
   ("RT_TWO_PI", Sqrt (Mul (Num 2) (Attr "pi")));
   ("TWO_PI", Mul (Num 2) (Attr "pi"));
   ("c", Attr "c");
   ("c_CGS", Mul (Attr "c") (Num 100));
   ("c_INV", Div (Num 1) (Attr "c"));
   ("c_SQ", Sq (Attr "c"));
   ("e", Attr "e");
   ("e_CGS", Mul (Attr "e") (Name "C_to_STATC"));
   ("epsilon_0", Attr "epsilon_0");
   ("m_e", Attr "m_e");
   ("m_e_CGS", Mul (Attr "m_e") (Num 1000));
   ("m_e_EV", Mul (Attr "m_e") (Name "KG_to_EV"));
   ("m_p", Attr "m_p");
   ("m_p_CGS", Mul (Attr "m_p") (Num 1000));
   ("m_p_EV", Mul (Attr "m_p") (Name "KG_to_EV"));
   ("mu_0", Attr "mu_0");
   ("pi", Attr "pi")]%string.

(** Model of rsbeams/rsplot/beam_plots.py. Floats are exact reals. What matplotlib is told to draw
    is recorded: curves, images, labels and limits. Figure sizes, fonts, and saving or showing the
    figure are not modelled. *)
From Coq Require Import List Reals Bool Arith String Ascii ZArith.
From Verif Require Import PyBase PyDict Sample_Model Plot_Model.
Import ListNotations.
Open Scope R_scope.

(** An SDDS file after read() of all pages: for every page of the file its columns of numbers, the column
    ElementType if there is one, its number of rows and its parameters; and the descriptions, with an
    exception for a name the header does not have (SDDS.py 485-492). *)
Record page := { numbers : list (string * list R); element_types : option (list string); row_count : nat; params : list (string * R) }.
Record sdds := { pages : list page; symbol : string -> res string; units : string -> res string; description : string -> res string }.

(** an entry of an array: negative numbers count from the end *)
Definition entry {A} (l : list A) (k : Z) : res A :=
  let n := Z.of_nat (List.length l) in
  let k := (if k <? 0 then k + n else k)%Z in
  if ((0 <=? k) && (k <? n))%Z then match nth_error l (Z.to_nat k) with Some p => Ok p | None => Err IndexError end else Err IndexError.
(** sdds.columns[page]: the reader keeps no columns of a page without rows (SDDS.py 388-389) *)
Definition get_page (f : sdds) (k : Z) : res page := entry (filter (fun p => negb (row_count p =? 0)%nat) (pages f)) k.
(** sdds.parameters[page]: the parameters of every page are kept (SDDS.py 375-379). A file that is read has a count of
    rows among them, so that there always is an array (files without counts are not modelled here). *)
Definition get_params (f : sdds) (k : Z) : res (list (string * R)) := do p <- entry (pages f) k; Ok (params p).
(** a field of a structured array; numpy raises ValueError for a name there is not *)
Definition column (p : page) (name : string) : res (list R) :=
  match dget string_dec (numbers p) name with Some l => Ok l | None => Err ValueError end.
Definition parameter (ps : list (string * R)) (name : string) : res R :=
  match dget string_dec ps name with Some x => Ok x | None => Err ValueError end.
Definition types (p : page) : res (list string) := match element_types p with Some l => Ok l | None => Err ValueError end.

Fixpoint all_of {A B} (f : A -> res B) (l : list A) : res (list B) :=
  match l with [] => Ok [] | a :: r => do b <- f a; do s <- all_of f r; Ok (b :: s) end.
(** str.join *)
Fixpoint joined (sep : string) (l : list string) : string :=
  match l with [] => ""%string | [a] => a | a :: r => (a ++ sep ++ joined sep r)%string end.

(* ------------------------------------------------------------------ *)
(** beam_plots.py 40-44 and 52-56: the symbol, or the description when there is no symbol *)
Definition name_of (f : sdds) (quant : string) : res string :=
  do s <- symbol f quant;
  if string_dec s "" then description f quant else format_symbol s true.
(** beam_plots.py 64-68 *)
Definition units_of (f : sdds) (quant : string) : res string :=
  do u <- units f quant;
  if string_dec u "" then Ok "$-$"%string else format_symbol u true.

(** A curve: its points and its label *)
Record curve := { points : list (R * R); label : string }.
Record profile := { line_end : R; magnets : list rect; curves : list curve; x_label : string; y_label : string;
                    x_limits : option (R * R); y_limits : option (R * R) }.

(** beam_plots.py 14-81 beamline_profile; no quantities are Sx and Sy *)
Definition beamline_profile (f : sdds) (k : Z) (quantities : list string) (xlim ylim : option (R * R)) : res profile :=
  do p <- get_page f k;
  let quantities := match quantities with [] => ["Sx"; "Sy"]%string | _ => quantities end in
  do s <- column p "s";
  do ty <- types p;
  do2 (top, rects) <- plot_profile (combine s ty) 1 (1 / 4);
  do cs <- all_of (fun q => do x <- column p "s"; do y <- column p q; do n <- name_of f q; Ok {| points := combine x y; label := n |}) quantities;
  do names <- all_of (name_of f) quantities;
  do us <- all_of (units_of f) quantities;
  Ok {| line_end := top; magnets := rects; curves := cs; x_label := "s (m)";
        y_label := joined "," names ++ " (" ++ joined "," us ++ ")"; x_limits := xlim; y_limits := ylim |}.

(* ------------------------------------------------------------------ *)
(** numpy.histogram2d with n bins along both axes: entry [i], [j] counts the points in bin i of x and
    bin j of y; the edges as in numpy.histogram. Different lengths raise ValueError. *)
Definition in_bin_of (edges : list R) (n i : nat) (x : R) : bool :=
  if Rle_dec (nth i edges 0) x then
    if Rlt_dec x (nth (S i) edges 0) then true
    else if (S i =? n)%nat then (if Rle_dec x (nth (S i) edges 0) then true else false) else false
  else false.
Definition edges_of (data : list R) (n : nat) : list R := let (lo, hi) := hist_range data in linspace lo hi (S n).
Definition histogram2d (xs ys : list R) (bins : Z) : res (list (list nat) * list R * list R) :=
  if negb (Nat.eqb (List.length xs) (List.length ys)) then Err ValueError
  else if (bins <? 1)%Z then Err ValueError
  else
    let n := Z.to_nat bins in
    let ex := edges_of xs n in
    let ey := edges_of ys n in
    Ok (map (fun i => map (fun j => List.length (filter (fun xy => in_bin_of ex n i (fst xy) && in_bin_of ey n j (snd xy)) (combine xs ys))) (seq 0 n)) (seq 0 n), ex, ey).

(** An image: its rows from the bottom, and the rectangle it fills *)
Record image := { rows : list (list nat); left : R; right : R; bottom : R; top : R }.
(** counts.T *)
Definition transpose (n : nat) (m : list (list nat)) : list (list nat) :=
  map (fun j => map (fun row => nth j row 0%nat) m) (seq 0 n).
(** numpy.min and numpy.max *)
Definition smallest (l : list R) : R := match l with [] => 0 | x :: r => np_min x r end.
Definition largest (l : list R) : R := match l with [] => 0 | x :: r => np_max x r end.
(** beam_plots.py 120-127, 194-203 and 256-264: histogram2d and imshow *)
Definition density (xs ys : list R) (bins : Z) : res image :=
  do2 (cex, ey) <- histogram2d xs ys bins;
  let (counts, ex) := cex in
  Ok {| rows := transpose (Z.to_nat bins) counts; left := smallest ex; right := largest ex; bottom := smallest ey; top := largest ey |}.

Definition scaled (c : R) (l : list R) : list R := map (fun x => x * c) l.
Definition centred (l : list R) : list R := map (fun x => x - np_average l) l.
(** division by a scalar; numpy gives nan or an infinity for a zero *)
Definition over (l : list R) (d : R) : res (list R) := if Req_EM_T d 0 then Err ValueError else Ok (map (fun x => x / d) l).

(** beam_plots.py 84-134 phase_space: the four panels, with their labels. A deviation of momentum
    from an average of zero is not finite; numpy.histogram2d then raises ValueError. *)
Definition phase_space (f : sdds) (k bins : Z) : res (list (image * string * string)) :=
  do p <- get_page f k;
  do _ <- get_params f k;
  do x <- column p "x"; do xp <- column p "xp"; do y <- column p "y"; do yp <- column p "yp"; do t <- column p "t"; do q <- column p "p";
  do delta <- over (centred q) (np_average q);
  do a <- density (scaled 1000 x) (scaled 1000 xp) bins;
  do b <- density (scaled 1000 y) (scaled 1000 yp) bins;
  do c <- density (scaled 1000 x) (scaled 1000 y) bins;
  do d <- density (scaled (10 ^ 12) (centred t)) delta bins;
  Ok [(a, "x (mm)", "x' (mrad)"); (b, "y (mm)", "y' (mrad)"); (c, "x (mm)", "y (mm)"); (d, "t (ps)", "$\delta$ ( )")]%string.

(* ------------------------------------------------------------------ *)
(** The figure with a density and two projections: the curves to its right and below *)
Record projections := { heat : image; beside : list (R * R); below : list (R * R); label_left : string; label_below_x : string; label_below_y : string }.

(** beam_plots.py 147: the word auto, or a number *)
Inductive charge_arg := Auto | Given (q : R).
(** beam_plots.py 170-184: the charge and whether counts are normalised. The handler is for
    KeyError only. *)
Definition charge_for (ps : list (string * R)) (charge : charge_arg) : res (R * bool) :=
  match charge with
  | Given q => Ok (q, false)
  | Auto =>
      match parameter ps "Charge" with
      | Ok q => if Req_EM_T q 0 then Ok (1, true) else Ok (q, false)
      | Err KeyError => Ok (1, true)
      | Err e => Err e
      | Diverges => Diverges
      end
  end.
(** numbers that are finite *)
Fixpoint finite (l : list fl) : option (list R) :=
  match l with [] => Some [] | Some x :: r => option_map (cons x) (finite r) | None :: _ => None end.
(** beam_plots.py 147-218 longitudinal_phase_space. Currents that are not finite are not modelled
    (get_current_from_t gives none): ValueError. *)
Definition longitudinal_phase_space (f : sdds) (k : Z) (charge : charge_arg) : res projections :=
  do p <- get_page f k;
  do ps <- get_params f k;
  do t <- column p "t";
  do q <- column p "p";
  let t := centred t in
  do2 (total, normalized) <- charge_for ps charge;
  do2 (time_bins, current) <- get_current_from_t t total 256;
  do current <- match finite current with Some l => Ok l | None => Err ValueError end;
  do2 (momentum_bins, momentum_counts) <- get_histogram_points q 256;
  let current := if normalized then map (fun c => c / largest current) current else current in
  do im <- density (scaled (10 ^ 12) t) q 128;
  Ok {| heat := im; beside := combine (map INR momentum_counts) momentum_bins; below := combine (scaled (10 ^ 12) time_bins) current;
        label_left := "p ($m_e c$)"; label_below_x := "t (ps)"; label_below_y := if normalized then "Counts ()" else "Current (A)" |}.

(** beam_plots.py 233-279 phase_space_projection *)
Definition phase_space_projection (f : sdds) (cx cy x_label y_label : string) (k : Z) : res projections :=
  do p <- get_page f k;
  do x <- column p cx;
  do y <- column p cy;
  do2 (x_bins, x_counts) <- get_histogram_points (scaled 1000 x) 256;
  do2 (y_bins, y_counts) <- get_histogram_points (scaled 1000 y) 256;
  do im <- density (scaled 1000 x) (scaled 1000 y) 128;
  Ok {| heat := im; beside := combine (map INR y_counts) y_bins; below := combine x_bins (map INR x_counts);
        label_left := y_label; label_below_x := x_label; label_below_y := "Counts ()" |}.
(** beam_plots.py 221-224 and 227-230 *)
Definition horizontal_phase_space (f : sdds) (k : Z) : res projections := phase_space_projection f "x" "xp" "x (mm)" "x' (mrad)" k.
Definition vertical_phase_space (f : sdds) (k : Z) : res projections := phase_space_projection f "y" "yp" "y (mm)" "y' (mrad)" k.

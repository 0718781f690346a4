(** Model of rsbeams/rsplot/util.py.  Floats are exact reals; the calls to matplotlib are
    recorded as the list of things drawn. *)
From Coq Require Import List Reals Bool Arith String Ascii ZArith.
From Verif Require Import PyBase PyDict Sample_Model.
Import ListNotations.
Open Scope R_scope.

(* ------------------------------------------------------------------ *)
(** util.py 5-9 _element_mappings *)
Definition element_mappings : list (string * list string) :=
  [("QUAD", ["KQUAD"; "QUAD"]);
   ("SBEND", ["SBEND"; "CSBEND"; "CSRCSBEND"; "RBEND"; "SBEN"]);
   ("SEXT", ["SEXT"]);
   ("RFCW", ["RFCW"; "RFCA"]);
   ("OCT", ["OCTU"; "KOCT"])]%string.

(** util.py 10-14 _element_colors *)
Definition element_colors : list (string * string) :=
  [("QUAD", "tab:green"); ("SBEND", "tab:red"); ("SEXT", "tab:blue");
   ("RFCW", "tab:orange"); ("OCT", "tab:purple")]%string.

(** util.py 57-66 _invert_mapping *)
Definition invert_mapping (mapping : list (string * list string)) : list (string * string) :=
  fold_left (fun inv kv => fold_left (fun inv el => dset string_dec inv el (fst kv)) (snd kv) inv) mapping [].

(** One row of the table given to plot_profile: s and ElementType. *)
Definition row := (R * string)%type.

(** A magnet rectangle: lower left corner, width, height, colour. *)
Record rect := mkRect { r_x : R; r_y : R; r_w : R; r_h : R; r_c : string }.

(** util.py 90-107: the loop.  [s] is the position of the previous row.  Result: the rectangles.
    The lines drawn by line 97 are in [segments_loop]. *)
Fixpoint profile_loop (used : list (string * string)) (scale height s : R) (rows : list row) : res (list rect) :=
  match rows with
  | [] => Ok []
  | (s_i, ty) :: rest =>
      match dget string_dec used ty with
      | Some base =>
          let e1 := s * scale in
          let e2 := s_i * scale in
          match dget string_dec element_colors base with
          | None => Err KeyError
          | Some c =>
              do r <- profile_loop used scale height s_i rest;
              Ok (mkRect e1 (- height / 2) (e2 - e1) height c :: r)
          end
      | None => profile_loop used scale height s_i rest
      end
  end.

(** util.py 69-112 plot_profile: the horizontal line (its end point) and the rectangles. *)
Definition plot_profile (rows : list row) (scale height : R) : res (R * list rect) :=
  match rev rows with
  | [] => Err IndexError
  | (s_last, _) :: _ =>
      do r <- profile_loop (invert_mapping element_mappings) scale height 0 rows;
      Ok (s_last * scale, r)
  end.

(** util.py 90-105: the same loop, the coloured lines at height 0 that line 97 draws: both ends and the colour. *)
Fixpoint segments_loop (used : list (string * string)) (scale s : R) (rows : list row) : res (list (R * R * string)) :=
  match rows with
  | [] => Ok []
  | (s_i, ty) :: rest =>
      match dget string_dec used ty with
      | Some base =>
          let e1 := s * scale in
          match dget string_dec element_colors base with
          | None => Err KeyError
          | Some c => do r <- segments_loop used scale s_i rest; Ok ((s, e1, c) :: r)
          end
      | None => segments_loop used scale s_i rest
      end
  end.
(** util.py 69-112: the coloured lines of plot_profile *)
Definition profile_segments (rows : list row) (scale : R) : res (list (R * R * string)) :=
  match rows with [] => Err IndexError | _ => segments_loop (invert_mapping element_mappings) scale 0 rows end.

(* ------------------------------------------------------------------ *)
(** int(x): truncation towards zero *)
Definition py_int (x : R) : Z := if Rlt_dec x 0 then (- Int_part (- x))%Z else Int_part x.

(** numpy.min and numpy.max of a non-empty array *)
Definition np_min (x : R) (l : list R) : R := fold_left Rmin l x.
Definition np_max (x : R) (l : list R) : R := fold_left Rmax l x.

(** The range numpy.histogram uses when none is given: 0..1 for no data, widened by one half
    on each side when all data are equal. *)
Definition hist_range (data : list R) : R * R :=
  match data with
  | [] => (0, 1)
  | x :: l =>
      let lo := np_min x l in
      let hi := np_max x l in
      if Req_EM_T lo hi then (lo - / 2, hi + / 2) else (lo, hi)
  end.

(** numpy.histogram(data, bins=n): n equal bins, half open, the last one closed. *)
Definition bin_count (edges : list R) (n i : nat) (data : list R) : nat :=
  List.length (filter (fun x =>
    if Rle_dec (nth i edges 0) x then
      if Rlt_dec x (nth (S i) edges 0) then true
      else if (S i =? n)%nat then (if Rle_dec x (nth (S i) edges 0) then true else false) else false
    else false) data).
Definition np_histogram (data : list R) (bins : Z) : res (list nat * list R) :=
  if (bins <? 1)%Z then Err ValueError else
  let n := Z.to_nat bins in
  let (lo, hi) := hist_range data in
  let edges := linspace lo hi (S n) in
  Ok (map (fun i => bin_count edges n i data) (seq 0 n), edges).

(** util.py 117, 127: [(bins[i + 1] + bins[i]) / 2. for i in range(len(bins) - 1)] *)
Definition central_bins (bins : list R) : list R :=
  map (fun i => (nth (S i) bins 0 + nth i bins 0) / 2) (seq 0 (List.length bins - 1)).

(** util.py 115-119 get_histogram_points *)
Definition get_histogram_points (data : list R) (bin_number : R) : res (list R * list nat) :=
  do2 (counts, bins) <- np_histogram data (py_int bin_number);
  Ok (central_bins bins, counts).

(** numpy.average *)
Definition np_average (l : list R) : R := np_sum l / INR (List.length l).

(** util.py 122-130 get_current_from_t.  [charge] is a Python float, so an empty array raises. *)
Definition get_current_from_t (time_data : list R) (charge bin_number : R) : res (list R * list fl) :=
  do q_per_p <- pdiv charge (INR (List.length time_data));
  do2 (counts, bins) <- np_histogram (map (fun t => t - np_average time_data) time_data) (py_int bin_number);
  let bin_length := nth 1 bins 0 - nth 0 bins 0 in
  Ok (central_bins bins, map (fun c => ndiv (Some (INR c * q_per_p)) (Some bin_length)) counts).

(* ------------------------------------------------------------------ *)
(** An entry of one of the tables. *)
Definition code (c : ascii) (s : string) : ascii * string := (c, s).

(** util.py 16-51 _greek_map *)
Definition greek_map : list (ascii * string) :=
  [code "a" "\alpha"; code "b" "\beta"; code "g" "\gamma"; code "d" "\delta"; code "e" "\varepsilon";
   code "z" "\zeta"; code "c" "\eta"; code "G" "\Gamma"; code "D" "\Delta"; code "Q" "\Theta";
   code "q" "\theta"; code "i" "\iota"; code "k" "\kappa"; code "l" "\lambda"; code "m" "\mu";
   code "n" "\nu"; code "x" "\xi"; code "L" "\Lambda"; code "X" "\Xi"; code "P" "\Pi"; code "p" "\pi";
   code "r" "\rho"; code "s" "\sigma"; code "t" "\tau"; code "S" "\Sigma"; code "U" "\Upsilon";
   code "F" "\Phi"; code "u" "\upsilon"; code "f" "\phi"; code "v" "\chi"; code "y" "\psi";
   code "w" "\omega"; code "Y" "\Psi"; code "W" "\Omega"]%string.

(** util.py 52-54 _special_map *)
Definition special_map : list (ascii * string) := [code "a" "\pm"]%string.

(** util.py 133 FORMATTER_CHAR *)
Definition formatter_char : ascii := "$"%char.

(** util.py 135-139 MODE *)
Definition MODE : list (ascii * string) := [code "a" "^{"; code "n" "}"; code "b" "_{"]%string.

(** util.py 141-146 PROCESS; False is None *)
Definition PROCESS : list (ascii * option (list (ascii * string))) :=
  [("g", Some greek_map); ("s", Some special_map); ("r", None); ("e", None)]%char.

(** util.py 149-153 process_character: a missing key prints a message and returns None. *)
Definition process_character (c : ascii) (mapping : list (ascii * string)) : option string :=
  dget ascii_dec mapping c.

(** util.py 160-176: the loop over the characters, with the two flags.  Adding None to a
    string raises TypeError. *)
Fixpoint format_loop (description : string) (mode_set : bool) (processing : option (list (ascii * string)))
  (formatted : string) : res string :=
  match description with
  | EmptyString => Ok formatted
  | String char rest =>
      if mode_set then
        match dget ascii_dec MODE char with
        | Some m => format_loop rest false processing (formatted ++ m)
        | None =>
            match dget ascii_dec PROCESS char with
            | Some p => format_loop rest false p formatted
            | None => Err KeyError
            end
        end
      else if Ascii.eqb char formatter_char then format_loop rest true processing formatted
      else
        match processing with
        | Some m =>
            match process_character char m with
            | Some s => format_loop rest false processing (formatted ++ s)
            | None => Err TypeError
            end
        | None => format_loop rest false processing (formatted ++ String char EmptyString)
        end
  end.

(** '$' * matplotlib *)
Definition dollar (matplotlib : bool) : string := if matplotlib then "$"%string else ""%string.

(** util.py 156-178 format_symbol *)
Definition format_symbol (description : string) (matplotlib : bool) : res string :=
  do s <- format_loop description false None (dollar matplotlib);
  Ok (s ++ dollar matplotlib)%string.

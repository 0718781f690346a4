(** Model of rsbeams/rslattice/trace3d_parser.py.

    A deck is the list of its lines, each with its newline.  Text is ASCII.  Numbers are exact
    reals.  Printing is left out. *)
From Coq Require Import List Reals Bool Arith String Ascii ZArith DecimalString.
From Verif Require Import PyBase PyDict PyText Line_Model.
Import ListNotations.
Open Scope R_scope.

(** the ASCII string of a text *)
Definition str (t : text) : string := string_of_list_ascii t.

(* ------------------------------------------------------------------ *)
(** trace3d_parser.py 71-73: a line up to the comment character *)
Definition semicolon : ascii := ";"%char.
Definition cut (l : text) : text := match find1 semicolon l with Some n => firstn n l | None => l end.

(** trace3d_parser.py 59-73 _sanitize_lattice_definition with the comment character of both
    classes (125, 327).  The loop runs from the last line to the first; [done] are the lines
    behind.  A comment line is taken out but the rest of the body still runs, on the line that
    has moved to its place; there is none behind the last line. *)
Definition sanitize_line (l : text) (done : list text) : res (list text) :=
  let l := lowert l in
  match drop_ws l with
  | [] => Ok done
  | c :: _ => if Ascii.eqb c semicolon then
                match done with [] => Err IndexError | x :: r => Ok (cut x :: r) end
              else Ok (cut l :: done)
  end.
Fixpoint sanitize (deck : list text) : res (list text) :=
  match deck with [] => Ok [] | l :: r => do done <- sanitize r; sanitize_line l done end.

(* ------------------------------------------------------------------ *)
(** The longest prefix of digits *)
Fixpoint span_digits (s : text) : text * text :=
  match s with
  | c :: r => if is_digit c then let (a, b) := span_digits r in (c :: a, b) else ([], s)
  | [] => ([], [])
  end.
Definition is_sign (c : ascii) : bool := Ascii.eqb c "-" || Ascii.eqb c "+".

(** trace3d_parser.py 153, 334: a match of [-+]?\d*\.\d+|\d+ at the start of the text *)
Definition fraction_match (s : text) : option text :=
  let '(sg, r) := match s with c :: r => if is_sign c then ([c], r) else ([], s) | [] => ([], []) end in
  let (i, r) := span_digits r in
  match r with
  | c :: r => if Ascii.eqb c "." then
                match fst (span_digits r) with [] => None | f => Some (sg ++ i ++ c :: f) end
              else None
  | [] => None
  end.
Definition number_match (s : text) : option text :=
  match fraction_match s with
  | Some m => Some m
  | None => match fst (span_digits s) with [] => None | d => Some d end
  end.

(** re.findall; [skip] counts the characters of a match still to pass *)
Fixpoint findall (skip : nat) (s : text) : list text :=
  match s with
  | [] => []
  | _ :: r =>
      match skip with
      | S k => findall k r
      | O => match number_match s with
             | Some m => m :: findall (List.length m - 1) r
             | None => findall 0 r
             end
      end
  end.
(** re.findall of \d+ *)
Fixpoint find_digits (skip : nat) (s : text) : list text :=
  match s with
  | [] => []
  | _ :: r =>
      match skip with
      | S k => find_digits k r
      | O => match fst (span_digits s) with
             | [] => find_digits 0 r
             | m => m :: find_digits (List.length m - 1) r
             end
      end
  end.

(** A dictionary of parameters before it becomes an element: keys are case sensitive. *)
Definition pdict := list (string * R).
(** trace3d_parser.py 156-158, 337-339; a key listed twice would be overwritten, and none is *)
Fixpoint read_values (names : list string) (values : list text) : res pdict :=
  match names, values with
  | n :: names, v :: values =>
      match py_float v with
      | Some x => do d <- read_values names values; Ok ((n, x) :: d)
      | None => Err ValueError
      end
  | _, _ => Ok []
  end.

(** trace3d_parser.py 166-171 _convert_units *)
Definition convert_units (table : list (string * R)) (d : pdict) : pdict :=
  map (fun kv => (fst kv, match dget string_dec table (fst kv) with Some u => snd kv * u | None => snd kv end)) d.

Definition kwargs (d : pdict) : params := map (fun kv => (fst kv, VNum (snd kv))) d.

(* ------------------------------------------------------------------ *)
(** trace3d_parser.py 236-246 TraceWin.elements *)
Definition tw_elements : list (string * list string) :=
  [("drift", ["L"; "R"; "Ry"; "RX_SHIFT"; "RY_SHIFT"]);
   ("quadrupole", ["L"; "K1"; "R"; "THETA"; "G3U3"; "G4U4"; "G5U5"; "G6U6"; "GFR"]);
   ("sbend", ["ANGLE"; "R"; "INDEX"; "VF"]);
   ("dtl_cell", ["L"; "LQ1"; "LQ2"; "GC"; "B1"; "B2"; "VOLT"; "PHASE"; "R"; "P"; "BETA_S"; "T_S"; "KTS"; "K2TS"]);
   ("marker", []);
   ("rfca", ["MODE"; "N"; "BETA"; "VOLT"; "PHASE"; "R"; "P"; "KE0TI"; "KE0TO"; "DZI"; "DZO"]);
   ("freq", ["FREQUENCY"]);
   ("field_map", ["TYPE"; "L"; "PHASE"; "R"; "KB"; "KE"; "KI"; "KA"; "FILE"])]%string.
(** trace3d_parser.py 248-256 TraceWin.classifiers *)
Definition tw_classifiers : list (string * string) :=
  [("drift", "drift"); ("quad", "quadrupole"); ("dtl_cel", "dtl_cell"); ("ncells", "rfca"); ("set_sync_phase", "marker");
   ("freq", "freq"); ("field_map", "field_map")]%string.
(** trace3d_parser.py 258-269 TraceWin.conversions *)
Definition tw_conversions : list (string * R) :=
  [("L", / 1000); ("LQ1", / 1000); ("LQ2", / 1000); ("frequency", 10 ^ 6)]%string.

(** The parser: the heap, the beamline, name_count and global_parameters['frequency'] *)
Record parser := { p_heap : heap; p_line : nat; p_count : nat; p_freq : option R }.
Definition with_heap (p : parser) (h : heap) : parser :=
  {| p_heap := h; p_line := p_line p; p_count := p_count p; p_freq := p_freq p |}.

(** trace3d_parser.py 352-356 get_element_name *)
Definition element_name (n : nat) : string := String.append "e" (NilEmpty.string_of_uint (Nat.to_uint n)).
Definition next_name (p : parser) : string * parser :=
  (element_name (p_count p), {| p_heap := p_heap p; p_line := p_line p; p_count := S (p_count p); p_freq := p_freq p |}).

(** A step of the parser keeps what was done when it raises. *)
Definition step := (parser * res unit)%type.
Definition add (p : parser) (name ty : string) (ps : params) : step :=
  let (h, r) := add_element (p_heap p) (p_line p) name ty ps false in (with_heap p h, r).
Definition and_then (s : step) (f : parser -> step) : step :=
  match s with (p, Ok _) => f p | (p, Err x) => (p, Err x) | (p, Diverges) => (p, Diverges) end.
Definition key (d : pdict) (k : string) : res R := match dget string_dec d k with Some x => Ok x | None => Err KeyError end.
Definition need {A} (p : parser) (r : res A) (f : A -> step) : step :=
  match r with Ok x => f x | Err x => (p, Err x) | Diverges => (p, Diverges) end.

(** trace3d_parser.py 271-290 handle_dtl_cell *)
Definition handle_dtl_cell (p : parser) (name : string) (d : pdict) : step :=
  need p (key d "LQ1") (fun q1 => need p (key d "LQ2") (fun q2 => need p (key d "L") (fun l =>
  need p (key d "B1") (fun k1 => need p (key d "B2") (fun k2 => need p (key d "PHASE") (fun ph =>
  and_then (add p (String.append name "_q1") "quadrupole" [("k1"%string, VNum k1); ("l"%string, VNum q1)]) (fun p =>
  need p (key d "VOLT") (fun v =>
  let f := match p_freq p with Some f => f | None => 1 end in
  and_then (add p (String.append name "cav") "rfca"
     [("l"%string, VNum (l - q1 - q2)); ("volt"%string, VNum v); ("phase"%string, VNum (ph + 90)); ("frequency"%string, VNum f)]) (fun p =>
  add p (String.append name "_q2") "quadrupole" [("k1"%string, VNum k2); ("l"%string, VNum q2)]))))))))).

(** scipy.constants.c *)
Definition light : R := 299792458.

(** trace3d_parser.py 292-301 handle_ncells *)
Definition handle_ncells (p : parser) (name : string) (d : pdict) : step :=
  match p_freq p with
  | None => (p, Err KeyError)
  | Some f =>
      if Req_EM_T f 0 then (p, Err AssertionError) else
      need p (key d "BETA") (fun b => need p (key d "N") (fun n => need p (key d "PHASE") (fun ph => need p (key d "VOLT") (fun v =>
      let l := b * (light / f) * n in
      add p (String.append name "cav") "rfca"
        [("l"%string, VNum l); ("volt"%string, VNum (v * l)); ("phase"%string, VNum (ph + 90)); ("frequency"%string, VNum f)]))))
  end.

(** trace3d_parser.py 303-304 handle_freq *)
Definition handle_freq (p : parser) (name : string) (d : pdict) : step :=
  need p (key d "frequency") (fun f => ({| p_heap := p_heap p; p_line := p_line p; p_count := p_count p; p_freq := Some f |}, Ok tt)).

(** trace3d_parser.py 306-315 handle_field_map *)
Definition handle_field_map (p : parser) (name : string) (d : pdict) : step :=
  match p_freq p with
  | None => (p, Err KeyError)
  | Some f =>
      need p (key d "VOLT") (fun v => need p (key d "L") (fun l => need p (key d "PHASE") (fun ph =>
      add p (String.append name "cav") "rfca"
        [("l"%string, VNum l); ("volt"%string, VNum (v * 10 ^ 6)); ("phase"%string, VNum ph); ("frequency"%string, VNum f)])))
  end.

(** trace3d_parser.py 318-323 handlers, 196 *)
Definition handle (p : parser) (ty name : string) (d : pdict) : step :=
  if String.eqb ty "dtl_cel" then handle_dtl_cell p name d
  else if String.eqb ty "freq" then handle_freq p name d
  else if String.eqb ty "ncells" then handle_ncells p name d
  else if String.eqb ty "field_map" then handle_field_map p name d
  else (p, Err KeyError).

(** trace3d_parser.py 347-350, 333-345, 190-199: one line.  A different number of values and names
    prints a warning, for which a name is taken.  _standardize (173-178), called after each line,
    changes only elements of type sbend, and none is made here. *)
Definition tw_line (p : parser) (line : text) : step :=
  let (name, p) := next_name p in
  match split_ws line with
  | [] => (p, Err IndexError)
  | w :: _ =>
      let ty := str (lowert w) in
      let values := findall 0 line in
      match dget string_dec tw_classifiers ty with
      | None => (p, Err KeyError)
      | Some cl =>
          match dget string_dec tw_elements cl with
          | None => (p, Err KeyError)
          | Some names =>
              need p (read_values names values) (fun d =>
              let p := if (List.length names =? List.length values)%nat then p else snd (next_name p) in
              let d := convert_units tw_conversions d in
              match handle p ty name d with
              | (p, Err KeyError) => add p name cl (kwargs d)
              | s => s
              end)
          end
      end
  end.
Fixpoint tw_lines (p : parser) (lines : list text) : step :=
  match lines with [] => (p, Ok tt) | l :: r => and_then (tw_line p l) (fun p => tw_lines p r) end.

(** trace3d_parser.py 19-28, 325-331, 37-46: TraceWin(file, name)(); find_beamlines does nothing
    and the whole file is read *)
Definition tracewin (deck : list text) (name : string) : step :=
  let (h, a) := new_line empty_heap (Some name) in
  let p := {| p_heap := h; p_line := a; p_count := 0; p_freq := None |} in
  need p (sanitize deck) (fun lines => tw_lines p lines).

(* ------------------------------------------------------------------ *)
(** trace3d_parser.py 88-121 Trace3d.elements, classifiers and conversions; the number for pi is pi *)
Definition t3_elements : list (string * list string) :=
  [("drift", ["L"]); ("quadrupole", ["K1"; "L"; "DX"; "DY"; "OF"]); ("rfca", ["VOLT"; "PHASE"; "EGF"; "CHANGE_P0"; "H"]);
   ("edge", ["BETA"; "R"; "G"; "K1"; "K2"]); ("sbend", ["ANGLE"; "R"; "INDEX"; "VF"])]%string.
Definition t3_classifiers : list (Z * string) :=
  [(1, "drift"); (3, "quadrupole"); (8, "sbend"); (9, "edge"); (10, "rfca")]%Z%string.
(** s[i:] *)
Definition slice_from (s : text) (i : Z) : text :=
  let n := Z.of_nat (List.length s) in skipn (Z.to_nat (if (i <? 0)%Z then Z.max 0 (n + i) else i)) s.
(** str.find, -1 when there is none *)
Definition find_at (p s : text) : Z := match find p s with Some n => Z.of_nat n | None => (-1)%Z end.
(** trace3d_parser.py 142-147 *)
Definition t3_type (line : text) : res Z :=
  let a := find_at (T "nt") line in
  let b := find_at (T "=") (slice_from line a) in
  match find_digits 0 (slice_from line (a + b)) with
  | [] => Err IndexError
  | d :: _ => Ok (digits_value 0 d)
  end.
(** trace3d_parser.py 149-164 *)
Definition t3_parameters (line : text) (ty : Z) : res pdict :=
  let a := find_at (T "a(") line in
  let b := (find_at (T "=") (slice_from line a) + a)%Z in
  let values := findall 0 (slice_from line b) in
  match dget Z.eq_dec t3_classifiers ty with
  | None => Err KeyError
  | Some cl => match dget string_dec t3_elements cl with None => Err KeyError | Some names => read_values names values end
  end.
(** trace3d_parser.py 190-199: one line.  The class has no attribute handlers.  The conversion of
    units, which cannot fail, is left out. *)
Definition t3_line (line : text) : res unit :=
  do ty <- t3_type line;
  do d <- t3_parameters line ty;
  Err AttributeError.
Fixpoint t3_lines (lines : list text) : res unit :=
  match lines with [] => Ok tt | l :: r => do x <- t3_line l; t3_lines r end.
(** trace3d_parser.py 180-187: the positions of the lines with cmt *)
Definition positions (lines : list text) : list nat :=
  map fst (filter (fun il => match find (T "cmt") (snd il) with Some _ => true | None => false end) (combine (seq 0 (List.length lines)) lines)).
(** trace3d_parser.py 37-46 for Trace3d: np.min of an empty list raises *)
Definition trace3d (deck : list text) (name : string) : heap * res unit :=
  let (h, a) := new_line empty_heap (Some name) in
  (h, do lines <- sanitize deck;
      match positions lines with
      | [] => Err ValueError
      | i :: r => let j := fold_left Nat.max r i in t3_lines (firstn (j - i) (skipn i lines))
      end).

(* ------------------------------------------------------------------ *)
(** seq[i].parameters[k], for an element that holds a number there; a beamline has no parameters,
    and a text there is left out (TypeError) *)
Definition param_at (h : heap) (s : list ref) (i : Z) (k : string) : res R :=
  match py_index s i with
  | None => Err IndexError
  | Some (RL _) => Err AttributeError
  | Some (RE e) => match nth_error (elems h) e with
                   | None => Err NameError
                   | Some el => match agn_get (e_params el) k with Some (VNum x) => Ok x | Some (VStr _) => Err TypeError | None => Err KeyError end
                   end
  end.
(** seq[i].type *)
Definition type_at (h : heap) (s : list ref) (i : nat) : res string :=
  match nth_error s i with
  | None => Err IndexError
  | Some (RL _) => Err AttributeError
  | Some (RE e) => match nth_error (elems h) e with None => Err NameError | Some el => Ok (e_type el) end
  end.
Definition bind_run {A B} (r : run A) (f : heap -> A -> run B) : run B :=
  match r with (h, Ok x) => f h x | (h, Err x) => (h, Err x) | (h, Diverges) => (h, Diverges) end.

(** trace3d_parser.py 221-230: the loop of handle_cavities over the positions [is]; the positions
    and phases of the cavities *)
Fixpoint cavity_loop (h : heap) (a : nat) (s : list ref) (is : list nat) : run (list nat * list R) :=
  match is with
  | [] => (h, Ok ([], []))
  | i :: r =>
      bind_run (h, type_at h s i) (fun h ty =>
      if String.eqb ty "rfca" then
        let z := Z.of_nat i in
        bind_run (h, param_at h s z "phase") (fun h ph =>
        bind_run (h, param_at h s (z - 1) "L") (fun h l1 =>
        bind_run (h, param_at h s (z + 1) "L") (fun h l2 =>
        bind_run (edit_by_index h a (z - 1) ["L"%string] [VNum 0]) (fun h _ =>
        bind_run (edit_by_index h a (z + 1) ["L"%string] [VNum 0]) (fun h _ =>
        bind_run (edit_by_index h a z ["L"%string] [VNum (l1 + l2)]) (fun h _ =>
        bind_run (cavity_loop h a s r) (fun h cp => (h, Ok (i :: fst cp, (90 - ph) :: snd cp)))))))))
      else cavity_loop h a s r)
  end.
(** trace3d_parser.py 232-233 *)
Fixpoint phase_loop (h : heap) (a : nat) (phases : list R) (cavities : list nat) : run unit :=
  match cavities with
  | [] => (h, Ok tt)
  | c :: r => bind_run (edit_by_index h a (Z.of_nat c) (repeat "phase"%string (List.length phases)) (map VNum phases)) (fun h _ => phase_loop h a phases r)
  end.
(** trace3d_parser.py 217-233 handle_cavities *)
Definition handle_cavities (h : heap) (a : nat) : run unit :=
  match nth_error (lines h) a with
  | None => (h, Err NameError)
  | Some l => bind_run (cavity_loop h a (l_seq l) (seq 0 (List.length (l_seq l)))) (fun h cp => phase_loop h a (snd cp) (fst cp))
  end.

(** trace3d_parser.py 204-212: the loop of handle_bends; the edges *)
Definition ref_dec : forall x y : ref, {x = y} + {x <> y}.
Proof. decide equality; apply Nat.eq_dec. Defined.
Fixpoint bend_loop (h : heap) (a : nat) (s : list ref) (is : list nat) : run (list ref) :=
  match is with
  | [] => (h, Ok [])
  | i :: r =>
      bind_run (h, type_at h s i) (fun h ty =>
      if String.eqb ty "sbend" then
        let z := Z.of_nat i in
        bind_run (h, param_at h s (z - 1) "BETA") (fun h e1 =>
        bind_run (h, param_at h s (z + 1) "BETA") (fun h e2 =>
        bind_run (h, param_at h s (z - 1) "G") (fun h g =>
        bind_run (h, param_at h s (z - 1) "K1") (fun h k =>
        bind_run (edit_by_index h a z ["E1"; "E2"; "HGAP"; "FINT"]%string [VNum e1; VNum e2; VNum (g / 2); VNum k]) (fun h _ =>
        bind_run (bend_loop h a s r) (fun h es =>
        match py_index s (z - 1), py_index s (z + 1) with
        | Some x, Some y => (h, Ok (x :: y :: es))
        | _, _ => (h, Err IndexError)
        end))))))
      else bend_loop h a s r)
  end.
(** list.remove: the first one; elements are compared by identity *)
Fixpoint remove_ref (x : ref) (s : list ref) : option (list ref) :=
  match s with [] => None | y :: r => if ref_dec x y then Some r else option_map (cons y) (remove_ref x r) end.
Definition set_seq (s : list ref) (l : line) : line :=
  {| l_name := l_name l; l_elements := l_elements l; l_lines := l_lines l; l_seq := s; l_top := l_top l |}.
Fixpoint remove_all (h : heap) (a : nat) (s : list ref) (es : list ref) : run unit :=
  match es with
  | [] => (h, Ok tt)
  | x :: r => match remove_ref x s with
              | Some s' => remove_all (upd_line h a (set_seq s')) a s' r
              | None => (h, Err ValueError)
              end
  end.
(** trace3d_parser.py 201-215 handle_bends *)
Definition handle_bends (h : heap) (a : nat) : run unit :=
  match nth_error (lines h) a with
  | None => (h, Err NameError)
  | Some l => bind_run (bend_loop h a (l_seq l) (seq 0 (List.length (l_seq l)))) (fun h es => remove_all h a (l_seq l) es)
  end.

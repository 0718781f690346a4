(** Model of a BeamlineParser as an object: rsbeams/rslattice/lte_parser.py 42-193, used more than
    once. Text, numbers and the parsing itself are those of Lte_Model. *)
From Coq Require Import List Reals Bool Arith String Ascii ZArith Lia.
From Verif Require Import PyBase PyDict PyText Line_Model Lte_Model.
Import ListNotations.

(** lte_parser.py 43-52: the attributes beamline_name, beamline_string, lines, lattice_definition
    and beamline, which is line 0 of [p_heap]. rpn_variables is used by the constructor only. *)
Record parser := { p_name : text; p_string : text; p_lines : line_dict; p_defs : list text; p_heap : heap }.

(** lte_parser.py 42-57 BeamlineParser(filename, beamline_name), for a file that can be read *)
Definition make (show : num -> text) (file : list text) (beamline_name : text) : res parser :=
  do2 p <- sanitize file;
  let '(defs, vars) := p in
  Ok {| p_name := lowert beamline_name; p_string := []; p_lines := []; p_defs := replace_variables show defs vars;
        p_heap := fst (new_line empty_heap (Some (string_of_list_ascii beamline_name))) |}.

(** lte_parser.py 69-75 set_beamline: only the name is assigned, as it is given *)
Definition set_beamline (p : parser) (beamline_name : text) : parser :=
  {| p_name := beamline_name; p_string := p_string p; p_lines := p_lines p; p_defs := p_defs p; p_heap := p_heap p |}.

(** lte_parser.py 85-95: the loop from the last line to the first; the dictionary and the text are
    those the object has, the definitions found are popped. *)
Fixpoint find_lines (name : text) (defs : list text) (lines : line_dict) (str : text) : list text * line_dict * text :=
  match defs with
  | [] => ([], lines, str)
  | l :: r =>
      let '(others, lines, str) := find_lines name r lines str in
      match find (T "line=(") l with
      | None => (l :: others, lines, str)
      | Some _ =>
          let body := after 1 l (find1 equals l) in
          (others, dset otext_dec lines (read_name l) body,
           match read_name l with Some n => if teqb n name then body else str | None => str end)
      end
  end.
(** lte_parser.py 77-95 find_beamlines *)
Definition found (p : parser) : parser :=
  match p_name p with
  | [] => p
  | name => let '(defs, lines, str) := find_lines name (p_defs p) (p_lines p) (p_string p) in
            {| p_name := name; p_string := str; p_lines := lines; p_defs := defs; p_heap := p_heap p |}
  end.
Definition with_heap (p : parser) (h : heap) : parser :=
  {| p_name := p_name p; p_string := p_string p; p_lines := p_lines p; p_defs := p_defs p; p_heap := h |}.

(** lte_parser.py 59-67 __call__: the object afterwards, also when the call raises. What is returned
    is the beamline the object has. *)
Definition call (fuel : nat) (p : parser) : parser * res unit :=
  let p := found p in
  let (h, r) := parse_set_beamline fuel (p_name p) (p_lines p) (p_defs p) (p_string p) (p_heap p) 0 in
  (with_heap p h, r).

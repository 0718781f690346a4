(** Model of the TraceWin parser as an object that is called more than once:
    rsbeams/rslattice/trace3d_parser.py 19-46, 59-73, 190-199, 325-331.  Text, numbers and the reading of a
    line are those of Trace_Model. *)
From Coq Require Import List Reals Bool Arith String Ascii.
From Verif Require Import PyBase PyDict PyText Line_Model Trace_Model.
Import ListNotations.

(** trace3d_parser.py 59-73 _sanitize_lattice_definition on the list of the object, as it is left
    behind: the loop runs from the last line to the first and changes the list as it goes.  A comment
    line is taken out (66) before the look at the line in its place raises (72); lines that have not been
    reached stay as they are. *)
Fixpoint sanitize_run (deck : list text) : list text * res unit :=
  match deck with
  | [] => ([], Ok tt)
  | l :: r =>
      match sanitize_run r with
      | (done, Ok _) =>
          match sanitize_line l done with
          | Ok d => (d, Ok tt)
          | Err x => (done, Err x)
          | Diverges => (done, Diverges)
          end
      | (done, x) => (l :: done, x)
      end
  end.

(** the object: lattice_definition, and the beamline, the counter and the frequency *)
Record object := { o_deck : list text; o_parser : parser }.

(** trace3d_parser.py 19-34, 325-331 TraceWin(file, name), for a file that can be read *)
Definition make (file : list text) (name : string) : object :=
  let (h, a) := new_line empty_heap (Some name) in
  {| o_deck := file; o_parser := {| p_heap := h; p_line := a; p_count := 0; p_freq := None |} |}.

(** trace3d_parser.py 37-46 __call__ *)
Definition call (o : object) : object * res unit :=
  match sanitize_run (o_deck o) with
  | (d, Ok _) => let (p, r) := tw_lines (o_parser o) d in ({| o_deck := d; o_parser := p |}, r)
  | (d, x) => ({| o_deck := d; o_parser := o_parser o |}, x)
  end.

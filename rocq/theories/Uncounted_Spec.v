(** Specification for C125: ASCII SDDS files without row counts. The rows of a page end at an empty
    line, or at the end of the file. *)
From Coq Require Import List Arith Ascii String ZArith.
From Verif Require Import PyText Sdds_Model Sdds_Spec.
Import ListNotations.
Open Scope Z_scope.

(** the data are text, and the header says no_row_counts=1 *)
Definition uncounted_header (h : header) : Prop :=
  attribute_of (h_data h) (T "mode") = Some (T "ascii") /\ attribute_of (h_data h) (T "no_row_counts") = Some (T "1").

(** a page: a line for each parameter, a line for each row *)
Definition uncounted_lines (ap : apage) : list text := ap_params ap ++ map (join [space]) (ap_rows ap).
(** pages with one empty line between them, and [k] after the last *)
Fixpoint uncounted_pages (k : nat) (aps : list apage) : list text :=
  match aps with
  | [] => []
  | [ap] => uncounted_lines ap ++ repeat [] k
  | ap :: r => uncounted_lines ap ++ [[]] ++ uncounted_pages k r
  end.
Definition uncounted_file (h : header) (k : nat) (aps : list apage) : text := header_text h ++ lines_text (uncounted_pages k aps).

(** What should be reported: the parameters, without a count *)
Definition uncounted_params (ps : list (text * kind)) (pgs : list page) : list (option array) :=
  map (fun pg => Some {| a_names := map fst ps; a_rows := [pg_params pg] |}) pgs.

(** the first parameter of the page is written with more than one character *)
Definition long_start (ap : apage) : Prop := match ap_params ap with (_ :: r) :: _ => exists c, In c r /\ is_bws c = false | _ => False end.

(** Vocabulary for C97: header commands that go over several lines. *)
From Coq Require Import List Bool Arith Ascii String ZArith.
From Verif Require Import PyBase PyText Lte_Spec Sdds_Model Sdds_Spec.
Import ListNotations.
Open Scope Z_scope.

(** A line of a broken command: not empty, quotes in pairs, no backslash, and its first character
    that is not white is no exclamation mark *)
Definition part_ok (p : text) : Prop :=
  p <> [] /\ ~ In newline p /\ ~ In escape_char p /\ Nat.Even (count_occ Ascii.ascii_dec p quote_char) /\
  forall a b, p = a ++ "!"%char :: b -> exists c, In c a /\ is_bws c = false.

(** The lines of a command: with a blank for each line end they are the command on one line, and
    only the last one has the end *)
Definition broken (word : text) (c : command) (parts : list text) : Prop :=
  parts <> [] /\ command_text word c = join [" "%char] parts ++ [newline] /\ Forall part_ok parts /\ Forall (fun p => ~ contains (T "&end") p) (removelast parts).

(** The text of lines, and of a header with broken commands *)
Definition lines_text (ls : list text) : text := List.concat (map (fun l => l ++ [newline]) ls).
Definition broken_line (l : hline) (parts : list text) : Prop :=
  match l with
  | Ignored t => parts = [t]
  | Param c => broken (T "&parameter") c parts
  | Col c => broken (T "&column") c parts
  end.
Definition broken_header (h : header) (t : text) : Prop :=
  exists pss ds, Forall2 broken_line (h_lines h) pss /\ broken (T "&data") (h_data h) ds /\
    t = lines_text (h_before h ++ [h_first h] ++ List.concat pss ++ ds).

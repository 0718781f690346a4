(** Specification for C124: pages of an ASCII SDDS file whose rows do not fit the columns. *)
From Coq Require Import List Arith ZArith.
From Verif Require Import PyText Sdds_Model Sdds_Spec.
Import ListNotations.
Open Scope Z_scope.

(** A page as in [apage_ok], but for the numbers of words in its rows: the parameters can be read,
    the rows are made of words, at least one in each. *)
Record readable_page (max : Z) (ps cs : list (text * kind)) (ap : apage) : Prop := {
  rp_lines : Forall line_text (ap_params ap);
  rp_params : exists vs, reads_all true max (map snd ps) (ap_params ap) vs;
  rp_words : Forall (Forall word_text) (ap_rows ap);
  rp_filled : Forall (fun row => row <> []) (ap_rows ap);
  rp_names : Forall kept_name (map fst ps ++ map fst cs);
  rp_count : Z.of_nat (List.length (ap_rows ap)) < 2 ^ 31 }.

(** A row shorter than the number of columns, or rows of different lengths, or anything but one
    value per row where there is one column *)
Definition misfit (columns : nat) (rows : list (list text)) : Prop :=
  Exists (fun row => (List.length row < columns)%nat) rows \/
  (exists a b, In a rows /\ In b rows /\ List.length a <> List.length b) \/
  columns = 1%nat /\ Exists (fun row => List.length row <> 1%nat) rows.

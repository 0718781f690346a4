(** Vocabulary for the claim about stored variables: lattice files in which some lines store the
    value of an expression under a name, and other lines use these names. *)
From Coq Require Import List Reals Bool Arith String Ascii.
From Verif Require Import PyText Lte_Spec.
Import ListNotations.

(** p is part of s *)
Definition part_of (p s : text) : Prop := exists a b, s = a ++ p ++ b.

(** A line that uses names: a text, then names each followed by a text *)
Record template := { u_first : text; u_uses : list (text * text) }.
Definition literals (l : template) : list text := u_first l :: map snd (u_uses l).
Definition used (l : template) : list text := map fst (u_uses l).
(** the line with a text put for each name *)
Definition filled (put : text -> text) (l : template) : text :=
  u_first l ++ List.concat (map (fun u => put (fst u) ++ snd u) (u_uses l)).
Definition template_text (l : template) : text := filled (fun n => n) l.
(** there is a separator before every name, and a separator or the end of the line after it *)
Definition ends_apart (s : text) : Prop := exists r c, s = r ++ [c] /\ separator c.
Definition starts_apart (s : text) : Prop := exists c r, s = c :: r /\ separator c.
Fixpoint apart (before : text) (us : list (text * text)) : Prop :=
  match us with
  | [] => True
  | (_, after) :: r => ends_apart before /\ ((after = [] /\ r = []) \/ starts_apart after) /\ apart after r
  end.

(** % expression sto name *)
Record storing := { s_pad : text; s_words : list (text * nat); s_expr : expr; s_name : text; s_tail : text }.
Definition storing_text (s : storing) : text := s_pad s ++ spaced (s_words s) ++ s_name s ++ s_tail s.

Inductive source := Store (s : storing) | Use (l : template).
Definition source_text (x : source) : text := match x with Store s => storing_text s | Use l => template_text l end.
Definition stored (file : list source) : list text := flat_map (fun x => match x with Store s => [s_name s] | Use _ => [] end) file.
Definition source_ok (names : list text) (x : source) : Prop :=
  lower_case (source_text x) /\
  match x with
  | Store s => blank_line (s_pad s) /\ blank_line (s_tail s) /\ identifier (s_name s) /\ expr_ok (s_expr s) /\
               map fst (s_words s) = T "%" :: words (s_expr s) ++ [T "sto"]
  | Use l => ~ blank_line (template_text l) /\ apart (u_first l) (u_uses l) /\ (forall n, In n (used l) -> In n names) /\
             forall t, In t (literals l) -> (forall c, In c (T "!&%") -> ~ In c t) /\ (forall n, In n names -> ~ part_of n t)
  end.
Definition numeral (t : text) : Prop := exists l, literal_ok l /\ t = literal_text l.
(** The names are different, none is part of another or of the text of a value. *)
Definition file_ok (put : text -> text) (file : list source) : Prop :=
  Forall (source_ok (stored file)) file /\ NoDup (stored file) /\
  (forall p q, In p (stored file) -> In q (stored file) -> part_of p q -> p = q) /\
  (forall p q, In p (stored file) -> In q (stored file) -> ~ part_of p (put q)) /\
  (forall p, In p (stored file) -> numeral (put p)).
(** the file without stored variables *)
Definition spelled_out (put : text -> text) (file : list source) : list text :=
  flat_map (fun x => match x with Store _ => [] | Use l => [filled put l] end) file.

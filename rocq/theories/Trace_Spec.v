(** Vocabulary for TraceWin decks: cards with a word and numbers, and the elements they stand for. *)
From Coq Require Import List Reals Bool Arith String Ascii.
From Verif Require Import PyText Line_Model Line_Spec Lte_Spec.
Import ListNotations.
Open Scope R_scope.

(** The cards of a deck and their words, which may be written in any capitalisation. *)
Inductive kind := Drift | Quad | DtlCell | NCells | SyncPhase | Freq | FieldMap.
Definition kind_word (k : kind) : string :=
  match k with
  | Drift => "drift" | Quad => "quad" | DtlCell => "dtl_cel" | NCells => "ncells"
  | SyncPhase => "set_sync_phase" | Freq => "freq" | FieldMap => "field_map"
  end.

(** A card is a word followed by numbers, blanks between them, and then blanks or a comment. *)
Record card := { c_pad : text; c_kind : kind; c_word : text; c_numbers : list (text * literal); c_blank : text; c_comment : option text }.
(** a number without exponent *)
Definition fixed_point (l : literal) : Prop := literal_ok l /\ l_exp l = None.
(** a number without exponent, and with decimals if it has a minus sign *)
Definition plain_number (l : literal) : Prop := fixed_point l /\ (l_sign l = Some true -> frac_digits l <> []).
Definition card_form (number : literal -> Prop) (c : card) : Prop :=
  blank_line (c_pad c) /\ same_name (string_of_list_ascii (c_word c)) (kind_word (c_kind c)) /\
  Forall (fun sl => fst sl <> [] /\ blank_line (fst sl) /\ number (snd sl)) (c_numbers c) /\
  blank_line (c_blank c).
Definition card_ok := card_form plain_number.
Definition card_text (c : card) : text :=
  c_pad c ++ c_word c ++ List.concat (map (fun sl => fst sl ++ literal_text (snd sl)) (c_numbers c)) ++ c_blank c ++
  match c_comment c with Some t => T ";" ++ t | None => [] end.
Definition card_values (c : card) : list R := map (fun sl => literal_value (snd sl)) (c_numbers c).

(** Lines of a deck *)
Inductive entry := Card (c : card) | BlankLine (l : text) | CommentLine (pad rest : text).
Definition entry_form (number : literal -> Prop) (e : entry) : Prop :=
  match e with Card c => card_form number c | BlankLine l => blank_line l | CommentLine pad _ => blank_line pad end.
Definition entry_ok := entry_form plain_number.
Definition entry_text (e : entry) : text :=
  match e with Card c => card_text c | BlankLine l => l | CommentLine pad rest => pad ++ T ";" ++ rest end.
(** behind every comment line there is a card *)
Definition comments_inside (es : list entry) : Prop :=
  forall a pad rest b, es = a ++ CommentLine pad rest :: b -> exists c, In (Card c) b.
Definition cards (es : list entry) : list card :=
  flat_map (fun e => match e with Card c => [c] | _ => [] end) es.

(** A word that is none of the cards, and what may follow a word *)
Definition strange (w : text) : Prop := w <> [] /\ (forall c, In c w -> is_ws c = false /\ c <> ";"%char) /\ forall k, ~ same_name (string_of_list_ascii w) (kind_word k).
Definition gap (s : text) : Prop := s = [] \/ exists c r, s = c :: r /\ is_ws c = true.

(** What a card stands for: types and parameters of elements.  Lengths are in millimetres in the
    deck and in metres in the beamline.  A DTL cell is a quadrupole, a cavity and a quadrupole.
    The frequency of the cavity is the 1 the code falls back to (see C49). *)
Definition thing := (string * list (string * R))%type.
Definition mm (x : R) : R := x / 1000.
(** the i-th number under the i-th name *)
Fixpoint under (names : list (string * (R -> R))) (vs : list R) : list (string * R) :=
  match names, vs with (n, f) :: names, v :: vs => (n, f v) :: under names vs | _, _ => [] end.
Definition as_is (n : string) : string * (R -> R) := (n, fun x => x).
Definition drift_names := (("L"%string, mm) :: map as_is ["R"; "Ry"; "RX_SHIFT"; "RY_SHIFT"]%string).
Definition quad_names := (("L"%string, mm) :: map as_is ["K1"; "R"; "THETA"; "G3U3"; "G4U4"; "G5U5"; "G6U6"; "GFR"]%string).
Definition dtl_names := [("L", mm); ("LQ1", mm); ("LQ2", mm)]%string ++
  map as_is ["GC"; "B1"; "B2"; "VOLT"; "PHASE"; "R"; "P"; "BETA_S"; "T_S"; "KTS"; "K2TS"]%string.
Definition ncells_names := map as_is ["MODE"; "N"; "BETA"; "VOLT"; "PHASE"; "R"; "P"; "KE0TI"; "KE0TO"; "DZI"; "DZO"]%string.
Definition field_map_names := [as_is "TYPE"; ("L"%string, mm)] ++ map as_is ["PHASE"; "R"; "KB"; "KE"; "KI"; "KA"; "FILE"]%string.
Definition things (k : kind) (vs : list R) : list thing :=
  match k with
  | Drift => [("drift"%string, under drift_names vs)]
  | Quad => [("quadrupole"%string, under quad_names vs)]
  | DtlCell =>
      match vs with
      | l :: lq1 :: lq2 :: _ :: b1 :: b2 :: volt :: phase :: _ =>
          [("quadrupole", [("k1", b1); ("l", mm lq1)]);
           ("rfca", [("l", mm (l - lq1 - lq2)); ("volt", volt); ("phase", phase + 90); ("frequency", 1)]);
           ("quadrupole", [("k1", b2); ("l", mm lq2)])]%string
      | _ => [("dtl_cell"%string, under dtl_names vs)]
      end
  | NCells => [("rfca"%string, under ncells_names vs)]
  | SyncPhase => [("marker"%string, [])]
  | Freq => [("freq"%string, under [as_is "FREQUENCY"] vs)]
  | FieldMap => [("field_map"%string, under field_map_names vs)]
  end.
(** the length a card gives, in metres *)
Definition card_length (k : kind) (vs : list R) : R :=
  match k, vs with
  | Drift, l :: _ | Quad, l :: _ | DtlCell, l :: _ => mm l
  | FieldMap, _ :: l :: _ => mm l
  | _, _ => 0
  end.

(** An element is a thing: it has its type, and every name in any capitalisation reads as the
    parameters say. *)
Definition is_thing (h : heap) (e : nat) (t : thing) : Prop := exists el,
  element_at h e = Some el /\ e_type el = fst t /\
  forall k, last_value k (map (fun kv => (fst kv, VNum (snd kv))) (snd t)) (agn_get (e_params el) k).
(** A beamline consists of these things in this order, all different elements with different names. *)
Definition consists (h : heap) (a : nat) (ts : list thing) : Prop := exists es,
  sequence h a = Some (map RE es) /\ NoDup es /\ Forall2 (is_thing h) es ts /\
  (forall e e' el el', In e es -> In e' es -> element_at h e = Some el -> element_at h e' = Some el' -> e_name el = e_name el' -> e = e').

(** Elements of a sequence: type, parameter and length *)
Definition has_type (h : heap) (e : nat) (ty : string) : Prop := exists el, element_at h e = Some el /\ e_type el = ty.
Definition has_number (h : heap) (e : nat) (k : string) (v : R) : Prop := exists el, element_at h e = Some el /\ agn_get (e_params el) k = Some (VNum v).

(** A line as pieces: a bend between its two edges, or any other element.  The numbers are the
    edge angles, the gap of the entrance edge and its fringe integral. *)
Record bend := { b_in : nat; b_at : nat; b_out : nat; b_angle1 : R; b_angle2 : R; b_gap : R; b_fringe : R }.
Inductive piece := Other (e : nat) | Bend (b : bend).
Definition spread (p : piece) : list nat := match p with Other e => [e] | Bend b => [b_in b; b_at b; b_out b] end.
Definition folded (p : piece) : list nat := match p with Other e => [e] | Bend b => [b_at b] end.
Definition no_bend (h : heap) (e : nat) : Prop := exists ty, has_type h e ty /\ ty <> "sbend"%string.
Definition piece_ok (h : heap) (p : piece) : Prop :=
  match p with
  | Other e => no_bend h e
  | Bend b => no_bend h (b_in b) /\ has_type h (b_at b) "sbend" /\ no_bend h (b_out b) /\
      has_number h (b_in b) "BETA" (b_angle1 b) /\ has_number h (b_out b) "BETA" (b_angle2 b) /\
      has_number h (b_in b) "G" (b_gap b) /\ has_number h (b_in b) "K1" (b_fringe b)
  end.
(** the parameter reads the same, or is missing, in both *)
Definition reads_same (h h' : heap) (e : nat) (k : string) : Prop := forall v,
  (exists el, element_at h e = Some el /\ agn_get (e_params el) k = Some v) <->
  (exists el, element_at h' e = Some el /\ agn_get (e_params el) k = Some v).

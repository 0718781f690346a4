(** Vocabulary for the claims about the elegant lattice parser: decimal numbers, arithmetic
    expressions and how they are written, lattice files, line definitions and their expansion. *)
From Coq Require Import List Reals Bool Arith String Ascii ZArith Lia.
From Verif Require Import PyText Line_Model.
Import ListNotations.
Open Scope R_scope.

(* ------------------------------------------------------------------ *)
(** Decimal numbers: an optional sign, digits, optional fraction, optional exponent *)
Record literal := { l_sign : option bool;            (* Some true is a minus sign, Some false a plus sign *)
                    l_int : list nat; l_frac : option (list nat);
                    l_exp : option (option bool * list nat) }.
Definition digits_ok (d : list nat) : Prop := forall k, In k d -> (k < 10)%nat.
Definition frac_digits (l : literal) : list nat := match l_frac l with Some f => f | None => [] end.
Definition literal_ok (l : literal) : Prop :=
  digits_ok (l_int l) /\ digits_ok (frac_digits l) /\ (l_int l ++ frac_digits l <> []) /\
  match l_exp l with Some (_, d) => digits_ok d /\ d <> [] | None => True end.
Fixpoint decimal (d : list nat) : R :=
  match d with [] => 0 | k :: r => INR k * 10 ^ List.length r + decimal r end.
Definition signed (s : option bool) (x : R) : R := match s with Some true => - x | _ => x end.
(** ten to the power plus or minus n *)
Definition scale (e : option (option bool * list nat)) : R :=
  match e with
  | None => 1
  | Some (Some true, d) => Rpower 10 (- decimal d)
  | Some (_, d) => Rpower 10 (decimal d)
  end.
Definition literal_value (l : literal) : R :=
  signed (l_sign l) (decimal (l_int l) + decimal (frac_digits l) / 10 ^ List.length (frac_digits l)) * scale (l_exp l).
Definition digit_char (k : nat) : ascii := ascii_of_nat (48 + k).
Definition sign_text (s : option bool) : text := match s with Some true => T "-" | Some false => T "+" | None => [] end.
Definition literal_text (l : literal) : text :=
  sign_text (l_sign l) ++ map digit_char (l_int l) ++
  match l_frac l with Some f => T "." ++ map digit_char f | None => [] end ++
  match l_exp l with Some (s, d) => T "e" ++ sign_text s ++ map digit_char d | None => [] end.

(* ------------------------------------------------------------------ *)
(** Arithmetic expressions, their value, and their reverse-Polish words *)
Inductive binary := Minus | Plus | Times | TimesWord | Over.
Inductive expr := Const (l : literal) | ConstPi | Binary (o : binary) (a b : expr) | Root (a : expr).
Fixpoint expr_ok (e : expr) : Prop :=
  match e with
  | Const l => literal_ok l
  | ConstPi => True
  | Binary _ a b => expr_ok a /\ expr_ok b
  | Root a => expr_ok a
  end.
(** the number the code uses for pi *)
Definition pi_value : R := 3141592653589793 / 10 ^ 15.
Definition binary_value (o : binary) (x y : R) : option R :=
  match o with
  | Minus => Some (x - y) | Plus => Some (x + y) | Times | TimesWord => Some (x * y)
  | Over => if Req_EM_T y 0 then None else Some (x / y)
  end.
(** None: a division by zero or the root of a negative number in it *)
Fixpoint expr_value (e : expr) : option R :=
  match e with
  | Const l => Some (literal_value l)
  | ConstPi => Some pi_value
  | Binary o a b => match expr_value a, expr_value b with Some x, Some y => binary_value o x y | _, _ => None end
  | Root a => match expr_value a with Some x => if Rlt_dec x 0 then None else Some (sqrt x) | None => None end
  end.
Definition binary_word (o : binary) : text :=
  match o with Minus => T "-" | Plus => T "+" | Times => T "*" | TimesWord => T "mult" | Over => T "/" end.
Fixpoint words (e : expr) : list text :=
  match e with
  | Const l => [literal_text l]
  | ConstPi => [T "pi"]
  | Binary o a b => words a ++ words b ++ [binary_word o]
  | Root a => words a ++ [T "sqrt"]
  end.

(** A text in which the given words stand in order with blanks between them; there may be blanks
    before and after, the whole may be in double quotes, and the line may end in a newline. *)
Definition blanks (n : nat) : text := List.repeat space n.
Fixpoint spaced (ws : list (text * nat)) : text :=
  match ws with [] => [] | (w, n) :: r => w ++ blanks (S n) ++ spaced r end.
Definition dquote : text := [ascii_of_nat 34].
Inductive written : list text -> text -> Prop :=
| written_plain : forall n ws w m nl, (nl = [] \/ nl = [newline]) ->
    written (map fst ws ++ [w]) (blanks n ++ spaced ws ++ w ++ blanks m ++ nl)
| written_quoted : forall n ws w m nl, (nl = [] \/ nl = [newline]) ->
    written (map fst ws ++ [w]) (dquote ++ blanks n ++ spaced ws ++ w ++ blanks m ++ dquote ++ nl).

(** The words of a list: a number, a binary operator, a root; how many operands are left after
    them, None when one of them finds too few. *)
Inductive word := WConst (l : literal) | WPi | WBinary (o : binary) | WRoot.
Definition word_ok (w : word) : Prop := match w with WConst l => literal_ok l | _ => True end.
Definition word_text (w : word) : text :=
  match w with WConst l => literal_text l | WPi => T "pi" | WBinary o => binary_word o | WRoot => T "sqrt" end.
Definition depth_step (n : nat) (w : word) : option nat :=
  match w with
  | WConst _ | WPi => Some (S n)
  | WBinary _ => match n with S (S k) => Some (S k) | _ => None end
  | WRoot => match n with S k => Some (S k) | O => None end
  end.
Fixpoint depth (n : nat) (ws : list word) : option nat :=
  match ws with [] => Some n | w :: r => match depth_step n w with Some k => depth k r | None => None end end.
Definition short_of_operands (ws : list word) : Prop := depth 0 ws = None \/ depth 0 ws = Some 0%nat.

(* ------------------------------------------------------------------ *)
(** Lattice files *)
Definition blank_line (l : text) : Prop := forall c, In c l -> is_ws c = true.
Definition comment_line (l : text) : Prop := exists pad r, blank_line pad /\ l = pad ++ "!"%char :: r.
(** something other than comments and blank lines *)
Definition has_content (file : list text) : Prop := exists l, In l file /\ ~ blank_line l /\ ~ comment_line l.
(** an ordinary line: neither blank nor a comment, no comment at its end, no continuation mark at
    its end and no variable definition *)
Definition ordinary (l : text) : Prop :=
  ~ blank_line l /\ ~ In "!"%char l /\
  (forall r pad, blank_line pad -> l <> r ++ "&"%char :: pad) /\
  (forall r pad, blank_line pad -> l <> pad ++ "%"%char :: r).
(** a line that a continuation mark may be put before: it starts with a visible character that
    has no meaning of its own there *)
Definition plain_start (l : text) : Prop :=
  exists c r, l = c :: r /\ is_ws c = false /\ c <> "!"%char /\ c <> "%"%char /\ c <> "&"%char.

(* ------------------------------------------------------------------ *)
(** Element definitions: name: type, key=value, ... *)
Inductive meaning := Number (r : R) | Word (w : text).
(** a word that is not a number: it starts with a letter, has no separators in it, and is not an
    operator, a constant or one of the names of infinity and not-a-number *)
Definition letter (c : ascii) : Prop := let n := nat_of_ascii c in (97 <= n /\ n <= 122)%nat.
Definition separator (c : ascii) : Prop :=
  is_ws c = true \/ In c (T ",=:()!&%") \/ c = ascii_of_nat 34 \/ c = ascii_of_nat 39.
Definition plain_word (w : text) : Prop :=
  (exists c r, w = c :: r /\ letter c) /\ (forall c, In c w -> ~ separator c) /\
  ~ In w [T "mult"; T "sqrt"; T "inf"; T "nan"; T "infinity"] /\ (forall r, w <> T "pi" ++ r).
(** what a value text says *)
Inductive says : text -> meaning -> Prop :=
| says_number : forall e v r, expr_ok e -> written (words e) v -> expr_value e = Some r -> says v (Number r)
| says_word : forall w, plain_word w -> says w (Word w)
| says_quoted_word : forall w, plain_word w -> says (dquote ++ w ++ dquote) (Word w).

Record parameter := { p_before : text; p_key : text; p_after : text; p_value : text; p_meaning : meaning }.
(** a name or a key: not empty, no separators, no capital letters *)
Definition lower_case (s : text) : Prop := forall c, In c s -> let n := nat_of_ascii c in ~ (65 <= n /\ n <= 90)%nat.
Definition identifier (s : text) : Prop := s <> [] /\ (forall c, In c s -> ~ separator c) /\ lower_case s.
Definition parameter_ok (p : parameter) : Prop :=
  blank_line (p_before p) /\ blank_line (p_after p) /\ identifier (p_key p) /\ says (p_value p) (p_meaning p).
Definition parameter_text (p : parameter) : text := p_before p ++ p_key p ++ p_after p ++ T "=" ++ p_value p.

(** A name as it is written, perhaps in double quotes, and the name without them. *)
Definition bare (s : text) : text := filter (fun c => negb (Ascii.eqb c (ascii_of_nat 34))) s.
Definition plain_or_quoted (s : text) : Prop := s = bare s \/ s = dquote ++ bare s ++ dquote.

Record definition := { d_written : text; d_before : text; d_type : text; d_after : text; d_params : list parameter }.
Definition d_name (d : definition) : text := bare (d_written d).
Definition definition_ok (d : definition) : Prop :=
  identifier (d_name d) /\ blank_line (d_before d) /\ blank_line (d_after d) /\ identifier (d_type d) /\
  Forall parameter_ok (d_params d) /\ NoDup (map p_key (d_params d)) /\ plain_or_quoted (d_written d).
Definition definition_text (d : definition) : text :=
  d_written d ++ T ":" ++ d_before d ++ d_type d ++ d_after d ++ List.concat (map (fun p => T "," ++ parameter_text p) (d_params d)).

(* ------------------------------------------------------------------ *)
(** Line definitions: name: line=(item, item, ...), an item being a name, a repeated name or a
    repeated list of names *)
Definition name_in := (text * text * text)%type.               (* blanks, the name as it is written, blanks *)
Definition name_written (x : name_in) : text := snd (fst x).
Definition the_name (x : name_in) : text := bare (name_written x).
Definition name_text (x : name_in) : text := fst (fst x) ++ name_written x ++ snd x.
Definition name_ok (x : name_in) : Prop :=
  blank_line (fst (fst x)) /\ blank_line (snd x) /\ identifier (the_name x) /\
  (forall c r, the_name x = c :: r -> is_digit c = false) /\ plain_or_quoted (name_written x).
Inductive item := One (x : name_in) | RepeatOne (k : list nat) (x : name_in) | RepeatList (k : list nat) (xs : list name_in).
Definition number_text (k : list nat) : text := map digit_char k.
Fixpoint count_from (acc : nat) (k : list nat) : nat := match k with [] => acc | d :: r => count_from (10 * acc + d) r end.
Definition count (k : list nat) : nat := count_from 0 k.
Definition item_text (i : item) : text :=
  match i with
  | One x => name_text x
  | RepeatOne k x => number_text k ++ T "*" ++ name_text x
  | RepeatList k xs => number_text k ++ T "*(" ++ join (T ",") (map name_text xs) ++ T ")"
  end.
Definition item_ok (i : item) : Prop :=
  match i with
  | One x => name_ok x
  | RepeatOne k x => digits_ok k /\ (1 <= count k)%nat /\ name_ok x
  | RepeatList k xs => digits_ok k /\ (1 <= count k)%nat /\ xs <> [] /\ Forall name_ok xs
  end.

(** A lattice file: element definitions and line definitions *)
Inductive entry := Define (d : definition) | Line (written before : text) (items : list item) (tail : text).
Definition entry_name (e : entry) : text := match e with Define d => d_name d | Line w _ _ _ => bare w end.
Definition entry_text (e : entry) : text :=
  match e with
  | Define d => definition_text d ++ match d_params d with [] => [newline] | _ => [] end
  | Line w before items tail => w ++ T ":" ++ before ++ T "line=(" ++ join (T ",") (map item_text items) ++ T ")" ++ tail
  end.
Definition entry_ok (e : entry) : Prop :=
  lower_case (entry_text e) /\
  match e with
  | Define d => definition_ok d /\ (forall p, In p (d_params d) -> ~ In (p_key p) [T "self"; T "element_name"; T "element_type"])
  | Line w before items tail => identifier (bare w) /\ blank_line before /\ blank_line tail /\ items <> [] /\ Forall item_ok items /\
      plain_or_quoted w
  end.
Definition lattice_ok (es : list entry) : Prop := Forall entry_ok es /\ NoDup (map entry_name es).

(** The element names a list of items stands for, and the lines entered on the way.  Having such
    a finite expansion is what acyclic means.  A line is entered by its name without quotes. *)
Inductive unfolds (es : list entry) : list item -> list text -> list text -> Prop :=
| unfolds_nil : unfolds es [] [] []
| unfolds_element : forall x d is els uses, In (Define d) es -> d_name d = the_name x ->
    unfolds es is els uses -> unfolds es (One x :: is) (the_name x :: els) uses
| unfolds_line : forall x w before items tail is els1 uses1 els2 uses2, In (Line w before items tail) es -> bare w = the_name x ->
    name_written x = the_name x ->
    unfolds es items els1 uses1 -> unfolds es is els2 uses2 ->
    unfolds es (One x :: is) (els1 ++ els2) (the_name x :: uses1 ++ uses2)
| unfolds_repeat_one : forall k x is els1 uses1 els2 uses2,
    unfolds es [One x] els1 uses1 -> unfolds es is els2 uses2 ->
    unfolds es (RepeatOne k x :: is) (List.concat (List.repeat els1 (count k)) ++ els2) (List.concat (List.repeat uses1 (count k)) ++ uses2)
| unfolds_repeat_list : forall k xs is els1 uses1 els2 uses2,
    unfolds es (map One xs) els1 uses1 -> unfolds es is els2 uses2 ->
    unfolds es (RepeatList k xs :: is) (List.concat (List.repeat els1 (count k)) ++ els2) (List.concat (List.repeat uses1 (count k)) ++ uses2).

(** The element a definition describes. *)
Definition str (s : text) : string := string_of_list_ascii s.
Definition value_of (m : meaning) : value := match m with Number r => VNum r | Word w => VStr (str w) end.
Definition params_of (d : definition) : params := map (fun p => (str (p_key p), value_of (p_meaning p))) (d_params d).
Definition is_element (es : list entry) (n : text) (el : element) : Prop :=
  exists d, In (Define d) es /\ d_name d = n /\ e_name el = str n /\ e_type el = str (d_type d) /\ e_params el = params_of d.

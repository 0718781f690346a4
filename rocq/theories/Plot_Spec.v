(** Vocabulary for the plotting helpers, independent of the model. *)
From Coq Require Import List Reals Bool Arith String Ascii.
Import ListNotations.
Open Scope R_scope.

(** Sum of a list of numbers. *)
Definition sum (l : list R) : R := fold_right Rplus 0 l.
Definition average (l : list R) : R := sum l / INR (List.length l).

(** [num P l n]: exactly n members of l (counted with repetition) satisfy P. *)
Inductive num {A} (P : A -> Prop) : list A -> nat -> Prop :=
| num_nil : num P [] 0
| num_yes : forall x l n, P x -> num P l n -> num P (x :: l) (S n)
| num_no : forall x l n, ~ P x -> num P l n -> num P (x :: l) n.

(** lo and hi are the smallest and the largest member; a single value is given a range of
    width one around it. *)
Definition data_range (l : list R) (lo hi : R) : Prop :=
  (lo < hi /\ In lo l /\ In hi l /\ (forall x, In x l -> lo <= x <= hi)) \/
  (exists v, l <> [] /\ (forall x, In x l -> x = v) /\ lo = v - / 2 /\ hi = v + / 2).

(** x lies in bin i of n equal bins of width w starting at lo; the last bin is closed. *)
Definition in_bin (lo w : R) (n i : nat) (x : R) : Prop :=
  lo + INR i * w <= x /\ (x < lo + INR (S i) * w \/ (S i = n /\ x = lo + INR n * w)).

(** Families of magnets and the colour of each, as in the documentation of the profile plot. *)
Inductive magnet : string -> string -> Prop :=
| m_quad : magnet "QUAD" "tab:green"
| m_kquad : magnet "KQUAD" "tab:green"
| m_sbend : magnet "SBEND" "tab:red"
| m_csbend : magnet "CSBEND" "tab:red"
| m_csrcsbend : magnet "CSRCSBEND" "tab:red"
| m_rbend : magnet "RBEND" "tab:red"
| m_sben : magnet "SBEN" "tab:red"
| m_sext : magnet "SEXT" "tab:blue"
| m_rfcw : magnet "RFCW" "tab:orange"
| m_rfca : magnet "RFCA" "tab:orange"
| m_octu : magnet "OCTU" "tab:purple"
| m_koct : magnet "KOCT" "tab:purple".

(** The pieces of a profile: [pieces s0 rows] lists (start, end, colour) of the magnets among
    rows that follow position s0; a row carries the position of its downstream end. *)
Inductive pieces : R -> list (R * string) -> list (R * R * string) -> Prop :=
| p_nil : forall s0, pieces s0 [] []
| p_magnet : forall s0 s ty c rows l, magnet ty c -> pieces s rows l ->
    pieces s0 ((s, ty) :: rows) ((s0, s, c) :: l)
| p_other : forall s0 s ty rows l, (forall c, ~ magnet ty c) -> pieces s rows l ->
    pieces s0 ((s, ty) :: rows) l.

(** SDDS symbols: letters and two-character codes $c. *)
Inductive item := Letter (c : ascii) | Code (c : ascii).

(** The text of a symbol. *)
Fixpoint spelled (l : list item) : string :=
  match l with
  | [] => ""
  | Letter c :: r => String c (spelled r)
  | Code c :: r => String "$" (String c (spelled r))
  end.

(** A dollar sign always starts a code. *)
Definition proper (l : list item) : Prop := ~ In (Letter "$") l.

(** SDDS's Greek letters in LaTeX. *)
Definition greek_letters : list (ascii * string) :=
  map (fun p => match p with String c (String " " r) => (c, String "\" r) | _ => ("?"%char, ""%string) end)
  ["a alpha"; "b beta"; "g gamma"; "d delta"; "e varepsilon"; "z zeta"; "c eta"; "q theta";
   "i iota"; "k kappa"; "l lambda"; "m mu"; "n nu"; "x xi"; "p pi"; "r rho"; "s sigma"; "t tau";
   "u upsilon"; "f phi"; "v chi"; "y psi"; "w omega"; "G Gamma"; "D Delta"; "Q Theta"; "L Lambda";
   "X Xi"; "P Pi"; "S Sigma"; "U Upsilon"; "F Phi"; "Y Psi"; "W Omega"]%string.

Inductive alphabet := Roman | Greek | Special.

(** What a letter looks like in an alphabet. *)
Inductive glyph : alphabet -> ascii -> string -> Prop :=
| g_roman : forall c, glyph Roman c (String c "")
| g_greek : forall c s, In (c, s) greek_letters -> glyph Greek c s
| g_special : glyph Special "a" "\pm".

(** The LaTeX text of a symbol, read in a given alphabet. *)
Inductive latex : alphabet -> list item -> string -> Prop :=
| l_nil : forall a, latex a [] ""
| l_letter : forall a c g l s, glyph a c g -> latex a l s -> latex a (Letter c :: l) (g ++ s)
| l_super : forall a l s, latex a l s -> latex a (Code "a" :: l) ("^{" ++ s)
| l_sub : forall a l s, latex a l s -> latex a (Code "b" :: l) ("_{" ++ s)
| l_base : forall a l s, latex a l s -> latex a (Code "n" :: l) ("}" ++ s)
| l_greek : forall a l s, latex Greek l s -> latex a (Code "g" :: l) s
| l_special : forall a l s, latex Special l s -> latex a (Code "s" :: l) s
| l_roman : forall a l s, latex Roman l s -> latex a (Code "r" :: l) s
| l_end : forall a l s, latex Roman l s -> latex a (Code "e" :: l) s.

(** Nesting of braces: [depth d s] is the depth after s when it starts at d, None if a brace
    is closed that was not opened. *)
Fixpoint depth (d : nat) (s : string) : option nat :=
  match s with
  | EmptyString => Some d
  | String c r =>
      if Ascii.eqb c "{" then depth (S d) r
      else if Ascii.eqb c "}" then match d with O => None | S d' => depth d' r end
      else depth d r
  end.
Definition balanced (s : string) : Prop := depth 0 s = Some 0%nat.

(** Every superscript or subscript is ended by $n, and nothing else is. *)
Fixpoint code_depth (d : nat) (l : list item) : option nat :=
  match l with
  | [] => Some d
  | Code c :: r =>
      if (Ascii.eqb c "a" || Ascii.eqb c "b")%bool then code_depth (S d) r
      else if Ascii.eqb c "n" then match d with O => None | S d' => code_depth d' r end
      else code_depth d r
  | Letter _ :: r => code_depth d r
  end.
Definition closed_scripts (l : list item) : Prop := code_depth 0 l = Some 0%nat.
Definition no_brace_letters (l : list item) : Prop := ~ In (Letter "{") l /\ ~ In (Letter "}") l.

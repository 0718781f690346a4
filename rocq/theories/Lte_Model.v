(** Model of rsbeams/rslattice/lte_parser.py.

    A file is the list of its lines, each with its newline.  Text is ASCII.  Numbers are exact
    reals; overflow is not modelled.  Printing is left out. *)
From Coq Require Import List Reals Bool Arith String Ascii ZArith Lia.
From Verif Require Import PyBase PyDict PyText Line_Model.
Import ListNotations.
Open Scope R_scope.

Definition quote : ascii := ascii_of_nat 34.
Definition apostrophe : ascii := ascii_of_nat 39.
Definition ampersand : ascii := "&"%char.
Definition comma : ascii := ","%char.
Definition colon : ascii := ":"%char.
Definition equals : ascii := "="%char.
Definition close : ascii := ")"%char.

(* ------------------------------------------------------------------ *)
(** A number on the stack of parse_rpn: a Python float, or the numpy float that np.sqrt returns
    and that arithmetic with it returns; None is an infinity or not-a-number, which the model
    does not tell apart. *)
Inductive num := PF (r : R) | NF (f : fl).
Definition real_of (x : num) : fl := match x with PF r => Some r | NF f => f end.

(** lte_parser.py 348-353: token2 op token1.  Division by zero raises for Python floats and
    gives a non-finite number for numpy floats. *)
Inductive op := Sub | Add | Mul | Div.
Definition lift2 (f : R -> R -> R) (b a : num) : num :=
  match b, a with
  | PF x, PF y => PF (f x y)
  | _, _ => NF (fmap2 f (real_of b) (real_of a))
  end.
Definition arith (o : op) (b a : num) : res num :=
  match o with
  | Sub => Ok (lift2 Rminus b a)
  | Add => Ok (lift2 Rplus b a)
  | Mul => Ok (lift2 Rmult b a)
  | Div => match b, a with
           | PF x, PF y => if Req_EM_T y 0 then Err ZeroDivisionError else Ok (PF (x / y))
           | _, _ => Ok (NF (ndiv (real_of b) (real_of a)))
           end
  end.

(** lte_parser.py 342-347: both quotation marks removed, replace('pi', str(np.pi)), strip() *)
Definition pi_text : text := T "3.141592653589793".
Definition clean (v : text) : text :=
  trim (replace (T "pi") pi_text (remove1 apostrophe (remove1 quote v))).

(** lte_parser.py 349, 362: val in ['-', '+', '*', '/', 'mult'], val in ['sqrt'] *)
Inductive token := TOp (o : op) | TSqrt | TNum (r : R) | TSkip | TBad.
Definition classify (v : text) : token :=
  if teqb v (T "-") then TOp Sub else if teqb v (T "+") then TOp Add
  else if teqb v (T "*") then TOp Mul else if teqb v (T "mult") then TOp Mul
  else if teqb v (T "/") then TOp Div else if teqb v (T "sqrt") then TSqrt
  else match v with [] => TSkip | _ => match py_float v with Some r => TNum r | None => TBad end end.

(** lte_parser.py 341-371: one turn of the loop; the head of the list is the top of the stack.
    stack.pop() of an empty list raises IndexError, float() of a bad text raises ValueError. *)
Definition rpn_step (stack : list num) (val : text) : res (list num) :=
  match classify (clean val) with
  | TOp o => match stack with
             | a :: b :: st => do r <- arith o b a; Ok (r :: st)
             | _ => Err IndexError
             end
  | TSqrt => match stack with
             | a :: st => Ok (NF (match real_of a with Some x => nsqrt x | None => None end) :: st)
             | [] => Err IndexError
             end
  | TNum r => Ok (PF r :: stack)
  | TSkip => Ok stack
  | TBad => Err ValueError
  end.
Fixpoint rpn_loop (stack : list num) (vals : list text) : res (list num) :=
  match vals with [] => Ok stack | v :: r => do st <- rpn_step stack v; rpn_loop st r end.
(** lte_parser.py 329-373 parse_rpn *)
Definition parse_rpn (expression : text) : res num :=
  do st <- rpn_loop [] (split1 space expression);
  match st with [] => Err IndexError | a :: _ => Ok a end.

(* ------------------------------------------------------------------ *)
(** Slices whose end is the result of find, None standing for -1: s[:e] and s[e+k:] *)
Definition upto (s : text) (e : option nat) : text := match e with Some n => firstn n s | None => removelast s end.
Definition after (k : nat) (s : text) (e : option nat) : text :=
  match e with Some n => skipn (n + k) s | None => skipn (k - 1) s end.

(** A parameter value as read: a number or a text. *)
Inductive pval := PNum (x : num) | PText (t : text).

(** lte_parser.py 249-264: the loop over the keyword parameters.  [fuel] only makes the function
    total: every turn shortens the text. *)
Fixpoint param_loop (fuel : nat) (acc : list (text * pval)) (s : text) : res (list (text * pval)) :=
  match fuel with
  | O => Diverges
  | S fuel' =>
      match partition1 equals s with
      | (_, false, _) => Ok acc
      | (before, true, rest) =>
          let key := trim before in
          match parse_rpn rest with
          | Ok x => param_loop fuel' (dset text_dec acc key (PNum x)) rest
          | Err ValueError =>
              let '(value, _, rest') := partition1 comma rest in
              match parse_rpn value with
              | Ok x => param_loop fuel' (dset text_dec acc key (PNum x)) rest'
              | Err ValueError => param_loop fuel' (dset text_dec acc key (PText value)) rest'
              | Err e => Err e
              | Diverges => Diverges
              end
          | Err e => Err e
          | Diverges => Diverges
          end
      end
  end.

(** lte_parser.py 233-266 _find_parameters; len(None) raises TypeError. *)
Definition find_parameters (definition : option text) : res (text * list (text * pval)) :=
  match definition with
  | None => Err TypeError
  | Some s =>
      let type_start := (List.length s - match find1 colon (rev s) with Some n => n + 1 | None => 0 end)%nat in
      let type_end := find1 comma s in
      let element_type := trim (skipn (type_start + 1) (upto s type_end)) in
      do ps <- param_loop (S (List.length s)) [] (after 1 s type_end);
      Ok (element_type, ps)
  end.

(* ------------------------------------------------------------------ *)
(** The lines still to come and the variables found so far, while the file is read from the end. *)
Definition variables := list (text * num).

(** lte_parser.py 305-307: rpn_variables[variable[-1]] = parse_rpn(' '.join(variable[1:-2])) *)
Definition read_variable (line : text) (vars : variables) : res variables :=
  let w := split_ws line in
  match rev w with
  | [] => Err IndexError
  | key :: _ =>
      do v <- parse_rpn (join [space] (skipn 1 (firstn (List.length w - 2) w)));
      Ok (dset text_dec vars key v)
  end.

(** lte_parser.py 291-307: the turn of the loop for the line now at this index *)
Definition sanitize_line (line : text) (rest : list text) (vars : variables) : res (list text * variables) :=
  let line := match find1 "!" line with Some n => firstn n line | None => line end in
  do2 p <- match rev (rdrop_ws line) with
           | [] => Err IndexError
           | c :: r => if Ascii.eqb c ampersand then
                         match rest with
                         | [] => Err IndexError
                         | next :: rest' => Ok (rev r ++ trim next, rest')
                         end
                       else Ok (line, rest)
           end;
  let '(line, rest) := p in
  match drop_ws line with
  | [] => Err IndexError
  | c :: _ => if Ascii.eqb c "%" then do vars <- read_variable line vars; Ok (line :: rest, vars)
              else Ok (line :: rest, vars)
  end.

(** lte_parser.py 279-289: a blank line is dropped.  A comment line is popped, without going to
    the next turn: the code that follows works on the line now at this index, which is the line
    after it. *)
Definition sanitize_step (raw : text) (rest : list text) (vars : variables) : res (list text * variables) :=
  let line := lowert raw in
  match drop_ws line with
  | [] => Ok (rest, vars)
  | c :: _ =>
      if Ascii.eqb c "!" then
        match rest with [] => Err IndexError | next :: rest' => sanitize_line next rest' vars end
      else sanitize_line line rest vars
  end.

(** lte_parser.py 268-307 _sanitize_lattice_definition, from the last line to the first *)
Fixpoint sanitize (file : list text) : res (list text * variables) :=
  match file with
  | [] => Ok ([], [])
  | raw :: r => do2 p <- sanitize r; let '(rest, vars) := p in sanitize_step raw rest vars
  end.

(** lte_parser.py 309-318 _replace_stored_variables.  [show] is str of a number; find gives 0,
    which is false, when the line starts with the name. *)
Definition replace_one (show : num -> text) (line : text) (kv : text * num) : text :=
  match find (fst kv) line with
  | Some 0%nat => line
  | _ => replace (fst kv) (show (snd kv)) line
  end.
Definition replace_variables (show : num -> text) (defs : list text) (vars : variables) : list text :=
  map (fun line => fold_left (replace_one show) vars line) defs.

(* ------------------------------------------------------------------ *)
(** lte_parser.py 320-326 _read_name: None stands for -1; strip of double quotes *)
Fixpoint drop_quotes (s : text) : text :=
  match s with [] => [] | c :: r => if Ascii.eqb c quote then drop_quotes r else s end.
Definition read_name (line : text) : option text :=
  match find1 colon line with
  | None => None
  | Some n => Some (rev (drop_quotes (rev (drop_quotes (firstn n line)))))
  end.

Definition otext_dec : forall a b : option text, {a = b} + {a <> b}.
Proof. decide equality. apply text_dec. Defined.
Definition line_dict := list (option text * text).

(** lte_parser.py 77-95 find_beamlines, from the last line to the first: the definitions left,
    the dictionary of lines and the text of the selected line *)
Fixpoint find_beamlines (name : text) (defs : list text) : list text * line_dict * text :=
  match defs with
  | [] => ([], [], [])
  | l :: r =>
      let '(others, lines, str) := find_beamlines name r in
      match find (T "line=(") l with
      | None => (l :: others, lines, str)
      | Some _ =>
          let body := after 1 l (find1 equals l) in
          (others, dset otext_dec lines (read_name l) body,
           match read_name l with Some n => if teqb n name then body else str | None => str end)
      end
  end.

(** lte_parser.py 195-231 _expand_line *)
Definition expand_line (s : text) (coefficient : nat) : res text :=
  match skipn 1 s with
  | [] => Err IndexError
  | c :: r =>
      if Ascii.eqb c "(" then
        let e := find1 close r in
        Ok (List.concat (List.repeat (upto r e ++ [comma]) coefficient) ++ after 2 r e)
      else
        let e := match find1 comma (c :: r) with Some n => Some n | None => find1 close (c :: r) end in
        Ok (List.concat (List.repeat (upto (c :: r) e ++ [comma]) coefficient) ++ after 1 (c :: r) e)
  end.

(** lte_parser.py 129-131: the leading digits and what follows; the text may not end there *)
Fixpoint take_digits (s : text) : res (text * text) :=
  match s with
  | [] => Err IndexError
  | c :: r => if is_digit c then do2 p <- take_digits r; Ok (c :: fst p, snd p) else Ok ([], s)
  end.

(** lte_parser.py 167-172: the last definition of the element *)
Definition definition_of (defs : list text) (name : text) : option text :=
  fold_left (fun acc line =>
    let line := remove1 apostrophe (remove1 quote line) in
    if prefixb (name ++ [colon]) (drop_ws line) then Some line else acc) defs None.

(** A value as an element parameter; not-a-number stands as a text. *)
Definition to_value (v : pval) : value :=
  match v with
  | PNum x => match real_of x with Some r => VNum r | None => VStr "nan" end
  | PText t => VStr (string_of_list_ascii t)
  end.
Definition to_params (ps : list (text * pval)) : params :=
  map (fun kv => (string_of_list_ascii (fst kv), to_value (snd kv))) ps.

(** lte_parser.py 127-193: the loop of parse_set_beamline.  [self] is the beamline being filled,
    [nend] the variable next_element_end, None before it is first bound.  [fuel] only makes the
    function total. *)
Fixpoint parse_loop (fuel : nat) (lines : line_dict) (defs : list text) (h : heap) (self : nat)
    (s : text) (stack : list text) (flag : bool) (nend : option nat) : run unit :=
  match fuel with
  | O => (h, Diverges)
  | S fuel' =>
      if blank s then (h, Ok tt) else
      match take_digits s with
      | Err x => (h, Err x) | Diverges => (h, Diverges)
      | Ok (coefficient, s) =>
          match (match coefficient with [] => Ok s | _ => expand_line s (Z.to_nat (digits_value 0 coefficient)) end) with
          | Err x => (h, Err x) | Diverges => (h, Diverges)
          | Ok s =>
              let nend := match find1 comma s with
                          | Some n => Some n
                          | None => match find1 close s with Some n => Some n | None => nend end
                          end in
              match nend with
              | None => (h, Err UnboundLocalError)
              | Some e =>
                  let name := trim (firstn e s) in
                  match dget otext_dec lines (Some name) with
                  | Some body =>
                      let s := match find1 comma s with
                               | Some n => skipn (n + 1) s
                               | None => match find1 close s with Some n => skipn (n + 1) s | None => s end
                               end in
                      let stack := if blank s then stack else s :: stack in
                      match add_beamline h self (Some (string_of_list_ascii name)) with
                      | (h, Ok _) => parse_loop fuel' lines defs h self (skipn 1 body) stack true nend
                      | (h, Err x) => (h, Err x)
                      | (h, Diverges) => (h, Diverges)
                      end
                  | None =>
                      let name := remove1 quote (remove1 apostrophe name) in
                      match find_parameters (definition_of defs name) with
                      | Err x => (h, Err x) | Diverges => (h, Diverges)
                      | Ok (ty, ps) =>
                          match add_element h self (string_of_list_ascii name) (string_of_list_ascii ty) (to_params ps) flag with
                          | (h, Ok _) =>
                              let s := skipn (e + 1) s in
                              let s := if teqb (rdrop_ws s) [close] then [] else s in
                              if blank s then
                                match stack with
                                | [] => parse_loop fuel' lines defs h self s stack flag nend
                                | s' :: stack' => parse_loop fuel' lines defs h self s' stack' false nend
                                end
                              else parse_loop fuel' lines defs h self s stack flag nend
                          | (h, Err x) => (h, Err x)
                          | (h, Diverges) => (h, Diverges)
                          end
                      end
                  end
              end
          end
      end
  end.

(** lte_parser.py 97-193 parse_set_beamline *)
Definition parse_set_beamline (fuel : nat) (name : text) (lines : line_dict) (defs : list text) (str : text) (h : heap) (self : nat) : run unit :=
  match dget otext_dec lines (Some name) with
  | None => (h, Err AssertionError)
  | Some _ => parse_loop fuel lines defs h self (skipn 1 str) [] false None
  end.

(** lte_parser.py 42-67: BeamlineParser(filename, beamline_name)(), for a file that can be read.
    The empty name makes find_beamlines return at once. *)
Definition import (fuel : nat) (show : num -> text) (file : list text) (beamline_name : text) : run unit :=
  let (h, self) := new_line empty_heap (Some (string_of_list_ascii beamline_name)) in
  let name := lowert beamline_name in
  match sanitize file with
  | Err x => (h, Err x) | Diverges => (h, Diverges)
  | Ok (defs, vars) =>
      let defs := replace_variables show defs vars in
      match name with
      | [] => (h, Err AssertionError)
      | _ =>
          let '(defs, lines, str) := find_beamlines name defs in
          parse_set_beamline fuel name lines defs str h self
      end
  end.

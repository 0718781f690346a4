(** Model of rsbeams/rslattice/Element.py and rsbeams/rslattice/Beamline.py.

    Python objects live in a heap: an element and a beamline are addresses, a sequence holds
    references, so that sharing is visible.  Numbers are exact reals.  Strings are ASCII.
    Python's recursion limit is not modelled. *)
From Coq Require Import List Reals Bool Arith String Ascii ZArith.
From Verif Require Import PyBase PyDict.
Import ListNotations.
Open Scope R_scope.

(* ------------------------------------------------------------------ *)
(** str.lower and str.strip on ASCII text *)
Definition lower_char (c : ascii) : ascii :=
  let n := nat_of_ascii c in
  if ((65 <=? n) && (n <=? 90))%nat then ascii_of_nat (n + 32) else c.
Fixpoint lower (s : string) : string :=
  match s with EmptyString => EmptyString | String c r => String (lower_char c) (lower r) end.
(** str.isspace for one ASCII character *)
Definition is_space (c : ascii) : bool :=
  let n := nat_of_ascii c in
  (((9 <=? n) && (n <=? 13)) || ((28 <=? n) && (n <=? 32)))%nat.
Fixpoint lstrip (s : string) : string :=
  match s with EmptyString => EmptyString | String c r => if is_space c then lstrip r else s end.
Fixpoint rstrip (s : string) : string :=
  match s with
  | EmptyString => EmptyString
  | String c r => match rstrip r with
                  | EmptyString => if is_space c then EmptyString else String c EmptyString
                  | r' => String c r'
                  end
  end.
Definition strip (s : string) : string := rstrip (lstrip s).

(** Parameter values: a number or a text. *)
Inductive value := VNum (r : R) | VStr (s : string).

(* ------------------------------------------------------------------ *)
(** Element.py 49-59 AgnosticDict, for string keys (other keys are ignored by the code) *)
Definition params := list (string * value).
Definition agn_get (d : params) (key : string) : option value := dget string_dec d (lower key).
Definition agn_set (d : params) (key : string) (v : value) : params := dset string_dec d (lower key) v.

(** Element.py 68-83: attributes name, type, parameters, _beamline *)
Record element := { e_name : string; e_type : string; e_params : params; e_line : option nat }.

(** Element.py 123-129 _interpret_element *)
Definition interpret_element (ty : string) : string := strip (lower ty).

(** Element.py 68-83 __init__: the keyword arguments may not repeat the named ones. *)
Definition reserved (k : string) : bool :=
  (String.eqb k "self" || String.eqb k "element_name" || String.eqb k "element_type")%bool.
Definition new_element (name ty : string) (kwargs : params) : res element :=
  if existsb (fun kv => reserved (fst kv)) kwargs then Err TypeError else
  Ok {| e_name := name; e_type := interpret_element ty;
        e_params := fold_left (fun d kv => agn_set d (fst kv) (snd kv)) kwargs []; e_line := None |}.

(* ------------------------------------------------------------------ *)
(** What a sequence contains: a reference to an element or to a beamline. *)
Inductive ref := RE (a : nat) | RL (a : nat).

(** Beamline.py 43-50: attributes name (None is possible), elements, lines, sequence, _top *)
Record line := { l_name : option string; l_elements : list (string * nat);
                 l_lines : list (option string * nat); l_seq : list ref; l_top : nat }.

Record heap := { elems : list element; lines : list line }.
Definition empty_heap : heap := {| elems := []; lines := [] |}.

Fixpoint upd {A} (l : list A) (i : nat) (f : A -> A) : list A :=
  match l, i with
  | [], _ => []
  | x :: r, O => f x :: r
  | x :: r, S i => x :: upd r i f
  end.
Definition upd_elem (h : heap) (a : nat) (f : element -> element) : heap :=
  {| elems := upd (elems h) a f; lines := lines h |}.
Definition upd_line (h : heap) (a : nat) (f : line -> line) : heap :=
  {| elems := elems h; lines := upd (lines h) a f |}.

Definition with_params (e : element) (p : params) : element :=
  {| e_name := e_name e; e_type := e_type e; e_params := p; e_line := e_line e |}.
Definition with_e_line (e : element) (b : nat) : element :=
  {| e_name := e_name e; e_type := e_type e; e_params := e_params e; e_line := Some b |}.
Definition append_ref (r : ref) (l : line) : line :=
  {| l_name := l_name l; l_elements := l_elements l; l_lines := l_lines l; l_seq := l_seq l ++ [r]; l_top := l_top l |}.
Definition register_element (name : string) (e : nat) (l : line) : line :=
  {| l_name := l_name l; l_elements := dset string_dec (l_elements l) name e; l_lines := l_lines l;
     l_seq := l_seq l; l_top := l_top l |}.
Definition name_dec : forall a b : option string, {a = b} + {a <> b}.
Proof. decide equality. apply string_dec. Defined.
Definition register_line (name : option string) (b : nat) (l : line) : line :=
  {| l_name := l_name l; l_elements := l_elements l; l_lines := dset name_dec (l_lines l) name b;
     l_seq := l_seq l; l_top := l_top l |}.
Definition with_top (t : nat) (l : line) : line :=
  {| l_name := l_name l; l_elements := l_elements l; l_lines := l_lines l; l_seq := l_seq l; l_top := t |}.

(** Running a method: the heap afterwards, also when it raises, and the outcome. *)
Definition run A := (heap * res A)%type.

(** Beamline.py 43-50 StructuredBeamline(name): a new object whose _top is itself *)
Definition new_line (h : heap) (name : option string) : heap * nat :=
  let a := List.length (lines h) in
  ({| elems := elems h; lines := lines h ++ [{| l_name := name; l_elements := []; l_lines := []; l_seq := []; l_top := a |}] |}, a).

(** sequence[-1] *)
Definition last_ref (l : line) : option ref :=
  match rev (l_seq l) with [] => None | r :: _ => Some r end.

(** Beamline.py 77-83: the element of that name, made and registered if there is none.  An
    address that is not in the heap cannot be named by a program (NameError). *)
Definition the_element (h : heap) (a : nat) (l : line) (name ty : string) (ps : params) : run nat :=
  match dget string_dec (l_elements l) name with
  | Some e => (h, Ok e)
  | None =>
      match new_element name ty ps with
      | Ok el =>
          let e := List.length (elems h) in
          (upd_line {| elems := elems h ++ [el]; lines := lines h |} a (register_element name e), Ok e)
      | Err x => (h, Err x)
      | Diverges => (h, Diverges)
      end
  end.

(** Beamline.py 60-92 add_element *)
Definition add_element (h : heap) (a : nat) (name ty : string) (ps : params) (subline : bool) : run unit :=
  match nth_error (lines h) a with
  | None => (h, Err NameError)
  | Some l =>
      match the_element h a l name ty ps with
      | (h, Ok e) =>
          let h := upd_elem h e (fun el => with_e_line el (l_top l)) in
          if subline then
            match last_ref l with
            | None => (h, Err IndexError)
            | Some (RE _) => (h, Err AssertionError)
            | Some (RL b) => (upd_line h b (append_ref (RE e)), Ok tt)
            end
          else (upd_line h a (append_ref (RE e)), Ok tt)
      | (h, Err x) => (h, Err x)
      | (h, Diverges) => (h, Diverges)
      end
  end.

(** Beamline.py 94-104 add_beamline; [self._top] is always true. *)
Definition add_beamline (h : heap) (a : nat) (name : option string) : run unit :=
  match nth_error (lines h) a with
  | None => (h, Err NameError)
  | Some l =>
      let '(h, b) :=
        match dget name_dec (l_lines l) name with
        | Some b => (h, b)
        | None => let (h, b) := new_line h name in (upd_line h a (register_line name b), b)
        end in
      let h := upd_line h a (append_ref (RL b)) in
      (upd_line h b (with_top (l_top l)), Ok tt)
  end.

(* ------------------------------------------------------------------ *)
(** Beamline.py 161-180 get_beamline_elements: the addresses yielded.  [fuel] bounds the nesting
    only to make the function total. *)
Fixpoint flatten (fuel : nat) (h : heap) (seq : list ref) : res (list nat) :=
  match fuel with
  | O => Diverges
  | S fuel' =>
      (fix go (seq : list ref) : res (list nat) :=
         match seq with
         | [] => Ok []
         | RE e :: r => do l <- go r; Ok (e :: l)
         | RL b :: r =>
             match nth_error (lines h) b with
             | None => Err NameError
             | Some l => do l1 <- flatten fuel' h (l_seq l); do l2 <- go r; Ok (l1 ++ l2)
             end
         end) seq
  end.
Definition get_beamline_elements (h : heap) (a : nat) : res (list nat) :=
  match nth_error (lines h) a with
  | None => Err NameError
  | Some l => flatten (S (List.length (lines h))) h (l_seq l)
  end.

(** [length += ele.parameters["L"]] with KeyError passed over; a text raises TypeError. *)
Definition add_length (h : heap) (acc : R) (e : nat) : res R :=
  match nth_error (elems h) e with
  | None => Err NameError
  | Some el =>
      match agn_get (e_params el) "L" with
      | None => Ok acc
      | Some (VNum v) => Ok (acc + v)
      | Some (VStr _) => Err TypeError
      end
  end.
Fixpoint sum_lengths (h : heap) (acc : R) (l : list nat) : res R :=
  match l with
  | [] => Ok acc
  | e :: r => do acc <- add_length h acc e; sum_lengths h acc r
  end.

(** Beamline.py 182-190 _get_length, 52-54 length *)
Definition length_of (h : heap) (a : nat) : res R :=
  do l <- get_beamline_elements h a; sum_lengths h 0 l.

(** Element.py 107-121 _get_edge, 85-93 edge *)
Fixpoint edge_loop (h : heap) (self : nat) (acc : R) (l : list nat) : res R :=
  match l with
  | [] => Ok acc
  | e :: r => if (e =? self)%nat then Ok acc else do acc <- add_length h acc e; edge_loop h self acc r
  end.
Definition edge_of (h : heap) (e : nat) : res R :=
  match nth_error (elems h) e with
  | None => Err NameError
  | Some el =>
      match e_line el with
      | None => Err AttributeError
      | Some t => do l <- get_beamline_elements h t; edge_loop h e 0 l
      end
  end.

(* ------------------------------------------------------------------ *)
(** Beamline.py 223-229: the inner loop over zip(parameter, value) *)
Fixpoint zip {A B} (l : list A) (m : list B) : list (A * B) :=
  match l, m with a :: l, b :: m => (a, b) :: zip l m | _, _ => [] end.
Definition set_params (pv : list (string * value)) (el : element) : element :=
  with_params el (fold_left (fun d kv => agn_set d (fst kv) (snd kv)) pv (e_params el)).

(** Beamline.py 222-234: the loop over the positions.  A beamline has no attribute
    [parameters]; with nothing to assign it is not looked at. *)
Fixpoint edit_positions (h : heap) (pv : list (string * value)) (l : list ref) : run unit :=
  match l with
  | [] => (h, Ok tt)
  | RE e :: r => edit_positions (upd_elem h e (set_params pv)) pv r
  | RL _ :: r => match pv with [] => edit_positions h pv r | _ => (h, Err AttributeError) end
  end.

Definition ref_name (h : heap) (r : ref) : option string :=
  match r with
  | RE e => match nth_error (elems h) e with Some el => Some (e_name el) | None => None end
  | RL b => match nth_error (lines h) b with Some l => l_name l | None => None end
  end.

(** Beamline.py 192-234 edit_element with a name (lines 217-218) and parameter and value lists;
    a single parameter or value is the list of one (208-215). *)
Definition edit_by_name (h : heap) (a : nat) (name : string) (ps : list string) (vs : list value) : run unit :=
  match nth_error (lines h) a with
  | None => (h, Err NameError)
  | Some l =>
      edit_positions h (zip ps vs)
        (filter (fun r => match ref_name h r with Some n => String.eqb n name | None => false end) (l_seq l))
  end.

(** sequence[index] with Python's negative indexes *)
Definition py_index {A} (l : list A) (i : Z) : option A :=
  let n := Z.of_nat (List.length l) in
  let i := if (i <? 0)%Z then (i + n)%Z else i in
  if ((i <? 0) || (n <=? i))%Z then None else nth_error l (Z.to_nat i).

(** Beamline.py 192-234 edit_element with a position (lines 219-220).  With nothing to assign the
    position is not looked up. *)
Definition edit_by_index (h : heap) (a : nat) (i : Z) (ps : list string) (vs : list value) : run unit :=
  match nth_error (lines h) a with
  | None => (h, Err NameError)
  | Some l =>
      match zip ps vs with
      | [] => (h, Ok tt)
      | pv => match py_index (l_seq l) i with
              | None => (h, Err IndexError)
              | Some r => edit_positions h pv [r]
              end
      end
  end.

(* ------------------------------------------------------------------ *)
(** The data of a saved file: nested lists of mappings.  ruamel.yaml is taken to give back the
    data that was dumped. *)
Inductive node := NElem (d : params) | NList (l : list node).

(** Beamline.py 121-123: {"name": ele.name, **ele.parameters, "type": ele.type} *)
Definition saved_element (el : element) : params :=
  let d := fold_left (fun d kv => dset string_dec d (fst kv) (snd kv)) (e_params el) [("name"%string, VStr (e_name el))] in
  dset string_dec d "type"%string (VStr (e_type el)).

(** Beamline.py 117-128 return_elements *)
Fixpoint return_elements (fuel : nat) (h : heap) (seq : list ref) : res (list node) :=
  match fuel with
  | O => Diverges
  | S fuel' =>
      (fix go (seq : list ref) : res (list node) :=
         match seq with
         | [] => Ok []
         | RE e :: r =>
             match nth_error (elems h) e with
             | None => Err NameError
             | Some el => do l <- go r; Ok (NElem (saved_element el) :: l)
             end
         | RL b :: r =>
             match nth_error (lines h) b with
             | None => Err NameError
             | Some l => do l1 <- return_elements fuel' h (l_seq l); do l2 <- go r; Ok (NList l1 :: l2)
             end
         end) seq
  end.
(** Beamline.py 106-135 save_beamline: the data written *)
Definition save_beamline (h : heap) (a : nat) : res (list node) :=
  match nth_error (lines h) a with
  | None => Err NameError
  | Some l => return_elements (S (List.length (lines h))) h (l_seq l)
  end.

(** The values of "name" and "type" handed to add_element.  A name that is not a text is not
    modelled further than the failure of a type that has no lower(). *)
Definition text_of (v : option value) (missing : exn) : res string :=
  match v with None => Err missing | Some (VStr s) => Ok s | Some (VNum _) => Err AttributeError end.

(** Beamline.py 143-157 create_beamline: [self] is the beamline being loaded, [b] the argument
    beamline.  Line 156 adds every nested list to self, under the name None. *)
Fixpoint create_node (h : heap) (self b : nat) (n : node) : run unit :=
  match n with
  | NElem d =>
      match text_of (dget string_dec d "name"%string) KeyError with
      | Err x => (h, Err x) | Diverges => (h, Diverges)
      | Ok name =>
          match text_of (dget string_dec d "type"%string) KeyError with
          | Err x => (h, Err x) | Diverges => (h, Diverges)
          | Ok ty =>
              add_element h b name ty
                (filter (fun kv => negb (String.eqb (fst kv) "type") && negb (String.eqb (fst kv) "name")) d) false
          end
      end
  | NList ns =>
      match add_beamline h self None with
      | (h, Ok _) =>
          match nth_error (lines h) self with
          | None => (h, Err NameError)
          | Some l =>
              match last_ref l with
              | Some (RL b') =>
                  (fix go (h : heap) (ns : list node) : run unit :=
                     match ns with
                     | [] => (h, Ok tt)
                     | n :: r => match create_node h self b' n with (h, Ok _) => go h r | (h, e) => (h, e) end
                     end) h ns
              | _ => (h, Err AttributeError)
              end
          end
      | (h, e) => (h, e)
      end
  end.
Fixpoint create_nodes (h : heap) (self b : nat) (ns : list node) : run unit :=
  match ns with
  | [] => (h, Ok tt)
  | n :: r => match create_node h self b n with (h, Ok _) => create_nodes h self b r | (h, e) => (h, e) end
  end.

(** Beamline.py 137-159 load_beamline *)
Definition load_beamline (h : heap) (a : nat) (data : list node) : run unit :=
  match nth_error (lines h) a with
  | None => (h, Err NameError)
  | Some l => match l_seq l with [] => create_nodes h a a data | _ => (h, Ok tt) end
  end.

(* ------------------------------------------------------------------ *)
(** The calls a program can make on the beamlines it has. *)
Inductive op :=
| NewLine (name : option string)
| AddElement (a : nat) (name ty : string) (ps : params) (subline : bool)
| AddLine (a : nat) (name : option string)
| EditName (a : nat) (name : string) (ps : list string) (vs : list value)
| EditIndex (a : nat) (i : Z) (ps : list string) (vs : list value)
| Load (a : nat) (data : list node).

Definition step (h : heap) (o : op) : run unit :=
  match o with
  | NewLine name => (fst (new_line h name), Ok tt)
  | AddElement a name ty ps s => add_element h a name ty ps s
  | AddLine a name => add_beamline h a name
  | EditName a name ps vs => edit_by_name h a name ps vs
  | EditIndex a i ps vs => edit_by_index h a i ps vs
  | Load a data => load_beamline h a data
  end.

(** A history: exceptions are caught by the program, which carries on. *)
Definition history (ops : list op) : heap := fold_left (fun h o => fst (step h o)) ops empty_heap.

(* ------------------------------------------------------------------ *)
(** Reads that AgnosticDict does not redefine (Element.py 49-59): dict.get and [in] use the key
    as it is given. *)
Definition raw_get (d : params) (key : string) : option value := dget string_dec d key.

(* ------------------------------------------------------------------ *)
(** Transfer matrices.  A sympy matrix is modelled by its value for every assignment of numbers
    to symbols; [sub] is sympy's substitution of a symbol by a number or another symbol, symbols
    being compared with their capitalisation.  Parameter names that are not symbols for sympy
    (numbers, reserved words) are not modelled. *)
Definition env := string -> R.
Definition mat := nat -> nat -> R.
Definition smat := env -> mat.
Definition sum4 (f : nat -> R) : R := f 0%nat + f 1%nat + f 2%nat + f 3%nat.
Definition mmul (A B : mat) : mat := fun i j => sum4 (fun k => A i k * B k j).

(** cosh(sqrt(-k) l) and sinh(sqrt(-k) l)/sqrt(-k) as real functions; the second is 0/0 at k = 0,
    here taken to be l, and no theorem looks at k = 0. *)
Definition cc (k l : R) : R :=
  if Rlt_dec k 0 then (exp (sqrt (-k) * l) + exp (- (sqrt (-k) * l))) / 2 else cos (sqrt k * l).
Definition ss (k l : R) : R :=
  if Rlt_dec k 0 then (exp (sqrt (-k) * l) - exp (- (sqrt (-k) * l))) / 2 / sqrt (-k)
  else if Req_EM_T k 0 then l else sin (sqrt k * l) / sqrt k.

(** Beamline.py 29-41 matrices *)
Definition quad_matrix : smat := fun v i j =>
  let k := v "K1"%string in let l := v "L"%string in
  match i, j with
  | 0, 0 | 1, 1 => cc k l | 0, 1 => ss k l | 1, 0 => (- k * ss k l)%R
  | 2, 2 | 3, 3 => cc (- k) l | 2, 3 => ss (- k) l | 3, 2 => (k * ss (- k) l)%R
  | _, _ => 0%R
  end%nat.
Definition drift_matrix : smat := fun v i j =>
  match i, j with
  | 0, 0 | 1, 1 | 2, 2 | 3, 3 => 1%R
  | 0, 1 | 2, 3 => v "L"%string
  | _, _ => 0%R
  end%nat.
Definition matrices (ty : string) : option smat :=
  if String.eqb ty "quadrupole" then Some quad_matrix else
  if String.eqb ty "drift" then Some drift_matrix else None.

Definition sub (key : string) (v : value) (m : smat) : smat := fun e =>
  m (fun s => if String.eqb s key then match v with VNum r => r | VStr t => e t end else e s).

(** Beamline.py 236-249: the matrix of one entry of the sequence; a beamline has no type *)
Definition element_matrix (h : heap) (r : ref) : res smat :=
  match r with
  | RL _ => Err AttributeError
  | RE e =>
      match nth_error (elems h) e with
      | None => Err NameError
      | Some el =>
          match matrices (e_type el) with
          | None => Err KeyError
          | Some m => Ok (fold_left (fun m kv => sub (fst kv) (snd kv) m) (e_params el) m)
          end
      end
  end.
(** Beamline.py 251-255: matrix = elements[-1]; for ele in elements[-2::-1]: matrix *= ele *)
Definition concatenate (ms : list smat) : res smat :=
  match rev ms with
  | [] => Err IndexError
  | m :: r => Ok (fold_left (fun acc m => fun e => mmul (acc e) (m e)) r m)
  end.
Fixpoint mapres {A B} (f : A -> res B) (l : list A) : res (list B) :=
  match l with [] => Ok [] | x :: r => do y <- f x; do t <- mapres f r; Ok (y :: t) end.
(** Beamline.py 236-261 generate_matrix(); the function made by lambdify is the matrix as a
    function of the symbols *)
Definition generate_matrix (h : heap) (a : nat) : res smat :=
  match nth_error (lines h) a with
  | None => Err NameError
  | Some l => do ms <- mapres (element_matrix h) (l_seq l); concatenate ms
  end.

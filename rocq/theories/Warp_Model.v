(** Model of rsbeams/rslattice/formatted_writer.py and rsbeams/pkcli/lattice.py.

    Printing is left out.  Numbers are exact reals; how a number is written is a parameter. *)
From Coq Require Import List Reals Bool Arith String Ascii ZArith.
From Verif Require Import PyBase PyDict PyText Line_Model Json_Model.
Import ListNotations.
Open Scope R_scope.

(** str.upper on ASCII text *)
Definition up (c : ascii) : ascii :=
  let n := nat_of_ascii c in if ((97 <=? n) && (n <=? 122))%nat then ascii_of_nat (n - 32) else c.
Definition upper (s : string) : text := map up (T s).

(** The mapping that _build_field_map makes from a table (formatted_writer.py 52): a type in
    capitals to the type of the other code and the parameters to write. *)
Definition mapping := list (text * (text * list string)).

(** formatted_writer.py 10-39 _FIELD_MAP *)
Definition field_map : mapping :=
  map (fun t => (T t, (T "Drft", ["l"%string]))) ["DRIF"; "CSRDRIFT"; "EDRIFT"; "LSCDRIFT"]%string ++
  map (fun t => (T t, (T "Bend", ["l"; "rc"]%string))) ["CSBEND"; "SBEN"; "CSRCSBEND"; "KSBEND"; "NIBEND"; "RBEN"; "TUBEND"]%string ++
  map (fun t => (T t, (T "Quad", ["l"; "db"]%string))) ["QUAD"; "KQUAD"]%string ++
  map (fun t => (T t, (T "Sext", ["l"; "db"]%string))) ["SEXT"; "KSEXT"]%string.

(** the truth of a value *)
Definition truthy (v : value) : bool :=
  match v with VNum r => if Req_EM_T r 0 then false else true | VStr s => negb (String.eqb s "") end.

(** formatted_writer.py 44 element_template *)
Definition head (name ty : text) : text := name ++ T " = wp." ++ ty ++ T "(".
(** formatted_writer.py 45 parameter_template *)
Definition param_text (show : value -> text) (p : string) (v : value) : text := T " " ++ T p ++ T "=" ++ show v ++ T ",".

(** formatted_writer.py 71-75 *)
Fixpoint params_text (show : value -> text) (ps : params) (l : list string) : res text :=
  match l with
  | [] => Ok []
  | p :: r => match agn_get ps p with
              | Some v => do t <- params_text show ps r; Ok (param_text show p v ++ t)
              | None => Err KeyError
              end
  end.

(** formatted_writer.py 68-92: the definition of one element, unless its name has been written *)
Definition define (m : mapping) (show : value -> text) (e : element) : res text :=
  let name := upper (e_name e) in
  match dget text_dec m (upper (e_type e)) with
  | Some (ty, ps) => do t <- params_text show (e_params e) ps; Ok (head name ty ++ t ++ T ")" ++ [newline])
  | None =>
      let len := match agn_get (e_params e) "l" with
                 | Some v => if truthy v then v else VNum 0
                 | None => VNum 0
                 end in
      Ok (head name (T "Drft") ++ param_text show "l" len ++ T ")" ++ [newline])
  end.

(** formatted_writer.py 63-94: the loop; [names] is self.element_names, which outlives the call,
    also when it raises.  The texts are what is appended to contents and to line_contents. *)
Fixpoint write_elements (m : mapping) (show : value -> text) (names : list text) (els : list element)
  : list text * res (text * text) :=
  match els with
  | [] => (names, Ok ([], []))
  | e :: r =>
      let name := upper (e_name e) in
      let '(names, d) :=
        if existsb (teqb name) names then (names, Ok [])
        else match define m show e with
             | Ok t => (names ++ [name], Ok t)
             | x => (names, x)
             end in
      match d with
      | Ok t => match write_elements m show names r with
                | (names, Ok (c, l)) => (names, Ok (t ++ c, name ++ T " + " ++ l))
                | x => x
                end
      | Err x => (names, Err x)
      | Diverges => (names, Diverges)
      end
  end.

(** line_contents[:-2] *)
Definition cut_two (t : text) : text := rev (skipn 2 (rev t)).

(** formatted_writer.py 57-101 write_file, for the elements of the beamline; the result is also
    what the file contains *)
Definition write_file (m : mapping) (show : value -> text) (names : list text) (line_name : text) (els : list element)
  : list text * res text :=
  match write_elements m show names els with
  | (names, Ok (c, l)) => (names, Ok (T "import warp as wp" ++ [newline] ++ c ++ cut_two (line_name ++ T " = " ++ l)))
  | (names, Err x) => (names, Err x)
  | (names, Diverges) => (names, Diverges)
  end.

(* ------------------------------------------------------------------ *)
(** scipy.constants c and e *)
Definition light : R := 299792458.
Definition charge : R := 1602176634 / 10 ^ 28.

(** pkcli/lattice.py 10-22 _get_gradient; k1, energy and mass are Python floats *)
Definition get_gradient (k1 energy mass : R) (n : nat) : res fl :=
  do gamma <- pdiv energy mass;
  do inv <- pdiv 1 (gamma ^ 2);
  let beta := nsqrt (1 - inv) in
  let momentum := fmap1 (fun b => b * gamma * (mass * charge / light ^ 2) * light) beta in
  let brho := fmap1 (fun p => p / (1 * charge)) momentum in
  Ok (fmap1 (fun b => k1 * b ^ n) brho).

(** float(v) *)
Definition float_of (v : value) : res R :=
  match v with
  | VNum r => Ok r
  | VStr s => match py_float (T s) with Some r => Ok r | None => Err ValueError end
  end.
(** float(ele.parameters[k]) *)
Definition float_param (ps : params) (k : string) : res R :=
  match agn_get ps k with Some v => float_of v | None => Err KeyError end.
(** a number as a value; nan is kept as the text that it is written as *)
Definition value_of (x : fl) : value := match x with Some r => VNum r | None => VStr "nan" end.

(** pkcli/lattice.py 27-32: the parameters of one element after the loop body *)
Definition convert (energy mass : R) (flip : bool) (e : element) : res params :=
  let sgn := 1 - 2 * (if flip then 1 else 0) in
  let ty := e_type e in
  if (String.eqb ty "kquad" || String.eqb ty "quad")%bool then
    do k <- float_param (e_params e) "k1";
    do g <- get_gradient k energy mass 1;
    Ok (agn_set (e_params e) "db" (value_of (fmap1 (Rmult sgn) g)))
  else if (String.eqb ty "csbend" || String.eqb ty "rben")%bool then
    do l <- float_param (e_params e) "l";
    do a <- float_param (e_params e) "angle";
    do r <- pdiv l a;
    Ok (agn_set (e_params e) "rc" (VNum r))
  else if String.eqb ty "sext" then
    do k <- float_param (e_params e) "k2";
    do g <- get_gradient k energy mass 2;
    Ok (agn_set (e_params e) "db" (value_of (fmap1 (Rmult sgn) g)))
  else Ok (e_params e).

(** pkcli/lattice.py 24-32 _parameter_conversions: along the elements of the beamline, in the heap *)
Fixpoint convert_all (energy mass : R) (flip : bool) (h : heap) (addrs : list nat) : run unit :=
  match addrs with
  | [] => (h, Ok tt)
  | a :: r =>
      match nth_error (elems h) a with
      | None => (h, Err NameError)
      | Some e =>
          match convert energy mass flip e with
          | Ok ps => convert_all energy mass flip (upd_elem h a (fun e => with_params e ps)) r
          | Err x => (h, Err x)
          | Diverges => (h, Diverges)
          end
      end
  end.
Definition parameter_conversions (energy mass : R) (flip : bool) (h : heap) (a : nat) : run unit :=
  match get_beamline_elements h a with
  | Ok l => convert_all energy mass flip h l
  | Err x => (h, Err x)
  | Diverges => (h, Diverges)
  end.

(** pkcli/lattice.py 36-55 elegant_to_warp, after the input has been parsed: [setups] holds
    p_central_mev of the commands run_setup, in order.  The energy that the code computes with
    Converter is only printed and left out.  [name] is already in capitals. *)
Definition elegant_to_warp (show : value -> text) (limit : nat) (mass : R) (M : models) (setups : list R) (name : string) : res text :=
  match setups with
  | [] => Err ValueError
  | p :: _ =>
      do2 (h, a) <- parse_json limit M name;
      match parameter_conversions (p * 10 ^ 6) mass true h a with
      | (h, Ok _) =>
          do l <- get_beamline_elements h a;
          match nth_error (lines h) a with
          | Some ln => snd (write_file field_map show [] (match l_name ln with Some n => T n | None => T "None" end)
                              (flat_map (fun e => match nth_error (elems h) e with Some x => [x] | None => [] end) l))
          | None => Err NameError
          end
      | (_, Err x) => Err x
      | (_, Diverges) => Diverges
      end
  end.

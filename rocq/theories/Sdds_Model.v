(** Model of the SDDS reader and writer: rsbeams/rsdata/SDDS.py, datatypes.py, utils.py and
    struct_data.py. A file is its list of bytes; the header is decoded as Latin-1, so a byte and a
    character of the header are the same thing. *)
From Coq Require Import List Bool Arith Ascii String ZArith Reals.
From Verif Require Import PyBase PyText.
Import ListNotations.
Open Scope Z_scope.

(* ------------------------------------------------------------------ *)
(** Bytes of integers, least significant first (the files are little-endian) *)
Definition byte (z : Z) : ascii := ascii_of_nat (Z.to_nat (z mod 256)).
Definition of_byte (c : ascii) : Z := Z.of_nat (nat_of_ascii c).
Fixpoint le (k : nat) (z : Z) : text := match k with O => [] | S k => byte z :: le k (z / 256) end.
Fixpoint un_le (s : text) : Z := match s with [] => 0 | c :: r => of_byte c + 256 * un_le r end.
Definition un_le_signed (s : text) : Z :=
  let u := un_le s in let m := 256 ^ Z.of_nat (List.length s) in if 2 * u <? m then u else u - m.

(** str.isspace for one Latin-1 character, bytes.isspace for one byte *)
Definition is_uws (c : ascii) : bool := is_ws c || Ascii.eqb c (ascii_of_nat 133) || Ascii.eqb c (ascii_of_nat 160).
Definition is_bws (c : ascii) : bool := let n := nat_of_ascii c in (((9 <=? n) && (n <=? 13)) || (n =? 32))%nat.

(** str.split() *)
Fixpoint uwords_aux (cur : text) (s : text) : list text :=
  match s with
  | [] => match cur with [] => [] | _ => [rev cur] end
  | d :: r => if is_uws d then match cur with [] => uwords_aux [] r | _ => rev cur :: uwords_aux [] r end
              else uwords_aux (d :: cur) r
  end.
Definition uwords (s : text) : list text := uwords_aux [] s.

(** The lines a file object delivers with readline, each with its newline; the last may lack one *)
Fixpoint flines (f : text) : list text :=
  match f with
  | [] => []
  | c :: r => if Ascii.eqb c newline then [c] :: flines r
              else match flines r with [] => [[c]] | l :: ls => (c :: l) :: ls end
  end.

(* ------------------------------------------------------------------ *)
(** utils.py 21-25 _read_line. The file object is the list of lines not read yet. The loop goes on
    while the line is empty, a bare newline or a comment; at the end of the file readline gives
    the empty line for ever, so the loop never ends. [turns] below is the loop itself, with a
    count of the turns; [read_line] is its outcome. *)
Definition skippable (l : text) : bool :=
  match l with [] => true | c :: r => (Ascii.eqb c newline && match r with [] => true | _ => false end) || Ascii.eqb c "!" end.
Definition readline (fs : list text) : text * list text := match fs with [] => ([], []) | l :: r => (l, r) end.
Fixpoint turns (n : nat) (line : text) (fs : list text) : option (text * list text) :=
  if skippable line then
    match n with O => None | S n => turns n (fst (readline fs)) (snd (readline fs)) end
  else Some (line, fs).
Fixpoint read_line (fs : list text) : res (text * list text) :=
  match fs with [] => Diverges | l :: r => if skippable l then read_line r else Ok (l, r) end.

(** SDDS.py 21 *)
Definition namelists : list text :=
  [T "&associate"; T "&description"; T "&include"; T "&column"; T "&parameter"; T "&array"].

(** SDDS.py 119-148, the loop of _read_header, and the two inner loops that collect the lines of
    one namelist. [inside] is the namelist being collected, if any, and whether it is the data
    command. The three loops are flattened into one pass over the lines: each turn of each of
    them begins with a _read_line. Gives the namelists, the line count and the lines left. *)
Fixpoint scan (inside : option (bool * text)) (header : list text) (count : nat) (fs : list text)
  : res (list text * nat * list text) :=
  match fs with
  | [] => Diverges
  | l :: r =>
      if skippable l then scan inside header count r else
      match inside with
      | None =>
          if existsb (fun nl => occurs nl l) namelists then
            if occurs (T "&end") l then scan None (header ++ [l]) (S count) r
            else scan (Some (false, l)) header (S count) r
          else if prefixb (T "&data") l then
            if occurs (T "&end") l then Ok (header ++ [l], S count, r)
            else scan (Some (true, l)) header (S count) r
          else Err GenericException
      | Some (data, acc) =>
          if occurs (T "&end") l then
            if data then Ok (header ++ [acc ++ l], S count, r)
            else scan None (header ++ [acc ++ l]) (S count) r
          else scan (Some (data, acc ++ l)) header (S count) r
      end
  end.

(** SDDS.py 110-153 _read_header *)
Definition read_header (f : text) : res (list text * nat * list text) :=
  do2 (l, r) <- read_line (flines f);
  if occurs (T "SDDS1") l then scan None [] 1 r else Err GenericException.

(* ------------------------------------------------------------------ *)
(** utils.py 28-36 _shlex_split: shlex.shlex in POSIX mode, with double quotes the only quotes,
    no comments, split at whitespace. [state] is the automaton's state. *)
Inductive lex := Between | InWord | InQuote | Escape (quoted : bool).
Definition lex_ws (c : ascii) : bool :=
  Ascii.eqb c " " || Ascii.eqb c (ascii_of_nat 9) || Ascii.eqb c (ascii_of_nat 13) || Ascii.eqb c newline.
Definition dquote : ascii := ascii_of_nat 34.
Definition backslash : ascii := ascii_of_nat 92.
Definition emit (tok : text) (quoted : bool) (out : list text) : list text :=
  match tok, quoted with [], false => out | _, _ => out ++ [tok] end.
Fixpoint shlex (st : lex) (tok : text) (quoted : bool) (out : list text) (s : text) : res (list text) :=
  match s with
  | [] => match st with
          | Between | InWord => Ok (emit tok quoted out)
          | _ => Err ValueError
          end
  | c :: r =>
      match st with
      | Between =>
          if lex_ws c then shlex Between [] false out r
          else if Ascii.eqb c backslash then shlex (Escape false) tok quoted out r
          else if Ascii.eqb c dquote then shlex InQuote tok true out r
          else shlex InWord [c] quoted out r
      | InWord =>
          if lex_ws c then shlex Between [] false (emit tok quoted out) r
          else if Ascii.eqb c dquote then shlex InQuote tok true out r
          else if Ascii.eqb c backslash then shlex (Escape false) tok quoted out r
          else shlex InWord (tok ++ [c]) quoted out r
      | InQuote =>
          if Ascii.eqb c dquote then shlex InWord tok true out r
          else if Ascii.eqb c backslash then shlex (Escape true) tok true out r
          else shlex InQuote (tok ++ [c]) true out r
      | Escape q =>
          let tok := if q && negb (Ascii.eqb c backslash) && negb (Ascii.eqb c dquote) then tok ++ [backslash] else tok in
          shlex (if q then InQuote else InWord) (tok ++ [c]) quoted out r
      end
  end.
Definition shlex_split (line : text) : res (list text) := shlex Between [] false [] line.

(* ------------------------------------------------------------------ *)
(** datatypes.py 13-25 Datum.parse_namelist: every field takes the text after the first equals
    sign of the last entry that starts with the field's name, less trailing commas. *)
Inductive fval := FNone | FInt (z : Z) | FReal (r : option R) | FStr (t : text).
Definition fields := list (text * fval).
Fixpoint drop_commas (s : text) : text := match s with [] => [] | c :: r => if Ascii.eqb c "," then drop_commas r else s end.
Definition rstrip_commas (s : text) : text := rev (drop_commas (rev s)).
Definition after_equals (e : text) : text := match find1 "=" e with Some n => skipn (S n) e | None => e end.
Definition parse_fields (defaults : fields) (entries : list text) : fields :=
  map (fun kv => (fst kv, fold_left (fun v e => if prefixb (fst kv) e then FStr (rstrip_commas (after_equals e)) else v)
                                    entries (snd kv))) defaults.
Definition field (fs : fields) (k : text) : fval :=
  match List.find (fun kv => teqb (fst kv) k) fs with Some kv => snd kv | None => FNone end.
Definition set_field (fs : fields) (k : text) (v : fval) : fields :=
  map (fun kv => if teqb (fst kv) k then (k, v) else kv) fs.
Definition text_of (v : fval) : text := match v with FStr t => t | _ => [] end.

(** utils.py 6-7 data_types. [DChar] is the module numpy.char, which is no data type at all;
    [DStr None] is the template S{}. *)
Inductive dt := F8 | I2 | I4 | F4 | DChar | DStr (n : option Z).
Definition data_type (t : text) : option dt :=
  if teqb t (T "double") then Some F8 else if teqb t (T "short") then Some I2
  else if teqb t (T "long") then Some I4 else if teqb t (T "string") then Some (DStr None)
  else if teqb t (T "char") then Some DChar else if teqb t (T "float") then Some F4 else None.

(** int(s) for decimal notation; underscores are not modelled *)
Definition py_int (s : text) : option Z :=
  let '(sg, u) := sign_of (trim s) in option_map (fun n => sg * n) (int_of u).

(** datatypes.py 39-47 and 74-82, 113-118, 126-133: the fields and their defaults *)
Definition text_fields : list text := [T "name"; T "symbol"; T "units"; T "description"; T "format_string"; T "type"].
Definition parameter_defaults : fields := map (fun k => (k, FStr [])) text_fields ++ [(T "fixed_value", FNone)].
Definition column_defaults : fields := map (fun k => (k, FStr [])) text_fields ++ [(T "field_length", FInt 0)].
Definition data_defaults : fields :=
  [(T "mode", FStr (T "binary")); (T "lines_per_row", FInt 1); (T "no_row_counts", FInt 0); (T "additional_header_lines", FInt 0)].
Definition associate_defaults : fields :=
  map (fun k => (k, FStr [])) [T "name"; T "filename"; T "path"; T "description"; T "contents"; T "sdds"].

(** a parameter or column: its fields and its data type; a fixed parameter has none *)
Record datum := { d_fields : fields; d_key : option dt }.
Definition d_name (d : datum) : text := text_of (field (d_fields d) (T "name")).

(** datatypes.py 37-69 Parameter *)
Definition parse_fixed_value (ty v : text) : res fval :=
  match v with
  | [] => Ok (FStr [])
  | _ => if teqb ty (T "short") || teqb ty (T "long") then match py_int v with Some z => Ok (FInt z) | None => Err ValueError end
         else if teqb ty (T "double") then match py_float v with Some r => Ok (FReal (Some r)) | None => Err ValueError end
         else Ok (FStr v)
  end.
Definition parameter (entries : list text) : res datum :=
  let fs := parse_fields parameter_defaults entries in
  let ty := text_of (field fs (T "type")) in
  match field fs (T "fixed_value") with
  | FStr v => do x <- parse_fixed_value ty v; Ok {| d_fields := set_field fs (T "fixed_value") x; d_key := None |}
  | _ => match data_type ty with Some k => Ok {| d_fields := fs; d_key := Some k |} | None => Err KeyError end
  end.

(** datatypes.py 72-103 Column: a string column with a field length fails, because the length is
    still text when its absolute value is taken *)
Definition column (entries : list text) : res datum :=
  let fs := parse_fields column_defaults entries in
  match data_type (text_of (field fs (T "type"))) with
  | None => Err KeyError
  | Some (DStr _) => match field fs (T "field_length") with FInt 0 => Ok {| d_fields := fs; d_key := Some (DStr None) |} | _ => Err TypeError end
  | Some k => Ok {| d_fields := fs; d_key := Some k |}
  end.

(** SDDS.py 155-171, datatypes.py 138-144: the namelists by their first word; the class for arrays
    has no fields, so an array description raises *)
Record content := { c_parameters : list datum; c_columns : list datum; c_data : list fields; c_associates : list fields }.
Definition parse_one (c : content) (nl : text) : res content :=
  match uwords nl with
  | [] => Err IndexError
  | w :: _ =>
      if teqb w (T "&parameter") then do es <- shlex_split nl; do d <- parameter es;
        Ok {| c_parameters := c_parameters c ++ [d]; c_columns := c_columns c; c_data := c_data c; c_associates := c_associates c |}
      else if teqb w (T "&column") then do es <- shlex_split nl; do d <- column es;
        Ok {| c_parameters := c_parameters c; c_columns := c_columns c ++ [d]; c_data := c_data c; c_associates := c_associates c |}
      else if teqb w (T "&data") then do es <- shlex_split nl;
        Ok {| c_parameters := c_parameters c; c_columns := c_columns c; c_data := c_data c ++ [parse_fields data_defaults es]; c_associates := c_associates c |}
      else if teqb w (T "&associate") then do es <- shlex_split nl;
        Ok {| c_parameters := c_parameters c; c_columns := c_columns c; c_data := c_data c; c_associates := c_associates c ++ [parse_fields associate_defaults es] |}
      else if teqb w (T "&array") then do es <- shlex_split nl; Err AttributeError
      else Ok c
  end.
Fixpoint parse_all (c : content) (header : list text) : res content :=
  match header with [] => Ok c | nl :: r => do c' <- parse_one c nl; parse_all c' r end.
Definition no_content : content := {| c_parameters := []; c_columns := []; c_data := []; c_associates := [] |}.

(* ------------------------------------------------------------------ *)
(** SDDS.py 194-253: the layout of the data, as groups of named items read together *)
Definition group := list (text * dt).
Definition record_length : text := T "record_length".
Definition row_counts : text := T "row_counts".
Fixpoint column_groups (cur : group) (cols : list (text * dt)) : list group :=
  match cols with
  | [] => [cur]
  | (n, DStr s) :: r => (cur ++ [(record_length, I4)]) :: column_groups [(n, DStr s)] r
  | (n, k) :: r => column_groups (cur ++ [(n, k)]) r
  end.
Definition keyed (ds : list datum) : list (text * dt) :=
  flat_map (fun d => match d_key d with Some k => [(d_name d, k)] | None => [] end) ds.
Definition is_string (k : dt) : bool := match k with DStr _ => true | _ => false end.
Definition sized (n : Z) (nk : text * dt) : text * dt := (fst nk, match snd nk with DStr _ => DStr (Some n) | k => k end).

(** SDDS.py 194-220 _compose_column_datatypes *)
Definition column_keys (ascii : bool) (max : Z) (cols : list datum) : list group :=
  match keyed cols with
  | [] => []
  | ks => if ascii then [map (sized max) ks] else column_groups [] ks
  end.

(** SDDS.py 222-253 _compose_parameter_datatypes *)
Fixpoint parameter_groups (ascii : bool) (max : Z) (ks : list (text * dt)) : list group :=
  match ks with
  | [] => []
  | (n, DStr s) :: r => if ascii then [(n, DStr (Some max))] :: parameter_groups ascii max r
                        else [(record_length, I4)] :: [(n, DStr s)] :: parameter_groups ascii max r
  | nk :: r => [nk] :: parameter_groups ascii max r
  end.
Definition truthy (v : fval) : bool :=
  match v with FNone => false | FInt z => negb (z =? 0) | FReal _ => true | FStr t => match t with [] => false | _ => true end end.
Definition parameter_keys (ascii : bool) (max : Z) (c : content) (data : fields) : res (list group) :=
  let gs := parameter_groups ascii max (keyed (c_parameters c)) in
  if negb ascii then Ok ([(row_counts, I4)] :: gs)
  else if negb (truthy (field data (T "no_row_counts"))) && negb (match c_columns c with [] => true | _ => false end)
  then Ok (gs ++ [[(row_counts, I4)]])
  else match gs with [] => Err IndexError | _ => Ok gs end.

(** An opened reader: what __init__ leaves in the object (SDDS.py 35-83). [r_pages] and [r_rows]
    are the _data lists of the two StructData objects, [r_parameters] and [r_columns] their data
    attributes, once read. *)
Inductive value := VDouble (bits : text) | VFloat (bits : text) | VInt (z : Z) | VStr (t : text) | VReal (x : option R).
Record array := { a_names : list text; a_rows : list (list value) }.
Record reader := {
  r_file : text; r_buffer : bool; r_max : Z; r_pointer : Z; r_count : nat; r_content : content; r_data : fields;
  r_ascii : bool; r_varlen : bool; r_pkeys : list group; r_ckeys : list group;
  r_pages : list (option array); r_rows : list (option array);
  r_parameters : option (list (option array)); r_columns : option (list (option array)) }.

(** SDDS.py 35-83 __init__ *)
Definition open_sdds (f : text) (buffer : bool) (max : Z) : res reader :=
  do2 (header, count, rest) <- read_header f;
  do c <- parse_all no_content header;
  match c_data c with
  | [] => Err IndexError
  | data :: _ =>
      let ascii := match field data (T "mode") with FStr m => teqb m (T "ascii") | _ => false end in
      let ck := column_keys ascii max (c_columns c) in
      do pk <- parameter_keys ascii max c data;
      Ok {| r_file := f; r_buffer := buffer; r_max := max;
            r_pointer := Z.of_nat (List.length f) - Z.of_nat (List.length (List.concat rest));
            r_count := count; r_content := c; r_data := data; r_ascii := ascii;
            r_varlen := negb ascii && existsb (fun nk => is_string (snd nk)) (keyed (c_columns c) ++ keyed (c_parameters c));
            r_pkeys := pk; r_ckeys := ck; r_pages := []; r_rows := []; r_parameters := None; r_columns := None |}
  end.

(** SDDS.py 83 and 467-498, utils.py 57-63: the descriptions by name; a later one of the same name
    replaces an earlier one *)
Definition described (ds : list datum) (name k : text) : res fval :=
  match List.find (fun d => teqb (d_name d) name) (rev ds) with
  | Some d => Ok (field (d_fields d) k)
  | None => Err KeyError
  end.
Definition parameter_info (r : reader) (name k : text) : res fval := described (c_parameters (r_content r)) name k.
Definition column_info (r : reader) (name k : text) : res fval := described (c_columns (r_content r)) name k.

(* ------------------------------------------------------------------ *)
(** Size of a group in bytes; numpy raises on the module char, on an unfilled template, on a
    negative string length and on a repeated name. *)
Definition size_of (k : dt) : res Z :=
  match k with
  | F8 => Ok 8 | I2 => Ok 2 | I4 => Ok 4 | F4 => Ok 4
  | DStr (Some n) => if n <? 0 then Err TypeError else Ok n
  | DStr None | DChar => Err TypeError
  end.
Fixpoint item_size (g : group) : res Z :=
  match g with [] => Ok 0 | (_, k) :: r => do a <- size_of k; do b <- item_size r; Ok (a + b) end.
Fixpoint distinct (l : list text) : bool := match l with [] => true | x :: r => negb (existsb (teqb x) r) && distinct r end.
Definition dtype_size (g : group) : res Z := if distinct (map fst g) then item_size g else Err ValueError.

(** One item from its bytes; numpy drops the NULs that end a byte string *)
Fixpoint drop_nuls (s : text) : text := match s with [] => [] | c :: r => if Ascii.eqb c "000"%char then drop_nuls r else s end.
Definition rstrip_nuls (s : text) : text := rev (drop_nuls (rev s)).
Definition decode (k : dt) (s : text) : value :=
  match k with
  | F8 => VDouble s | F4 => VFloat s | I2 | I4 => VInt (un_le_signed s) | DStr _ => VStr (rstrip_nuls s) | DChar => VStr []
  end.
Definition width (k : dt) : nat := match k with F8 => 8 | I2 => 2 | I4 | F4 => 4 | DStr (Some n) => Z.to_nat n | _ => 0 end.
Fixpoint decode_row (g : group) (s : text) : list value :=
  match g with [] => [] | (_, k) :: r => decode k (firstn (width k) s) :: decode_row r (skipn (width k) s) end.
Fixpoint decode_rows (n : nat) (size : nat) (g : group) (s : text) : list (list value) :=
  match n with O => [] | S n => decode_row g (firstn size s) :: decode_rows n size g (skipn size s) end.

(** numpy.frombuffer(f, dtype=g, count=count, offset=position): raises if the items have no size,
    the offset is outside the buffer or the buffer is too short; a negative count takes everything that is left *)
Definition frombuffer (f : text) (g : group) (count position : Z) : res array :=
  do size <- dtype_size g;
  let left := Z.of_nat (List.length f) - position in
  if (size =? 0) || (position <? 0) || (left <? 0) then Err ValueError
  else let s := skipn (Z.to_nat position) f in
  if count <? 0 then
    if left mod size =? 0 then Ok {| a_names := map fst g; a_rows := decode_rows (Z.to_nat (left / size)) (Z.to_nat size) g s |}
    else Err ValueError
  else if left <? count * size then Err ValueError
  else Ok {| a_names := map fst g; a_rows := decode_rows (Z.to_nat count) (Z.to_nat size) g s |}.

(** numpy.fromfile(f, dtype=g, count=count, offset=offset) at file position ptr: as many whole
    items as there are, and the new file position. Items of no size are made without reading. *)
Definition fromfile (f : text) (ptr : Z) (g : group) (count offset : Z) : res (array * Z) :=
  do size <- dtype_size g;
  if ptr + offset <? 0 then Err ValueError
  else let s := skipn (Z.to_nat (ptr + offset)) f in
  if size =? 0 then
    if count <? 0 then Err ValueError
    else Ok ({| a_names := map fst g; a_rows := decode_rows (Z.to_nat count) 0 g s |}, ptr + offset)
  else
  let avail := Z.of_nat (List.length s) / size in
  if (0 <=? count) && (count <=? avail)
  then Ok ({| a_names := map fst g; a_rows := decode_rows (Z.to_nat count) (Z.to_nat size) g s |}, ptr + offset + count * size)
  else Ok ({| a_names := map fst g; a_rows := decode_rows (Z.to_nat avail) (Z.to_nat size) g s |},
           Z.max (ptr + offset) (Z.of_nat (List.length f))).

(** '{}'.format(z) for an integer *)
Definition digit (z : Z) : ascii := ascii_of_nat (48 + Z.to_nat z).
Fixpoint dec_digits (fuel : nat) (z : Z) (acc : text) : text :=
  match fuel with
  | O => acc
  | S fuel => if z <? 10 then digit z :: acc else dec_digits fuel (z / 10) (digit (z mod 10) :: acc)
  end.
Definition dec_nonneg (z : Z) : text := dec_digits (Z.to_nat (Z.log2 z + 1)) z [].
Definition dec (z : Z) : text := if z <? 0 then T "-" ++ dec_nonneg (- z) else dec_nonneg z.
(* ------------------------------------------------------------------ *)
(** numpy.genfromtxt(lines, skip_header=skip, dtype=g, max_rows=max, comments='!', ...) for an
    iterator over lines. A line is cut at the first exclamation mark and stripped of spaces and
    line ends; lines with nothing left are passed over; the first line with something left sets
    the number of values every other must have. [whole] is the delimiter newline-tab of the
    parameter reads, which never occurs inside a line. Gives the array and the lines not read. *)
Definition is_strip (c : ascii) : bool := Ascii.eqb c " " || Ascii.eqb c newline || Ascii.eqb c (ascii_of_nat 13).
Fixpoint drop_strip (s : text) : text := match s with [] => [] | c :: r => if is_strip c then drop_strip r else s end.
Definition strip_line (s : text) : text := rev (drop_strip (rev (drop_strip s))).
Definition line_values (whole : bool) (l : text) : list text :=
  match strip_line (fst (fst (partition1 "!" l))) with
  | [] => []
  | s => if whole then [s] else uwords s
  end.
Fixpoint first_values (whole : bool) (lines : list text) : option nat :=
  match lines with
  | [] => None
  | l :: r => match line_values whole l with [] => first_values whole r | vs => Some (List.length vs) end
  end.
(** the rows, whether a line of the wrong width was met, and the lines left; [max] rows at most *)
Fixpoint take_rows (whole : bool) (cols : nat) (max : option nat) (lines : list text) : list (list text) * bool * list text :=
  match max with
  | Some O => ([], false, lines)
  | _ => match lines with
         | [] => ([], false, [])
         | l :: r =>
             match line_values whole l with
             | [] => take_rows whole cols max r
             | vs => if Nat.eqb (List.length vs) cols
                     then let '(rows, bad, rest) := take_rows whole cols (option_map pred max) r in (vs :: rows, bad, rest)
                     else let '(rows, bad, rest) := take_rows whole cols max r in (rows, true, rest)
             end
         end
  end.
(** truncation toward zero *)
Definition trunc (x : R) : Z := if Rle_dec 0 x then Int_part x else - Int_part (- x).
(** float(s) gives an infinity or not-a-number, both [VReal None] here *)
Definition nonfinite (s : text) : bool :=
  existsb (teqb (lowert (snd (sign_of (trim s))))) [T "inf"; T "infinity"; T "nan"].
(** The conversions of genfromtxt: floats with nan where the text is no number, integers through
    float with -1 instead, byte strings cut to their length. With one field only ([alone])
    genfromtxt keeps the bytes and numpy converts them with float() or int(), which raise where
    the text is no such number. Simplified: the words for infinity give -1 in an integer field, where
    int(float()) raises OverflowError, and integers too large for their field are kept. *)
Definition convert (alone : bool) (k : dt) (tok : text) : res value :=
  match k with
  | F8 | F4 => match py_float tok with
               | Some x => Ok (VReal (Some x))
               | None => if alone && negb (nonfinite tok) then Err ValueError else Ok (VReal None)
               end
  | I2 | I4 => if alone then match py_int tok with Some z => Ok (VInt z) | None => Err ValueError end
               else Ok (VInt (match py_float tok with Some x => trunc x | None => -1 end))
  | DStr (Some n) => Ok (VStr (rstrip_nuls (firstn (Z.to_nat n) tok)))
  | DStr None | DChar => Err TypeError
  end.
Fixpoint convert_row (alone : bool) (g : group) (toks : list text) : res (list value) :=
  match g, toks with
  | [], _ => Ok []
  | (_, k) :: g, t :: toks => do v <- convert alone k t; do vs <- convert_row alone g toks; Ok (v :: vs)
  | _ :: _, [] => Err ValueError
  end.
Fixpoint convert_rows (alone : bool) (g : group) (rows : list (list text)) : res (list (list value)) :=
  match rows with [] => Ok [] | t :: r => do v <- convert_row alone g t; do vs <- convert_rows alone g r; Ok (v :: vs) end.
(** The names of the fields (numpy's NameValidator with deletechars empty): stripped, blanks as
    underscores, without double quotes, an underscore after three reserved words, f0, f1, ... for
    names with nothing left, and a number after a name met before. [seen] are the names so far,
    before their numbers; [empties] is the next number for a name with nothing left. *)
Fixpoint drop_uws (s : text) : text := match s with [] => [] | c :: r => if is_uws c then drop_uws r else s end.
Definition clean_name (n : text) : text :=
  remove1 dquote (map (fun c => if Ascii.eqb c " " then "_"%char else c) (rev (drop_uws (rev (drop_uws n))))).
Definition reserved : list text := [T "return"; T "file"; T "print"].
Fixpoint unused (fuel i : nat) (names : list text) : nat :=
  match fuel with O => i | S fuel => if existsb (teqb (T "f" ++ dec (Z.of_nat i))) names then unused fuel (S i) names else i end.
Fixpoint validate (names seen : list text) (empties : nat) (ns : list text) : list text :=
  match ns with
  | [] => []
  | n :: r =>
      let '(item, empties) :=
        match clean_name n with
        | [] => let i := unused (List.length names) empties names in (T "f" ++ dec (Z.of_nat i), S i)
        | c => (if existsb (teqb c) reserved then c ++ T "_" else c, empties)
        end in
      let met := List.length (filter (teqb item) seen) in
      (match met with O => item | S _ => item ++ T "_" ++ dec (Z.of_nat met) end) :: validate names (item :: seen) empties r
  end.
Definition valid_names (names : list text) : list text := validate names [] 0 names.
Definition genfromtxt (whole : bool) (lines : list text) (skip : Z) (g : group) (max : option Z) : res (array * list text) :=
  if match max with Some m => m <? 1 | None => false end then Err ValueError else
  do _ <- dtype_size g;
  let names := valid_names (map fst g) in
  if negb (distinct names) then Err ValueError else
  let lines := skipn (Z.to_nat skip) lines in
  match first_values whole lines with
  | None => Ok ({| a_names := names; a_rows := [] |}, [])
  | Some cols =>
      let '(rows, bad, rest) := take_rows whole cols (option_map Z.to_nat max) lines in
      if bad || (Nat.eqb (List.length g) 1 && negb (Nat.eqb cols 1)) then Err ValueError
      else do vs <- convert_rows (Nat.eqb (List.length g) 1) g rows; Ok ({| a_names := names; a_rows := vs |}, rest)
  end.

(** bytes.splitlines *)
Definition cr : ascii := ascii_of_nat 13.
Fixpoint splitlines_aux (cur : text) (s : text) : list text :=
  match s with
  | [] => match cur with [] => [] | _ => [cur] end
  | c :: r => if Ascii.eqb c newline then cur :: splitlines_aux [] r
              else if Ascii.eqb c cr then
                match r with
                | d :: r' => if Ascii.eqb d newline then cur :: splitlines_aux [] r' else cur :: splitlines_aux [] r
                | [] => [cur]
                end
              else splitlines_aux (cur ++ [c]) r
  end.
(** bytes.lstrip *)
Fixpoint drop_bws (s : text) : text := match s with [] => [] | c :: r => if is_bws c then drop_bws r else s end.
(** SDDS.py 177: the buffered lines of an ASCII file, without the comment lines *)
Definition is_comment (l : text) : bool := match drop_bws l with c :: _ => Ascii.eqb c "!" | [] => false end.
Definition buffered_lines (f : text) : list text := filter (fun l => negb (is_comment l)) (splitlines_aux [] f).

(* ------------------------------------------------------------------ *)
(** The data source during a read: buffered bytes, buffered lines, or the file with its position *)
Inductive source := Bytes (f : text) | Lines (ls : list text) | File (f : text) (ptr : Z).
Definition source_of (r : reader) : source :=
  if r_buffer r then if r_ascii r then Lines (buffered_lines (r_file r)) else Bytes (r_file r)
  else File (r_file r) (r_pointer r).

(** One call of the reader chosen by _get_reader (SDDS.py 255-264) for [count] items ([None]: all
    lines), and the advance of the position as the calls in 413-420 and 441-462 do it. [single]
    tells the per-item calls, which advance by one line, from the page calls of 454-462, which
    advance by the row count and the number of rows read. *)
Definition fetch (ascii single whole : bool) (src : source) (position : Z) (g : group) (count : option Z)
  : res (array * source * Z) :=
  match src with
  | Lines ls =>
      do2 (a, _) <- genfromtxt whole ls position g count;
      Ok (a, src, position + (if single then 1 else match count with Some c => c | None => 0 end + Z.of_nat (List.length (a_rows a))))
  | Bytes f =>
      match count with
      | None => Err TypeError
      | Some c => do a <- frombuffer f g c position; do size <- dtype_size g; Ok (a, src, position + size * c)
      end
  | File f ptr =>
      if ascii then
        do2 (a, rest) <- genfromtxt whole (flines (skipn (Z.to_nat ptr) f)) position g count;
        Ok (a, File f (Z.of_nat (List.length f) - Z.of_nat (List.length (List.concat rest))), position)
      else
        match count with
        | None => Err TypeError
        | Some c => do2 (a, ptr') <- fromfile f ptr g c position; Ok (a, File f ptr', position)
        end
  end.

(** The string length just read, if the last array read has one (SDDS.py 406-411, 433-439).
    Simplified: a column or parameter that is itself called record_length, and is followed by
    something other than a string, raises AttributeError in the code and is passed over here. *)
Fixpoint position_of (n : text) (l : list text) : option nat :=
  match l with [] => None | x :: r => if teqb x n then Some O else option_map S (position_of n r) end.
Definition lookup (a : array) (n : text) : option value :=
  match a_rows a, position_of n (a_names a) with
  | row :: _, Some i => nth_error row i
  | _, _ => None
  end.
Definition fill (prev : option array) (g : group) : group :=
  match prev with
  | Some a => match lookup a record_length, g with
              | Some (VInt n), (nm, DStr None) :: r => (nm, DStr (Some n)) :: r
              | _, _ => g
              end
  | None => g
  end.

(** SDDS.py 403-423 _get_parameter_data, and the inner loop 432-449 of _get_column_data, which is
    the same but for the delimiter *)
Fixpoint fetch_groups (ascii varlen whole : bool) (src : source) (position : Z) (prev : option array) (gs : list group)
  : res (list array * source * Z) :=
  match gs with
  | [] => Ok ([], src, position)
  | g :: r =>
      do2 (a, src, position) <- fetch ascii true whole src position (if varlen then fill prev g else g) (Some 1);
      do2 (l, src, position) <- fetch_groups ascii varlen whole src position (Some a) r;
      Ok (a :: l, src, position)
  end.

(** SDDS.py 425-465 _get_column_data *)
Fixpoint fetch_rows (n : nat) (ascii varlen : bool) (src : source) (position : Z) (gs : list group)
  : res (list (list array) * source * Z) :=
  match n with
  | O => Ok ([], src, position)
  | S n =>
      do2 (l, src, position) <- fetch_groups ascii varlen false src position None gs;
      do2 (ls, src, position) <- fetch_rows n ascii varlen src position gs;
      Ok (l :: ls, src, position)
  end.
Definition column_data (r : reader) (src : source) (position : Z) (rows : option Z) : res (list (list array) * source * Z) :=
  match r_ckeys r with
  | [g] => do2 (a, src, position) <- fetch (r_ascii r) false false src position g rows; Ok ([[a]], src, position)
  | gs => match rows with
          | Some n => fetch_rows (Z.to_nat n) (r_ascii r) (r_varlen r) src position gs
          | None => Err TypeError
          end
  end.

(* ------------------------------------------------------------------ *)
(** struct_data.py 16-29: the merged fields; strings become U with the length limit *)
Definition merged (max : Z) (gs : list group) : group :=
  map (sized max) (filter (fun nk => negb (teqb (fst nk) record_length)) (List.concat gs)).
(** Assigning bytes to a U field: only ASCII bytes can be decoded, and the text is cut *)
Definition as_unicode (max : Z) (v : value) : res value :=
  match v with
  | VStr t => if forallb (fun c => (nat_of_ascii c <? 128)%nat) t then Ok (VStr (firstn (Z.to_nat max) t)) else Err ValueError
  | _ => Ok v
  end.
(** The value of one merged field: the last of the arrays that has it; every array must have
    exactly one row *)
Fixpoint merged_value (max : Z) (n : text) (data : list array) : res (option value) :=
  match data with
  | [] => Ok None
  | a :: r =>
      do x <- merged_value max n r;
      match x with
      | Some v => Ok (Some v)
      | None => match position_of n (a_names a), a_rows a with
                | Some i, [row] => match nth_error row i with Some v => do u <- as_unicode max v; Ok (Some u) | None => Ok None end
                | Some _, _ => Err ValueError
                | None, _ => Ok None
                end
      end
  end.
Fixpoint merged_row (max : Z) (g : group) (data : list array) : res (list value) :=
  match g with
  | [] => Ok []
  | (n, _) :: r => do x <- merged_value max n data; do vs <- merged_row max r data; Ok (match x with Some v => v | None => VStr [] end :: vs)
  end.
(** Every array, in order, must have only names the merged array has, exactly one row unless it
    has nothing to copy, and text that can be decoded *)
Fixpoint readable (max : Z) (names : list text) (row : list value) : res unit :=
  match names, row with
  | n :: names, v :: row => do _ <- (if teqb n record_length then Ok v else as_unicode max v); readable max names row
  | _, _ => Ok tt
  end.
Fixpoint mergeable (max : Z) (names : list text) (data : list array) : res unit :=
  match data with
  | [] => Ok tt
  | a :: r =>
      let kept := filter (fun n => negb (teqb n record_length)) (a_names a) in
      do _ <- (if forallb (fun n => existsb (teqb n) names) kept then
                 match kept, a_rows a with
                 | [], _ => Ok tt
                 | _, [row] => readable max (a_names a) row
                 | _, _ => Err ValueError
                 end
               else Err KeyError);
      mergeable max names r
  end.
(** struct_data.py 47-56 _merge *)
Definition merge (max : Z) (gs : list group) (data : list array) : res array :=
  match data with
  | [a] => Ok a
  | _ => let g := merged max gs in
         if distinct (map fst g) then do _ <- mergeable max (map fst g) data; do row <- merged_row max g data; Ok {| a_names := map fst g; a_rows := [row] |}
         else Err ValueError
  end.
(** struct_data.py 31-42 add: no rows at all leave a None in the list *)
Fixpoint stack (max : Z) (gs : list group) (data : list (list array)) : res (option array) :=
  match data with
  | [] => Ok None
  | d :: r =>
      do a <- merge max gs d;
      do x <- stack max gs r;
      Ok (Some match x with Some b => {| a_names := a_names a; a_rows := a_rows a ++ a_rows b |} | None => a end)
  end.
(** struct_data.py 44-45 concat: numpy 1.24 and later refuse arrays of different lengths (earlier
    versions warn and build an array of objects) *)
Definition rows_of (x : option array) : option nat := option_map (fun a => List.length (a_rows a)) x.
Definition same_rows (x y : option array) : bool :=
  match rows_of x, rows_of y with Some a, Some b => Nat.eqb a b | None, None => true | _, _ => false end.
Definition concat_pages (l : list (option array)) : res (list (option array)) :=
  match l with [] => Ok [] | x :: r => if forallb (same_rows x) r then Ok l else Err ValueError end.

(* ------------------------------------------------------------------ *)
(** SDDS.py 284-303 _check_file_end *)
Definition file_end (src : source) (position : Z) : bool :=
  match src with
  | Bytes f => Z.of_nat (List.length f) <=? position
  | Lines ls => Z.of_nat (List.length ls) <=? position
  | File f ptr =>
      match skipn (Z.to_nat ptr) f with
      | [] => true
      | _ :: r => forallb is_bws (fst (readline (flines r)))
      end
  end.

(** SDDS.py 305-322 _get_ascii_row_count: buffered, the lines up to the first empty one, and None
    if there is no empty line (of a binary file the bytes up to the first zero byte); unbuffered,
    the lines up to the first blank one or the end *)
Fixpoint count_to_empty (ls : list text) : option Z :=
  match ls with [] => None | [] :: _ => Some 0 | _ :: r => option_map Z.succ (count_to_empty r) end.
Fixpoint count_to_blank (ls : list text) : Z :=
  match ls with [] => 0 | l :: r => if forallb is_bws l then 0 else 1 + count_to_blank r end.
Fixpoint count_to_zero (s : text) : option Z :=
  match s with [] => None | c :: r => if Ascii.eqb c "000"%char then Some 0 else option_map Z.succ (count_to_zero r) end.
Definition ascii_row_count (src : source) (position : Z) : option Z :=
  match src with
  | Lines ls => count_to_empty (skipn (Z.to_nat position) ls)
  | Bytes f => count_to_zero (skipn (Z.to_nat position) f)
  | File f ptr => Some (count_to_blank (flines (skipn (Z.to_nat ptr) f)))
  end.

(** utils.py 46-54 get_entry_from_parameters for the row count *)
Fixpoint entry_of (n : text) (data : list array) : res value :=
  match data with
  | [] => Err KeyError
  | a :: r => match a_names a with
              | m :: _ => if teqb m n then match lookup a n with Some v => Ok v | None => Err IndexError end else entry_of n r
              | [] => Err IndexError
              end
  end.

(** the pages asked for *)
Definition wanted (pages : option (list Z)) (page : Z) : bool :=
  match pages with None => true | Some l => existsb (Z.eqb page) l end.
Definition past (pages : option (list Z)) (page : Z) : res bool :=
  match pages with None => Ok false | Some [] => Err ValueError | Some (x :: l) => Ok (fold_right Z.max x l <? page) end.

(** The state of a read: the two _data lists, the source and the position *)
Record progress := { g_pages : list (option array); g_rows : list (option array); g_source : source; g_position : Z }.

(** One turn of the loop in SDDS.py 363-397: [None] leaves the loop. A page that was begun but
    failed may have left its parameters behind, so failures carry the lists too. *)
Definition page_turn (r : reader) (pages : option (list Z)) (page : Z) (g : progress) : progress * res bool :=
  match past pages page with
  | Err e => (g, Err e)
  | Diverges => (g, Diverges)
  | Ok true => (g, Ok false)
  | Ok false =>
      if file_end (g_source g) (g_position g) then (g, Ok false) else
      match fetch_groups (r_ascii r) (r_varlen r) true (g_source g) (g_position g) None (r_pkeys r) with
      | Err e => (g, Err e)
      | Diverges => (g, Diverges)
      | Ok (data, src, position) =>
          match (if wanted pages page then do x <- stack (r_max r) (r_pkeys r) [data]; Ok (g_pages g ++ [x]) else Ok (g_pages g)) with
          | Err e => (g, Err e)
          | Diverges => (g, Diverges)
          | Ok ps =>
              let g := {| g_pages := ps; g_rows := g_rows g; g_source := src; g_position := position |} in
              let rows :=
                match c_columns (r_content r) with
                | [] => Ok (Some 0)
                | _ => if negb (truthy (field (r_data r) (T "no_row_counts")))
                       then do v <- entry_of row_counts data; Ok (Some (match v with VInt z => z | _ => 0 end))
                       else Ok (ascii_row_count src position)
                end in
              match rows with
              | Err e => (g, Err e)
              | Diverges => (g, Diverges)
              | Ok (Some 0) => (g, Ok true)
              | Ok n =>
                  if wanted pages page || r_varlen r then
                    match column_data r src position n with
                    | Err e => (g, Err e)
                    | Diverges => (g, Diverges)
                    | Ok (data, src, position) =>
                        match stack (r_max r) (r_ckeys r) data with
                        | Err e => (g, Err e)
                        | Diverges => (g, Diverges)
                        | Ok x => ({| g_pages := g_pages g; g_rows := g_rows g ++ [x]; g_source := src; g_position := position |}, Ok true)
                        end
                    end
                  else
                    match dtype_size (hd [] (r_ckeys r)), n with
                    | Ok size, Some n => ({| g_pages := g_pages g; g_rows := g_rows g; g_source := src; g_position := position + size * n |}, Ok true)
                    | Ok _, None => (g, Err TypeError)
                    | Err e, _ => (g, Err e)
                    | Diverges, _ => (g, Diverges)
                    end
              end
          end
      end
  end.

(** The loop over the pages; [None] if it has not finished after [fuel] turns *)
Fixpoint page_loop (fuel : nat) (r : reader) (pages : option (list Z)) (page : Z) (g : progress) : option (progress * res unit) :=
  match fuel with
  | O => None
  | S fuel =>
      match page_turn r pages page g with
      | (g, Ok true) => page_loop fuel r pages (page + 1) g
      | (g, Ok false) => Some (g, Ok tt)
      | (g, Err e) => Some (g, Err e)
      | (g, Diverges) => None
      end
  end.

Definition with_lists (r : reader) (ps rs : list (option array)) (p c : option (list (option array))) : reader :=
  {| r_file := r_file r; r_buffer := r_buffer r; r_max := r_max r; r_pointer := r_pointer r; r_count := r_count r;
     r_content := r_content r; r_data := r_data r; r_ascii := r_ascii r; r_varlen := r_varlen r; r_pkeys := r_pkeys r;
     r_ckeys := r_ckeys r; r_pages := ps; r_rows := rs; r_parameters := p; r_columns := c |}.

(** SDDS.py 324-401 read *)
Definition read (fuel : nat) (r : reader) (pages : option (list Z)) : option (reader * res unit) :=
  let position := if r_buffer r then if r_ascii r then Z.of_nat (r_count r) else r_pointer r else 0 in
  let g := {| g_pages := r_pages r; g_rows := r_rows r; g_source := source_of r; g_position := position |} in
  match page_loop fuel r pages 0 g with
  | None => None
  | Some (g, Ok _) =>
      match concat_pages (g_pages g) with
      | Ok ps =>
          match r_ckeys r with
          | [] => Some (with_lists r (g_pages g) (g_rows g) (Some ps) (r_columns r), Ok tt)
          | _ => match concat_pages (g_rows g) with
                 | Ok cs => Some (with_lists r (g_pages g) (g_rows g) (Some ps) (Some cs), Ok tt)
                 | Err e => Some (with_lists r (g_pages g) (g_rows g) (Some ps) (r_columns r), Err e)
                 | Diverges => None
                 end
          end
      | Err e => Some (with_lists r (g_pages g) (g_rows g) (r_parameters r) (r_columns r), Err e)
      | Diverges => None
      end
  | Some (g, Err e) => Some (with_lists r (g_pages g) (g_rows g) (r_parameters r) (r_columns r), Err e)
  | Some (g, Diverges) => None
  end.

(* ------------------------------------------------------------------ *)
(** The writer *)

(** str.encode(), UTF-8, for characters below 256 *)
Definition encode_char (c : ascii) : text :=
  let n := nat_of_ascii c in
  if (n <? 128)%nat then [c] else [ascii_of_nat (192 + n / 64); ascii_of_nat (128 + n mod 64)].
Definition encode (s : text) : text := flat_map encode_char s.


(** The bits of an integer as a double; above 2^53 the digits that do not fit are cut *)
Definition double_bits (z : Z) : text :=
  if z =? 0 then le 8 0
  else let a := Z.abs z in
       let e := Z.log2 a in
       let m := (if e <=? 52 then a * 2 ^ (52 - e) else a / 2 ^ (e - 52)) - 2 ^ 52 in
       le 8 ((if z <? 0 then 2 ^ 63 else 0) + (e + 1023) * 2 ^ 52 + m).

(** Values handed to the writer. Doubles are their eight bytes. A fixed float is what repr prints
    for it. Columns are one-dimensional numpy arrays of these types only. *)
Inductive wvalue := WDouble (bits : text) | WInt (z : Z) | WStr (t : text).
Inductive fixed := NoFix | FixInt (z : Z) | FixFloat (shown : text) | FixStr (t : text).
Inductive coldata := CDouble (l : list text) | CInt16 (l : list Z) | CInt32 (l : list Z) | CInt64 (l : list Z).
Record wparam := { p_name : text; p_data : option wvalue; p_type : text; p_units : text; p_symbol : text;
                   p_format : text; p_description : text; p_fixed : fixed }.
Record wcol := { w_name : text; w_data : coldata; w_type : text; w_units : text; w_symbol : text;
                 w_format : text; w_description : text; w_length : Z }.
Record writer := { w_params : list wparam; w_cols : list wcol }.

(** SDDS.py 532 key_indentity *)
Definition writable_types : list text := [T "double"; T "short"; T "long"; T "string"].
Definition fixed_truthy (x : fixed) : bool :=
  match x with
  | NoFix => false
  | FixInt z => negb (z =? 0)
  | FixFloat s => match py_float s with Some v => if Req_EM_T v 0 then false else true | None => true end
  | FixStr t => match t with [] => false | _ => true end
  end.

(** SDDS.py 546-581 create_column and 583-622 create_parameter *)
Definition create_column (w : writer) (c : wcol) : res writer :=
  if existsb (teqb (w_type c)) writable_types then Ok {| w_params := w_params w; w_cols := w_cols w ++ [c] |} else Err AssertionError.
Definition create_parameter (w : writer) (p : wparam) : res writer :=
  if negb (existsb (teqb (p_type p)) writable_types) then Err AssertionError
  else if fixed_truthy (p_fixed p) && match p_data p with None => false | Some _ => true end then Err AssertionError
  else Ok {| w_params := w_params w ++ [p]; w_cols := w_cols w |}.

(** SDDS.py 501-506 and 630-646: an attribute is written only if its value is true *)
Definition attribute (key value : text) : text := match value with [] => [] | _ => key ++ value ++ T ", " end.
Definition quoted (key value : text) : text := match value with [] => [] | _ => key ++ [dquote] ++ value ++ [dquote] ++ T ", " end.
Definition fixed_text (x : fixed) : text :=
  match x with
  | NoFix => []
  | FixInt z => dec z
  | FixFloat s => s
  | FixStr t => [dquote] ++ t ++ [dquote]
  end.
Definition parameter_line (p : wparam) : text :=
  encode (T "&parameter " ++ attribute (T "name=") (p_name p) ++ attribute (T "type=") (p_type p) ++
    quoted (T "units=") (p_units p) ++ quoted (T "symbol=") (p_symbol p) ++ quoted (T "format_string=") (p_format p) ++
    quoted (T "description=") (p_description p) ++
    (if fixed_truthy (p_fixed p) then attribute (T "fixed_value=") (fixed_text (p_fixed p)) else []) ++ T "&end" ++ [newline]).
Definition column_line (c : wcol) : text :=
  encode (T "&column " ++ attribute (T "name=") (w_name c) ++ attribute (T "type=") (w_type c) ++
    quoted (T "units=") (w_units c) ++ quoted (T "symbol=") (w_symbol c) ++ quoted (T "format_string=") (w_format c) ++
    quoted (T "description=") (w_description c) ++
    (if w_length c =? 0 then [] else quoted (T "field_length=") (dec (w_length c))) ++ T " &end" ++ [newline]).
Definition data_line (ascii : bool) : text := T "&data mode=" ++ (if ascii then T "ascii" else T "binary") ++ T ", &end" ++ [newline].

(** SDDS.py 624-648 _write_header, as the pieces handed to write, on a little-endian machine *)
Definition header_pieces (w : writer) (ascii : bool) : list text :=
  [T "SDDS1" ++ [newline]; T "!# little-endian" ++ [newline]] ++ map parameter_line (w_params w) ++
  map column_line (w_cols w) ++ [data_line ascii].

(** numpy.column_stack: the common type, the rows; [None] if the lengths differ *)
Definition col_length (d : coldata) : nat :=
  match d with CDouble l => List.length l | CInt16 l | CInt32 l | CInt64 l => List.length l end.
Definition rank (d : coldata) : nat := match d with CInt16 _ => 0 | CInt32 _ => 1 | CInt64 _ => 2 | CDouble _ => 3 end.
Definition common_rank (ds : list coldata) : nat := fold_right Nat.max O (map rank ds).
Definition cells (rk : nat) (d : coldata) : list text :=
  match d with
  | CDouble l => l
  | CInt16 l | CInt32 l | CInt64 l => map (match rk with O => le 2 | 1%nat => le 4 | 2%nat => le 8 | _ => double_bits end) l
  end.
Fixpoint transpose (n : nat) (cols : list (list text)) : list (list text) :=
  match n with O => [] | S n => map (hd []) cols :: transpose n (map (@tl text) cols) end.
Definition column_stack (ds : list coldata) : option (list (list text)) :=
  match ds with
  | [] => Some []
  | d :: r => if forallb (fun e => Nat.eqb (col_length e) (col_length d)) r
              then Some (transpose (col_length d) (map (cells (common_rank ds)) ds)) else None
  end.

(** SDDS.py 692-694: struct.pack with the code of key_indentity. The code of short is s, which
    packs bytes, and strings have no code. *)
Definition pack (ty : text) (v : wvalue) : res text :=
  if teqb ty (T "double") then match v with WDouble b => Ok b | WInt z => Ok (double_bits z) | WStr _ => Err StructError end
  else if teqb ty (T "long") then
    match v with WInt z => if (- 2 ^ 31 <=? z) && (z <? 2 ^ 31) then Ok (le 4 z) else Err StructError | _ => Err StructError end
  else Err StructError.

(** SDDS.py 687-694: the parameters that are not fixed, one after the other. [show] is what
    format makes of a value in an ASCII file. *)
Fixpoint parameter_pieces (ascii : bool) (show : wvalue -> text) (ps : list wparam) : list text * res unit :=
  match ps with
  | [] => ([], Ok tt)
  | p :: r =>
      match p_data p with
      | None => parameter_pieces ascii show r
      | Some v =>
          match (if ascii then Ok (encode (show v) ++ [newline]) else pack (p_type p) v) with
          | Ok b => let '(l, x) := parameter_pieces ascii show r in (b :: l, x)
          | Err e => ([], Err e)
          | Diverges => ([], Diverges)
          end
      end
  end.

(** SDDS.py 650-712 save_sdds, as the pieces written to the file, which opening it has emptied, and
    the outcome. [show_cell] is what savetxt makes of a cell. Unequal column lengths print a
    message and return. *)
Definition save (w : writer) (ascii : bool) (show : wvalue -> text) (show_cell : text -> text) : list text * res unit :=
  match column_stack (map w_data (w_cols w)) with
  | None => ([], Ok tt)
  | Some rows =>
      let n := Z.of_nat (List.length rows) in
      let head := header_pieces w ascii in
      if negb ascii && (2 ^ 32 <=? n) then (head, Err StructError) else
      let '(ps, x) := parameter_pieces ascii show (w_params w) in
      let before := if ascii then [] else [le 4 n] in
      match x with
      | Ok _ =>
          let count := if ascii && negb (n =? 0) then [dec n ++ [newline]] else [] in
          let body := if ascii then map (fun row => join [space] (map show_cell row) ++ [newline]) rows
                      else [List.concat (List.concat rows)] in
          (head ++ before ++ ps ++ count ++ body, Ok tt)
      | _ => (head ++ before ++ ps, x)
      end
  end.

(** The files on disk, by name; what save_sdds leaves there if the machine stops after [k] of the
    write calls, and after all of them *)
Definition disk := list (text * text).
Fixpoint put (d : disk) (name content : text) : disk :=
  match d with [] => [(name, content)] | (n, c) :: r => if teqb n name then (n, content) :: r else (n, c) :: put r name content end.
Definition get (d : disk) (name : text) : option text := option_map snd (List.find (fun nc => teqb (fst nc) name) d).
Definition save_upto (k : nat) (d : disk) (name : text) (w : writer) (ascii : bool) (show : wvalue -> text) (show_cell : text -> text) : disk :=
  put d name (List.concat (firstn k (fst (save w ascii show show_cell)))).
Definition save_sdds (d : disk) (name : text) (w : writer) (ascii : bool) (show : wvalue -> text) (show_cell : text -> text) : disk * res unit :=
  let s := save w ascii show show_cell in (put d name (List.concat (fst s)), snd s).

(** Model of rsbeams/rslattice/templates/lattice_importer.py 34-104.

    The model starts from the loaded data (line 61): the records under models/beamlines,
    models/elements and models/rpnCache.  Every record has the keys the code reads; a record
    without one raises KeyError in the code and is left out here.  Parameter values are numbers
    or texts; lists, which cannot be looked up in rpnCache, are left out. *)
From Coq Require Import List Reals Bool Arith String ZArith.
From Verif Require Import PyBase PyDict Line_Model.
Import ListNotations.
Open Scope Z_scope.

(** keys id, name and items of a record under models/beamlines *)
Record jline := { jl_id : Z; jl_name : string; jl_items : list Z }.
(** keys _id, name and type of a record under models/elements, and its other keys *)
Record jelem := { je_id : Z; je_name : string; je_type : string; je_fields : params }.
Record models := { m_lines : list jline; m_elems : list jelem; m_rpn : params }.

(** lattice_importer.py 63-64: the dictionaries by id *)
Definition line_dict (M : models) : list (Z * jline) :=
  fold_left (fun d l => dset Z.eq_dec d (jl_id l) l) (m_lines M) [].
Definition elem_dict (M : models) : list (Z * jelem) :=
  fold_left (fun d e => dset Z.eq_dec d (je_id e) e) (m_elems M) [].

(** lattice_importer.py 41-45 _replace_rpn_variables, for one value: the keys of rpnCache are texts *)
Definition replace_rpn (M : models) (v : value) : value :=
  match v with
  | VStr s => match dget string_dec (m_rpn M) s with Some w => w | None => v end
  | VNum _ => v
  end.

(** lattice_importer.py 92-96: every key but name and type, the key _id too.  The code keeps the
    order of the record; the model puts _id first. *)
Definition special_removed (M : models) (e : jelem) : params :=
  map (fun kv => (fst kv, replace_rpn M (snd kv))) (("_id"%string, VNum (IZR (je_id e))) :: je_fields e).

(** lattice_importer.py 74-99 generate_beamline.  [limit] is the number of nested calls that
    Python allows. *)
Fixpoint generate (limit : nat) (M : models) (items : list Z) (h : heap) (a : nat) : run unit :=
  match limit with
  | O => (h, Err RecursionError)
  | S limit' =>
      (fix go (items : list Z) (h : heap) : run unit :=
         match items with
         | [] => (h, Ok tt)
         | item :: r =>
             match dget Z.eq_dec (line_dict M) (Z.abs item) with
             | Some l =>
                 match add_beamline h a (Some (jl_name l)) with
                 | (h, Ok _) =>
                     match option_map l_lines (nth_error (lines h) a) with
                     | Some ls =>
                         match dget name_dec ls (Some (jl_name l)) with
                         | Some b =>
                             match generate limit' M (if 0 <=? item then jl_items l else rev (jl_items l)) h b with
                             | (h, Ok _) => go r h
                             | (h, e) => (h, e)
                             end
                         | None => (h, Err KeyError)
                         end
                     | None => (h, Err NameError)
                     end
                 | (h, e) => (h, e)
                 end
             | None =>
                 match dget Z.eq_dec (elem_dict M) item with
                 | Some e =>
                     match add_element h a (je_name e) (je_type e) (special_removed M e) false with
                     | (h, Ok _) => go r h
                     | (h, x) => (h, x)
                     end
                 | None => (h, Err KeyError)
                 end
             end
         end) items h
  end.

(** lattice_importer.py 66-72: the first beamline of that name.  A found record is never empty. *)
Definition the_beamline (M : models) (name : string) : option jline :=
  option_map snd (find (fun kv => String.eqb (jl_name (snd kv)) name) (line_dict M)).

(** lattice_importer.py 48-104 parse_json, from the loaded data: the heap and the address of the
    beamline returned *)
Definition parse_json (limit : nat) (M : models) (name : string) : res (heap * nat) :=
  match the_beamline M name with
  | None => Err ValueError
  | Some l =>
      let (h, a) := new_line empty_heap (Some (jl_name l)) in
      match generate limit M (jl_items l) h a with
      | (h, Ok _) => Ok (h, a)
      | (_, Err x) => Err x
      | (_, Diverges) => Diverges
      end
  end.

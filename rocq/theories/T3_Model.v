(** Names of elements of Trace3D decks. *)
From Coq Require Import List Bool Arith String Ascii ZArith.
From Verif Require Import PyText Trace_Model.
Import ListNotations.

(** trace3d_parser.py 140: line[start:stop] with any two indices *)
Definition place (s : text) (i : Z) : nat :=
  Z.to_nat (if (i <? 0)%Z then Z.max 0 (Z.of_nat (List.length s) + i) else i).
Definition slice (s : text) (start stop : Z) : text := skipn (place s start) (firstn (place s stop) s).
(** trace3d_parser.py 135-140 Trace3d.get_element_name *)
Definition t3_name (line : text) : text :=
  let start := find_at (T "cmt(") line in
  let stop := find_at (T ")") line in
  trim (slice line (start + 4) stop).

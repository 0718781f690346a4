(** Model of RsDistrib6D.make_twiss_dist_6d (rsbeams/rsptcls/RsDistrib6D.py) with the array that it
    leaves behind when it raises.  Floats are exact reals. *)
From Coq Require Import List Reals Bool Arith.
From Verif Require Import PyBase Stats_Model Twiss_Model.
Import ListNotations.
Open Scope R_scope.

(** RsDistrib6D.py 171-173: one of the lookups in twiss6d; None: the key is missing. *)
Definition look_plane (o : option twiss) : res twiss :=
  match o with Some t => Ok t | None => Err KeyError end.

(** array6d[i, :] = r *)
Fixpoint set_row (b : beam) (i : nat) (r : list R) : beam :=
  match b, i with
  | [], _ => []
  | _ :: b', O => r :: b'
  | x :: b', S i' => x :: set_row b' i' r
  end.

(** RsDistrib6D.py 167-219: the loop over the planes.  [temp] is temp6D, the copy taken on
    line 165, [arr] the array itself.  A plane is written (215-219) after its coefficients
    (171-210) have been computed.  Simplification: the two rows of a plane are written at
    once and not particle by particle (nothing can raise in between). *)
Fixpoint match_planes (temp arr : beam) (planes : list (nat * option twiss)) : beam * res unit :=
  match planes with
  | [] => (arr, Ok tt)
  | (i, o) :: rest =>
      match (do t <- look_plane o; make_plane t (nth i temp []) (nth (i + 1) temp [])) with
      | Ok (u, v) => match_planes temp (set_row (set_row arr i u) (i + 1) v) rest
      | Err e => (arr, Err e)
      | Diverges => (arr, Diverges)
      end
  end.

(** RsDistrib6D.py 162-223 make_twiss_dist_6d: the array afterwards, and what is returned or
    raised.  ox, oy and oz are the three entries of twiss6d. *)
Definition make_twiss_dist_in_place (b : beam) (ox oy oz : option twiss) : beam * res unit :=
  match_planes b b [(0%nat, ox); (2%nat, oy); (4%nat, oz)].

(** RsDistrib6D.py 225-233 and 235-243: the same for the two component edits. *)
Definition offset_in_place (b : beam) (offset : R) (index : Z) : beam * res unit :=
  match offset_component b offset index with
  | Ok b' => (b', Ok tt) | Err e => (b, Err e) | Diverges => (b, Diverges)
  end.
Definition multiply_in_place (b : beam) (factor : R) (index : Z) : beam * res unit :=
  match multiply_component b factor index with
  | Ok b' => (b', Ok tt) | Err e => (b, Err e) | Diverges => (b, Diverges)
  end.

(** The calls of a program on one distribution; an exception ends a call, not the program. *)
Inductive edit :=
| Match (ox oy oz : option twiss)
| Offset (x : R) (index : Z)
| Multiply (x : R) (index : Z).
Definition do_edit (b : beam) (e : edit) : beam * res unit :=
  match e with
  | Match ox oy oz => make_twiss_dist_in_place b ox oy oz
  | Offset x i => offset_in_place b x i
  | Multiply x i => multiply_in_place b x i
  end.
Fixpoint do_edits (b : beam) (es : list edit) : beam * list (res unit) :=
  match es with
  | [] => (b, [])
  | e :: es' =>
      let '(b1, r) := do_edit b e in
      let '(b2, l) := do_edits b1 es' in
      (b2, r :: l)
  end.

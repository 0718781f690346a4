(** Vocabulary for lattices kept as records with numbers. *)
From Coq Require Import List Reals Bool Arith String ZArith.
From Verif Require Import PyBase Line_Model Line_Spec Json_Model.
Import ListNotations.
Open Scope Z_scope.

(** The elements along a list of numbers: the number of an element stands for it, that of a line
    for what its items stand for, the negative of it for the same backwards. *)
Inductive expansion (M : models) : list Z -> list jelem -> Prop :=
| ex_nil : expansion M [] []
| ex_elem : forall i e r l, In e (m_elems M) -> je_id e = i -> expansion M r l -> expansion M (i :: r) (e :: l)
| ex_line : forall i k r l1 l2, In k (m_lines M) -> jl_id k = i ->
    expansion M (jl_items k) l1 -> expansion M r l2 -> expansion M (i :: r) (l1 ++ l2)
| ex_back : forall i k r l1 l2, In k (m_lines M) -> jl_id k = - i -> i < 0 ->
    expansion M (jl_items k) l1 -> expansion M r l2 -> expansion M (i :: r) (rev l1 ++ l2).

(** Numbers and names belong to one thing. *)
Definition one_meaning (M : models) : Prop :=
  NoDup (map jl_id (m_lines M) ++ map je_id (m_elems M)) /\
  (forall i, In i (map jl_id (m_lines M) ++ map je_id (m_elems M)) -> 0 < i) /\
  NoDup (map jl_name (m_lines M)) /\ NoDup (map je_name (m_elems M)) /\ NoDup (map fst (m_rpn M)).

Definition is_line (M : models) (i : Z) : Prop := In (Z.abs i) (map jl_id (m_lines M)).
(** No line names a line twice. *)
Definition lines_named_once (M : models) : Prop := forall k, In k (m_lines M) ->
  forall p i q j r, jl_items k = p ++ i :: q ++ j :: r -> is_line M i -> Z.abs i <> Z.abs j.
(** Only lines of elements are taken backwards. *)
Definition back_flat (M : models) : Prop := forall k i c, In k (m_lines M) -> In i (jl_items k) -> i < 0 ->
  In c (m_lines M) -> jl_id c = - i -> forall j, In j (jl_items c) -> ~ is_line M j.
(** No parameter is called like an argument of the constructor of elements. *)
Definition free_keys (M : models) : Prop := forall e k v, In e (m_elems M) -> In (k, v) (je_fields e) ->
  k <> "self"%string /\ k <> "element_name"%string /\ k <> "element_type"%string.

(** The value of a parameter: a text that names a variable stands for the value of that variable. *)
Inductive meaning (M : models) : value -> value -> Prop :=
| mean_var : forall s v, In (s, v) (m_rpn M) -> meaning M (VStr s) v
| mean_text : forall s, (forall v, ~ In (s, v) (m_rpn M)) -> meaning M (VStr s) (VStr s)
| mean_num : forall r, meaning M (VNum r) (VNum r).

(** An element of the beamline is the one recorded: name, type, and under each parameter name,
    in any capitalisation, the meaning of what was recorded last under it, or nothing. *)
Definition imported (M : models) (h : heap) (a : nat) (e : jelem) : Prop := exists x,
  element_at h a = Some x /\ e_name x = je_name e /\ e_type x = strip (lower (je_type e)) /\
  forall k, same_name k "_id" \/
    (exists v w, last_value k (je_fields e) (Some v) /\ meaning M v w /\ agn_get (e_params x) k = Some w) \/
    (last_value k (je_fields e) None /\ agn_get (e_params x) k = None).

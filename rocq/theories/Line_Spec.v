(** Vocabulary for elements and beamlines. *)
From Coq Require Import List Reals Bool Arith String Ascii.
From Verif Require Import PyBase Line_Model.
Import ListNotations.
Open Scope R_scope.

(** Two names are the same up to capitalisation. *)
Fixpoint position (c : ascii) (l : list ascii) : option nat :=
  match l with [] => None | d :: r => if Ascii.eqb c d then Some 0%nat else option_map S (position c r) end.
Definition capitals := list_ascii_of_string "ABCDEFGHIJKLMNOPQRSTUVWXYZ".
Definition smalls := list_ascii_of_string "abcdefghijklmnopqrstuvwxyz".
Definition same_letter (c d : ascii) : Prop :=
  c = d \/ (exists i, nth_error capitals i = Some c /\ nth_error smalls i = Some d) \/
  (exists i, nth_error capitals i = Some d /\ nth_error smalls i = Some c).
Inductive same_name : string -> string -> Prop :=
| same_empty : same_name "" ""
| same_cons : forall c d s t, same_letter c d -> same_name s t -> same_name (String c s) (String d t).

(** Reading a name after a list of assignments: the last assignment to that name, in any
    capitalisation, gave it this value; or there was none. *)
Inductive last_value {A} (k : string) : list (string * A) -> option A -> Prop :=
| lv_none : forall l, (forall k' v, In (k', v) l -> ~ same_name k k') -> last_value k l None
| lv_some : forall l1 k' v l2, same_name k k' -> (forall k'' w, In (k'', w) l2 -> ~ same_name k k'') ->
    last_value k (l1 ++ (k', v) :: l2) (Some v).

(** The sequence of a beamline, its top-level beamline, and the elements it lists by name. *)
Definition sequence (h : heap) (a : nat) : option (list ref) := option_map l_seq (nth_error (lines h) a).
Definition element_at (h : heap) (e : nat) : option element := nth_error (elems h) e.

(** Depth-first expansion of a sequence. *)
Inductive expands (h : heap) : list ref -> list nat -> Prop :=
| x_nil : expands h [] []
| x_elem : forall e r l, expands h r l -> expands h (RE e :: r) (e :: l)
| x_line : forall b s r l1 l2, sequence h b = Some s -> expands h s l1 -> expands h r l2 ->
    expands h (RL b :: r) (l1 ++ l2).

(** The length of an element: its parameter L (in any capitalisation), or nothing. *)
Definition length_is (h : heap) (e : nat) (v : R) : Prop := exists el,
  element_at h e = Some el /\
  ((exists k, same_name k "L" /\ In (k, VNum v) (e_params el)) \/
   ((forall k w, In (k, w) (e_params el) -> ~ same_name k "L") /\ v = 0)).
Definition total (l : list R) : R := fold_right Rplus 0 l.

(** The first occurrence splits the list. *)
Definition before_first {A} (e : A) (l before : list A) : Prop :=
  exists after, l = before ++ e :: after /\ ~ In e before.

(** What the user sees of a beamline: names, types and parameters, nested. *)
Inductive tree := TE (name ty : string) (ps : params) | TL (l : list tree).
Inductive looks (h : heap) : list ref -> list tree -> Prop :=
| k_nil : looks h [] []
| k_elem : forall e el r t, element_at h e = Some el -> looks h r t ->
    looks h (RE e :: r) (TE (e_name el) (e_type el) (e_params el) :: t)
| k_line : forall b s r t1 t2, sequence h b = Some s -> looks h s t1 -> looks h r t2 ->
    looks h (RL b :: r) (TL t1 :: t2).

(** Two heaps in which everything but the parameters of elements is the same. *)
Definition same_but_params (h h' : heap) : Prop :=
  lines h' = lines h /\ List.length (elems h') = List.length (elems h) /\
  forall e el, element_at h e = Some el -> exists el', element_at h' e = Some el' /\
    e_name el' = e_name el /\ e_type el' = e_type el /\ e_line el' = e_line el.

(** The same values under every name. *)
Definition reads (p : params) (k : string) (v : option value) : Prop := agn_get p k = v.

(** A beamline lies inside another; the top-level beamline lies in no other. *)
Inductive inside (h : heap) : nat -> nat -> Prop :=
| in_self : forall a s, sequence h a = Some s -> inside h a a
| in_up : forall a p s t, sequence h p = Some s -> In (RL a) s -> inside h p t -> inside h a t.
Definition top_of (h : heap) (a t : nat) : Prop :=
  inside h a t /\ forall p s, sequence h p = Some s -> ~ In (RL t) s.

(** Numbers of the symplectic form of two transverse planes. *)
Definition form (i j : nat) : R :=
  match i, j with 0, 1 | 2, 3 => 1%R | 1, 0 | 3, 2 => (-1)%R | _, _ => 0%R end%nat.
Definition symplectic (M : mat) : Prop := forall i j, (i < 4)%nat -> (j < 4)%nat ->
  sum4 (fun k => sum4 (fun l => M k i * form k l * M l j)) = form i j.

(** The motion x'' = - k x, y'' = k y over a length l, by its differential equation: [M] is where
    a curve of matrices that starts at the identity and follows the equation arrives. *)
Definition hill (k : R) (i j : nat) : R :=
  match i, j with 0, 1 | 2, 3 => 1%R | 1, 0 => (- k)%R | 3, 2 => k | _, _ => 0%R end%nat.
Definition transports (k l : R) (M : mat) : Prop := exists curve : R -> mat,
  (forall i j, (i < 4)%nat -> (j < 4)%nat -> curve 0 i j = if Nat.eqb i j then 1 else 0) /\
  (forall i j, (i < 4)%nat -> (j < 4)%nat -> curve l i j = M i j) /\
  (forall i j s, (i < 4)%nat -> (j < 4)%nat -> derivable_pt_lim (fun s => curve s i j) s (sum4 (fun n => hill k i n * curve s n j))).

(** The product with the first factor rightmost. *)
Fixpoint product (ms : list mat) : mat :=
  match ms with
  | [] => fun i j => if Nat.eqb i j then 1 else 0
  | m :: r => fun i j => sum4 (fun k => product r i k * m k j)
  end.

(** Elements under one name have one type and the same parameters. *)
Definition agree (els : list element) : Prop := forall x y, In x els -> In y els -> e_name x = e_name y ->
  e_type x = e_type y /\ e_params x = e_params y.
(** No parameter is called like a key or an argument of the file format. *)
Definition no_clash (el : element) : Prop := forall k v, In (k, v) (e_params el) ->
  ~ In k ["name"; "type"; "self"; "element_name"; "element_type"]%string.

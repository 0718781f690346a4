(** Model of the getters of single coordinates of rsbeams/rsptcls/RsPhaseSpace6D.py. They return
    views of the array; what is assigned to a view is not modelled. *)
From Coq Require Import List Reals.
From Verif Require Import PyBase Scatter_Model.

(** RsPhaseSpace6D.py 91-92 get_array_x *)
Definition get_array_x (p : phase_space_6d) : res (list R) := row (array_6d p) 0.
(** RsPhaseSpace6D.py 94-95 get_array_xp *)
Definition get_array_xp (p : phase_space_6d) : res (list R) := row (array_6d p) 1.
(** RsPhaseSpace6D.py 97-98 get_array_y *)
Definition get_array_y (p : phase_space_6d) : res (list R) := row (array_6d p) 2.
(** RsPhaseSpace6D.py 100-101 get_array_yp *)
Definition get_array_yp (p : phase_space_6d) : res (list R) := row (array_6d p) 3.
(** RsPhaseSpace6D.py 103-104 get_array_s *)
Definition get_array_s (p : phase_space_6d) : res (list R) := row (array_6d p) 4.
(** RsPhaseSpace6D.py 106-107 get_array_dp *)
Definition get_array_dp (p : phase_space_6d) : res (list R) := row (array_6d p) 5.

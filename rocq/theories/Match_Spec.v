(** Vocabulary for matching a beam to Twiss parameters in place. *)
From Coq Require Import List Reals.
From Verif Require Import PyBase Stats_Model Stats_Spec Twiss_Model.
Import ListNotations.
Open Scope R_scope.

(** Parameters of a real ellipse are there. *)
Definition usable (o : option twiss) : Prop :=
  exists t, o = Some t /\ 0 < tw_beta t /\ 0 <= tw_emit t.

(** What the request for a plane is refused with. *)
Definition refused (o : option twiss) (e : exn) : Prop :=
  match o with
  | None => e = KeyError
  | Some t => (tw_beta t = 0 /\ e = ZeroDivisionError) \/
              (tw_beta t < 0 /\ e = ValueError) \/
              (0 < tw_beta t /\ tw_emit t < 0 /\ e = ValueError)
  end.

(** The rows i and following of the two beams are the same. *)
Definition same_from (i : nat) (b b' : beam) : Prop :=
  forall k, (i <= k < 6)%nat -> row b' k = row b k.

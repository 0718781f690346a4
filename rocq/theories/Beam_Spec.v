(** Vocabulary for the plots of beams, independent of the model. *)
From Coq Require Import List Reals Arith String.
From Verif Require Import PyBase Plot_Spec.
Import ListNotations.
Open Scope R_scope.

(** An image of n rows (from the bottom) with n pixels shows the points: it spans their range, every
    pixel counts the points in its cell, and no point is missing. *)
Definition shows (rows : list (list nat)) (left right bottom top : R) (n : nat) (pts : list (R * R)) : Prop :=
  data_range (map fst pts) left right /\ data_range (map snd pts) bottom top /\
  List.length rows = n /\ Forall (fun row => List.length row = n) rows /\
  (forall i j, (i < n)%nat -> (j < n)%nat ->
     num (fun p => in_bin left ((right - left) / INR n) n i (fst p) /\ in_bin bottom ((top - bottom) / INR n) n j (snd p)) pts (nth i (nth j rows []) 0%nat)) /\
  list_sum (map (@list_sum) rows) = List.length pts.

(** A histogram of n bins: pairs of the centre of a bin and the number of data in it. *)
Definition histogram (l : list (R * R)) (n : nat) (data : list R) : Prop :=
  exists lo hi counts, data_range data lo hi /\ List.length counts = n /\
    l = combine (map (fun i => lo + (INR i + / 2) * ((hi - lo) / INR n)) (seq 0 n)) (map INR counts) /\
    (forall i, (i < n)%nat -> num (in_bin lo ((hi - lo) / INR n) n i) data (nth i counts 0%nat)) /\
    list_sum counts = List.length data.
Definition swapped (l : list (R * R)) : list (R * R) := map (fun p => (snd p, fst p)) l.

(** Deviations from the average *)
Definition deviations (l : list R) : list R := map (fun x => x - average l) l.

(** A current profile of n bins: pairs of the centre of a bin and the charge of its particles per
    time; [q] is the charge of one particle. *)
Definition current (l : list (R * R)) (n : nat) (q : R) (times : list R) : Prop :=
  exists lo hi counts, data_range times lo hi /\ List.length counts = n /\
    l = combine (map (fun i => lo + (INR i + / 2) * ((hi - lo) / INR n)) (seq 0 n)) (map (fun c => q * INR c / ((hi - lo) / INR n)) counts) /\
    (forall i, (i < n)%nat -> num (in_bin lo ((hi - lo) / INR n) n i) times (nth i counts 0%nat)) /\
    list_sum counts = List.length times.

(** The text of a symbol in a figure *)
Definition written (symbol text : string) : Prop := exists l s, symbol = spelled l /\ proper l /\ latex Roman l s /\ text = ("$" ++ s ++ "$")%string.
(** How a quantity is named: by its symbol, or by its description if it has none *)
Definition named (symbol description : res string) (text : string) : Prop :=
  exists s, symbol = Ok s /\ ((s <> ""%string /\ written s text) \/ (s = ""%string /\ description = Ok text)).
Definition measured (units : res string) (text : string) : Prop :=
  exists u, units = Ok u /\ ((u <> ""%string /\ written u text) \/ (u = ""%string /\ text = "$-$"%string)).

(** Texts between commas *)
Definition comma_separated (l : list string) (t : string) : Prop :=
  match l with [] => t = ""%string | a :: r => t = fold_left (fun acc b => (acc ++ "," ++ b)%string) r a end.

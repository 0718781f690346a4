(** Theorems about calc_min6d and calc_max6d of rsbeams/rsstats/stats6d.py (property C113). *)
From Coq Require Import List Reals Lra Lia Arith Permutation.
From Verif Require Import PyBase Stats_Model Stats_Spec Stats_Proofs Stats_Props Extremes_Model.
Import ListNotations.
Open Scope R_scope.

(** the least and the greatest of a list *)
Definition least (l : list R) (m : R) : Prop := In m l /\ forall x, In x l -> m <= x.
Definition greatest (l : list R) (m : R) : Prop := In m l /\ forall x, In x l -> x <= m.

Lemma fold_min_least : forall l x, least (x :: l) (fold_left Rmin l x).
Proof.
  induction l as [|y l IH]; intros x; cbn [fold_left].
  - split; [now left|]. intros z [->|[]]. lra.
  - destruct (IH (Rmin x y)) as [I L]. split.
    + destruct I as [I|I]; [|right; now right]. rewrite <- I. unfold Rmin. destruct (Rle_dec x y); [now left|right; now left].
    + pose proof (Rmin_l x y). pose proof (Rmin_r x y). pose proof (L _ (or_introl eq_refl)). intros z [->|[->|Z]]; [lra|lra|apply L; now right].
Qed.
Lemma fold_max_greatest : forall l x, greatest (x :: l) (fold_left Rmax l x).
Proof.
  induction l as [|y l IH]; intros x; cbn [fold_left].
  - split; [now left|]. intros z [->|[]]. lra.
  - destruct (IH (Rmax x y)) as [I L]. split.
    + destruct I as [I|I]; [|right; now right]. rewrite <- I. unfold Rmax. destruct (Rle_dec x y); [right; now left|now left].
    + pose proof (Rmax_l x y). pose proof (Rmax_r x y). pose proof (L _ (or_introl eq_refl)). intros z [->|[->|Z]]; [lra|lra|apply L; now right].
Qed.
Lemma along_all : forall f (P : list R -> R -> Prop) N b, (forall row, length row = N -> exists m, f row = Ok m /\ P row m) -> Forall (fun row => length row = N) b ->
  exists ms, along_rows f b = Ok ms /\ Forall2 P b ms.
Proof.
  intros f P N b H F. induction F as [|row b L F [ms [E G]]]; [exists []; split; [reflexivity|constructor]|]. destruct (H row L) as [m [E1 P1]]. exists (m :: ms). cbn [along_rows]. rewrite E1. cbn [rbind]. rewrite E. cbn [rbind]. split; [reflexivity|now constructor].
Qed.
Lemma forall2_nth : forall (P : list R -> R -> Prop) b ms i, Forall2 P b ms -> (i < length b)%nat -> P (row b i) (nth i ms 0).
Proof. intros P b ms i F. revert i. unfold row. induction F as [|r m b ms H F IH]; intros [|i] L; cbn in *; try lia; [assumption|]. apply IH. lia. Qed.

(* ------------------------------------------------------------------ *)
(** ** C113 Extremes of a beam.
    For a beam of at least one particle calc_min6d and calc_max6d return, for each of the six
    coordinates, the least and the greatest value among the particles; the answer does not depend on
    their order, the mean lies between, and after sub_avg6d zero does. An empty beam raises. *)
Theorem C113_min : forall N b, is_beam N b -> (0 < N)%nat ->
  exists ms, calc_min6d b = Ok ms /\ length ms = 6%nat /\ forall i, (i < 6)%nat -> least (row b i) (nth i ms 0).
Proof.
  intros N b [L F] N0. destruct (along_all min_row least N b) as [ms [E G]]; [|assumption|].
  - intros [|x xs] LR; [cbn in LR; lia|]. eexists. split; [reflexivity|apply fold_min_least].
  - exists ms. split; [exact E|]. rewrite <- L at 1. split; [clear - G; induction G; cbn; congruence|]. intros i I. apply forall2_nth; [assumption|lia].
Qed.
Print Assumptions C113_min.
Theorem C113_max : forall N b, is_beam N b -> (0 < N)%nat ->
  exists ms, calc_max6d b = Ok ms /\ length ms = 6%nat /\ forall i, (i < 6)%nat -> greatest (row b i) (nth i ms 0).
Proof.
  intros N b [L F] N0. destruct (along_all max_row greatest N b) as [ms [E G]]; [|assumption|].
  - intros [|x xs] LR; [cbn in LR; lia|]. eexists. split; [reflexivity|apply fold_max_greatest].
  - exists ms. split; [exact E|]. rewrite <- L at 1. split; [clear - G; induction G; cbn; congruence|]. intros i I. apply forall2_nth; [assumption|lia].
Qed.
Print Assumptions C113_max.
Theorem C113_empty : forall b, is_beam 0 b -> calc_min6d b = Err ValueError /\ calc_max6d b = Err ValueError.
Proof. intros [|r b] [L F]; [discriminate|]. inversion F as [|? ? LR _]; subst. destruct r; [|discriminate]. split; reflexivity. Qed.
Print Assumptions C113_empty.

Lemma least_unique : forall l k m n, (forall x, In x l <-> In x k) -> least l m -> least k n -> m = n.
Proof. intros l k m n H [I A] [J B]. apply Rle_antisym; [apply A|apply B]; now apply H. Qed.
Lemma greatest_unique : forall l k m n, (forall x, In x l <-> In x k) -> greatest l m -> greatest k n -> m = n.
Proof. intros l k m n H [I A] [J B]. apply Rle_antisym; [apply B|apply A]; now apply H. Qed.
Theorem C113_any_order : forall N b b', is_beam N b -> is_beam N b' -> (0 < N)%nat -> (forall i, (i < 6)%nat -> Permutation (row b i) (row b' i)) ->
  calc_min6d b = calc_min6d b' /\ calc_max6d b = calc_max6d b'.
Proof.
  intros N b b' B B' N0 P.
  destruct (C113_min N b B N0) as [m [E [L H]]]. destruct (C113_min N b' B' N0) as [m' [E' [L' H']]]. destruct (C113_max N b B N0) as [q [F [M G]]]. destruct (C113_max N b' B' N0) as [q' [F' [M' G']]].
  assert (X : forall i, (i < 6)%nat -> forall x, In x (row b i) <-> In x (row b' i)).
  { intros i I x. split; apply Permutation_in; [now apply P|]. apply Permutation_sym. now apply P. }
  rewrite E, E', F, F'. split; f_equal; (apply nth_ext with (d := 0) (d' := 0); [congruence|]); intros i I.
  - apply (least_unique (row b i) (row b' i)); [apply X|apply H|apply H']; lia.
  - apply (greatest_unique (row b i) (row b' i)); [apply X|apply G|apply G']; lia.
Qed.
Print Assumptions C113_any_order.

Lemma total_between : forall l m M, (forall x, In x l -> m <= x) -> (forall x, In x l -> x <= M) -> m * INR (length l) <= total l <= M * INR (length l).
Proof.
  induction l as [|x l IH]; intros m M A B; [cbn; lra|]. destruct (IH m M) as [C D]; [intros; apply A; now right|intros; apply B; now right|].
  pose proof (A x (or_introl eq_refl)). pose proof (B x (or_introl eq_refl)). cbn [length total fold_right]. fold (total l). rewrite S_INR. nra.
Qed.
Lemma mean_between : forall l m M, l <> [] -> least l m -> greatest l M -> m <= mean l <= M.
Proof.
  intros l m M N [_ A] [_ B]. destruct (total_between l m M A B) as [C D]. assert (P : 0 < INR (length l)) by (apply lt_0_INR; destruct l; [contradiction|cbn; lia]).
  assert (Q : total l = mean l * INR (length l)) by (unfold mean; field; lra). rewrite Q in *. split; eapply Rmult_le_reg_r; eassumption.
Qed.
Theorem C113_mean_between : forall N b, is_beam N b -> (0 < N)%nat -> exists lo hi, calc_min6d b = Ok lo /\ calc_max6d b = Ok hi /\
  forall i, (i < 6)%nat -> exists a, nth i (calc_avg6d b) None = Some a /\ nth i lo 0 <= a <= nth i hi 0.
Proof.
  intros N b B N0. destruct (C113_min N b B N0) as [lo [E [_ H]]]. destruct (C113_max N b B N0) as [hi [F [_ G]]]. exists lo, hi. split; [exact E|]. split; [exact F|].
  intros i I. exists (mean (row b i)).
  assert (R0 : row b i <> []) by (intros X; pose proof (is_beam_row_len N b i B I) as L; rewrite X in L; cbn in L; lia).
  split; [apply nth_map_mean; [destruct B as [-> _]; exact I|exact (is_beam_nonempty N b B N0)]|]. apply mean_between; [assumption|now apply H|now apply G].
Qed.
Print Assumptions C113_mean_between.
Theorem C113_centred : forall N b, is_beam N b -> (0 < N)%nat -> exists lo hi, calc_min6d (sub_avg6d b) = Ok lo /\ calc_max6d (sub_avg6d b) = Ok hi /\
  forall i, (i < 6)%nat -> nth i lo 0 <= 0 <= nth i hi 0.
Proof.
  intros N b B N0. destruct (C09_sub_avg N b B N0) as [B' Z]. destruct (C113_min N _ B' N0) as [lo [E [_ H]]]. destruct (C113_max N _ B' N0) as [hi [F [_ G]]]. exists lo, hi. split; [exact E|]. split; [exact F|].
  intros i I. destruct (Z i I) as [M _]. pose proof (mean_between (row (sub_avg6d b) i) (nth i lo 0) (nth i hi 0)) as K. rewrite M in K. apply K; [|now apply H|now apply G]. intros X. pose proof (is_beam_row_len N _ i B' I) as L. rewrite X in L. cbn in L. lia.
Qed.
Print Assumptions C113_centred.
Example C113_applies : exists lo, calc_min6d [[1; 2]; [7; 3]; [0; 0]; [0; 0]; [0; 0]; [5; 6]] = Ok lo /\ nth 1 lo 0 = 3.
Proof.
  destruct (C113_min 2 [[1; 2]; [7; 3]; [0; 0]; [0; 0]; [0; 0]; [5; 6]]) as [lo [E [_ H]]]; [split; [reflexivity|repeat constructor]|lia|]. exists lo. split; [exact E|].
  destruct (H 1%nat) as [[I|[I|[]]] L]; [lia| |]; [exfalso|]; pose proof (L 3 (or_intror (or_introl eq_refl))); lra.
Qed.

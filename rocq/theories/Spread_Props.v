(** C118: averages and spreads of a beam under shifts, scales and other orders of the particles
    (rsbeams/rsstats/stats6d.py). *)
From Coq Require Import List Reals Lra Lia Psatz Arith Permutation.
From Verif Require Import PyBase Stats_Model Stats_Spec Stats_Proofs Stats_Props Extremes_Model Extremes_Props.
Import ListNotations.
Open Scope R_scope.

(** The answers of the three functions for a beam *)
Definition averages (b : beam) (a : nat -> R) : Prop := length (calc_avg6d b) = 6%nat /\ forall i, (i < 6)%nat -> nth i (calc_avg6d b) None = Some (a i).
Definition variances (b : beam) (v : nat -> R) : Prop := exists b' l, calc_variance6d b = Ok (b', l) /\ length l = 6%nat /\ forall i, (i < 6)%nat -> nth i l 0 = v i.
Definition spreads (b : beam) (s : nat -> R) : Prop := exists b' l, calc_rms6d b = Ok (b', l) /\ length l = 6%nat /\ forall i, (i < 6)%nat -> nth i l 0 = s i.
(** [b'] is [b] with coordinate i multiplied by [s i] and then shifted by [o i], for every particle *)
Definition moved (s o : nat -> R) (b b' : beam) : Prop := forall i, (i < 6)%nat -> row b' i = map (fun x => s i * x + o i) (row b i).

Lemma answers : forall N b, is_beam N b -> (0 < N)%nat ->
  averages b (fun i => mean (row b i)) /\ variances b (fun i => variance (row b i)) /\ spreads b (fun i => sqrt (variance (row b i))).
Proof.
  intros N b B N0. assert (L : length b = 6%nat) by apply B. pose proof (is_beam_nonempty N b B N0) as Ne. refine (conj _ (conj _ _)).
  - split; [unfold calc_avg6d; rewrite map_length; exact L|]. intros i I. apply nth_map_mean; [lia|exact Ne].
  - destruct (C07_variance N b B N0) as (b' & E). exists b', (map variance b). split; [exact E|]. split; [rewrite map_length; exact L|].
    intros i I. unfold row. rewrite nth_indep with (d' := variance []) by (rewrite map_length; lia). apply map_nth.
  - destruct (C07_rms N b B N0) as (b' & E). exists b', (map (fun r => sqrt (variance r)) b). split; [exact E|]. split; [rewrite map_length; exact L|].
    intros i I. unfold row. rewrite nth_indep with (d' := sqrt (variance [])) by (rewrite map_length; lia). apply (map_nth (fun r => sqrt (variance r))).
Qed.
Lemma averages_same : forall b a a', averages b a -> (forall i, (i < 6)%nat -> a i = a' i) -> averages b a'.
Proof. intros b a a' [L H] E. split; [exact L|]. intros i I. rewrite H, E by exact I. reflexivity. Qed.
Lemma variances_same : forall b v v', variances b v -> (forall i, (i < 6)%nat -> v i = v' i) -> variances b v'.
Proof. intros b v v' (b' & l & E & L & H) Q. exists b', l. refine (conj E (conj L _)). intros i I. rewrite H, Q by exact I. reflexivity. Qed.
Lemma spreads_same : forall b v v', spreads b v -> (forall i, (i < 6)%nat -> v i = v' i) -> spreads b v'.
Proof. intros b v v' (b' & l & E & L & H) Q. exists b', l. refine (conj E (conj L _)). intros i I. rewrite H, Q by exact I. reflexivity. Qed.

Lemma mean_affine : forall s o l, l <> [] -> mean (map (fun x => s * x + o) l) = s * mean l + o.
Proof.
  intros s o l N. unfold mean. rewrite map_length. pose proof (INR_len_pos l N) as P.
  assert (T : total (map (fun x => s * x + o) l) = s * total l + INR (length l) * o).
  { clear. induction l as [|x l IH]; [cbn; lra|]. cbn [map total fold_right] in *. change (fold_right Rplus 0 (map (fun x => s * x + o) l)) with (total (map (fun x => s * x + o) l)). rewrite IH.
    change (fold_right Rplus 0 l) with (total l). change (length (x :: l)) with (S (length l)). rewrite S_INR. unfold total. lra. }
  rewrite T. field. lra.
Qed.
Lemma variance_affine : forall s o l, l <> [] -> variance (map (fun x => s * x + o) l) = s ^ 2 * variance l.
Proof.
  intros s o l N. unfold variance. rewrite mean_affine by exact N. rewrite map_length, map_map.
  assert (T : total (map (fun x => (s * x + o - (s * mean l + o)) ^ 2) l) = s ^ 2 * total (map (fun x => (x - mean l) ^ 2) l)).
  { generalize (mean l). intros m. clear. induction l as [|x l IH]; [cbn; lra|]. cbn [map]. rewrite !total_cons, IH. ring. }
  rewrite T. unfold Rdiv. ring.
Qed.
Lemma row_nonempty : forall N b i, is_beam N b -> (0 < N)%nat -> (i < 6)%nat -> row b i <> [].
Proof. intros N b i B N0 I E. pose proof (is_beam_row_len N b i B I) as L. rewrite E in L. cbn in L. lia. Qed.

(** Other units or another origin: averages go along, spreads are multiplied by the size of the unit. *)
Theorem C118_moved : forall N b b' s o a v r, is_beam N b -> is_beam N b' -> (0 < N)%nat -> moved s o b b' ->
  averages b a -> variances b v -> spreads b r ->
  averages b' (fun i => s i * a i + o i) /\ variances b' (fun i => s i ^ 2 * v i) /\ spreads b' (fun i => Rabs (s i) * r i).
Proof.
  intros N b b' s o a v r B B' N0 M Ha Hv Hr. destruct (answers N b B N0) as (A1 & V1 & R1). destruct (answers N b' B' N0) as (A2 & V2 & R2).
  assert (Ea : forall i, (i < 6)%nat -> a i = mean (row b i)). { intros i I. destruct Ha as [_ Ha]. destruct A1 as [_ A1]. specialize (Ha i I). rewrite (A1 i I) in Ha. injection Ha as <-. reflexivity. }
  assert (Ev : forall i, (i < 6)%nat -> v i = variance (row b i)). { intros i I. destruct Hv as (x & l & E & _ & H). destruct V1 as (y & l' & E' & _ & H'). rewrite E in E'. injection E' as <- <-. rewrite <- H, <- H' by exact I. reflexivity. }
  assert (Er : forall i, (i < 6)%nat -> r i = sqrt (variance (row b i))). { intros i I. destruct Hr as (x & l & E & _ & H). destruct R1 as (y & l' & E' & _ & H'). rewrite E in E'. injection E' as <- <-. rewrite <- H, <- H' by exact I. reflexivity. }
  refine (conj (averages_same _ _ _ A2 _) (conj (variances_same _ _ _ V2 _) (spreads_same _ _ _ R2 _))); intros i I; cbv beta; pose proof (row_nonempty N b i B N0 I) as Ne.
  - rewrite M by exact I. rewrite mean_affine, Ea by assumption. reflexivity.
  - rewrite M by exact I. rewrite variance_affine, Ev by assumption. reflexivity.
  - rewrite M by exact I. rewrite variance_affine, Er by assumption. rewrite sqrt_mult; [|apply pow2_ge_0|apply variance_nonneg]. f_equal. replace (s i ^ 2) with (Rsqr (s i)) by (unfold Rsqr; ring). apply sqrt_Rsqr_abs.
Qed.
Print Assumptions C118_moved.

Lemma total_perm : forall l k, Permutation l k -> total l = total k.
Proof. intros l k P. induction P; rewrite ?total_cons in *; try lra. Qed.
Lemma mean_perm : forall l k, Permutation l k -> mean l = mean k.
Proof. intros l k P. unfold mean. rewrite (total_perm _ _ P), (Permutation_length P). reflexivity. Qed.
Lemma variance_perm : forall l k, Permutation l k -> variance l = variance k.
Proof. intros l k P. unfold variance. rewrite (mean_perm _ _ P), (Permutation_length P). f_equal. apply total_perm. apply Permutation_map. exact P. Qed.

(** The order of the particles does not matter. *)
Theorem C118_any_order : forall N b b' a v r, is_beam N b -> is_beam N b' -> (0 < N)%nat -> (forall i, (i < 6)%nat -> Permutation (row b i) (row b' i)) ->
  (averages b a <-> averages b' a) /\ (variances b v <-> variances b' v) /\ (spreads b r <-> spreads b' r).
Proof.
  assert (H : forall N b b' a v r, is_beam N b -> is_beam N b' -> (0 < N)%nat -> (forall i, (i < 6)%nat -> Permutation (row b i) (row b' i)) ->
    (averages b a -> averages b' a) /\ (variances b v -> variances b' v) /\ (spreads b r -> spreads b' r)).
  { intros N b b' a v r B B' N0 P. destruct (answers N b B N0) as (A1 & V1 & R1). destruct (answers N b' B' N0) as (A2 & V2 & R2). refine (conj _ (conj _ _)).
    - intros Ha. apply (averages_same _ _ _ A2). intros i I. rewrite <- (mean_perm _ _ (P i I)). destruct Ha as [_ Ha]. destruct A1 as [_ A1]. specialize (Ha i I). rewrite (A1 i I) in Ha. injection Ha as <-. reflexivity.
    - intros (x & l & E & _ & H). apply (variances_same _ _ _ V2). intros i I. rewrite <- (variance_perm _ _ (P i I)). destruct V1 as (y & l' & E' & _ & H'). rewrite E in E'. injection E' as <- <-. rewrite <- H, <- H' by exact I. reflexivity.
    - intros (x & l & E & _ & H). apply (spreads_same _ _ _ R2). intros i I. cbv beta. rewrite <- (variance_perm _ _ (P i I)). destruct R1 as (y & l' & E' & _ & H'). rewrite E in E'. injection E' as <- <-. rewrite <- H, <- H' by exact I. reflexivity. }
  intros N b b' a v r B B' N0 P. assert (P' : forall i, (i < 6)%nat -> Permutation (row b' i) (row b i)) by (intros i I; apply Permutation_sym, P, I).
  destruct (H N b b' a v r B B' N0 P) as (X & Y & Z). destruct (H N b' b a v r B' B N0 P') as (X' & Y' & Z'). tauto.
Qed.
Print Assumptions C118_any_order.

Lemma total_zero : forall {A} (f : A -> R) l, (forall x, 0 <= f x) -> total (map f l) = 0 -> forall x, In x l -> f x = 0.
Proof.
  intros A f l P. induction l as [|y l IH]; intros T x I; [destruct I|]. cbn [map] in T. rewrite total_cons in T.
  pose proof (total_nonneg f l (fun z _ => P z)) as N. pose proof (P y) as Py. destruct I as [<-|I]; [lra|]. apply IH; [lra|exact I].
Qed.
Lemma variance_zero : forall l, l <> [] -> (variance l = 0 <-> forall x y, In x l -> In y l -> x = y).
Proof.
  intros l N. pose proof (INR_len_pos l N) as P. split.
  - intros V. assert (T : total (map (fun x => (x - mean l) ^ 2) l) = 0) by (unfold variance in V; apply (Rmult_eq_reg_r (/ INR (length l))); [unfold Rdiv in V; lra|apply Rinv_neq_0_compat; lra]).
    assert (Z : forall x, In x l -> x = mean l). { intros x I. pose proof (total_zero (fun x => (x - mean l) ^ 2) l (fun z => pow2_ge_0 _) T x I) as H. cbv beta in H. nra. }
    intros x y X Y. rewrite (Z x X), (Z y Y). reflexivity.
  - intros H. destruct l as [|x l]; [contradiction|]. assert (A : forall y, In y (x :: l) -> y = x) by (intros y I; apply H; [exact I|left; reflexivity]). clear H.
    assert (M : mean (x :: l) = x).
    { unfold mean. assert (T : total (x :: l) = INR (length (x :: l)) * x). { revert A. generalize (x :: l). intros k A. induction k as [|z k IH]; [cbn; lra|]. rewrite total_cons. change (length (z :: k)) with (S (length k)). rewrite S_INR, IH by (intros y I; apply A; right; exact I). rewrite (A z (or_introl eq_refl)). lra. }
      rewrite T. field. lra. }
    unfold variance. rewrite M. assert (T : total (map (fun y => (y - x) ^ 2) (x :: l)) = 0).
    { revert A. generalize (x :: l). intros k A. induction k as [|z k IH]; [reflexivity|]. cbn [map]. rewrite total_cons, IH by (intros y I; apply A; right; exact I). rewrite (A z (or_introl eq_refl)). lra. }
    rewrite T. unfold Rdiv. ring.
Qed.
(** A spread is zero exactly when all particles agree in the coordinate, and never negative. *)
Theorem C118_zero : forall N b r i, is_beam N b -> (0 < N)%nat -> spreads b r -> (i < 6)%nat ->
  0 <= r i /\ (r i = 0 <-> forall x y, In x (row b i) -> In y (row b i) -> x = y).
Proof.
  intros N b r i B N0 (x & l & E & _ & H) I. destruct (answers N b B N0) as (_ & _ & (y & l' & E' & _ & H')). rewrite E in E'. injection E' as <- <-. rewrite <- H, H' by exact I.
  split; [apply sqrt_pos|]. rewrite <- variance_zero by (apply (row_nonempty N); assumption). pose proof (variance_nonneg (row b i)) as V. split; intros Z.
  - apply sqrt_eq_0; assumption.
  - rewrite Z. apply sqrt_0.
Qed.
Print Assumptions C118_zero.

Lemma variance_extent : forall l lo hi, l <> [] -> (forall x, In x l -> lo <= x <= hi) -> variance l <= ((hi - lo) / 2) ^ 2.
Proof.
  intros l lo hi N H. pose proof (INR_len_pos l N) as P.
  assert (V : total (map (fun x => (x - mean l) ^ 2) l) = total (map (fun x => (x - mean l) ^ 2 + (x - mean l) * (2 * mean l - lo - hi)) l)).
  { rewrite total_map_plus. assert (Z : total (map (fun x => (x - mean l) * (2 * mean l - lo - hi)) l) = 0).
    { assert (S0 : forall m k (q : list R), total (map (fun x => (x - m) * k) q) = (total q - INR (length q) * m) * k).
      { clear. intros m k q. induction q as [|x q IH]; [cbn; lra|]. cbn [map]. rewrite !total_cons, IH. change (length (x :: q)) with (S (length q)). rewrite S_INR. ring. }
      rewrite S0. unfold mean at 1. field. lra. }
    rewrite Z. lra. }
  assert (U : forall q m, (forall x, In x q -> lo <= x <= hi) -> total (map (fun x => (x - m) ^ 2 + (x - m) * (2 * m - lo - hi)) q) <= INR (length q) * ((hi - lo) / 2) ^ 2).
  { clear. intros q m H. induction q as [|x q IH]; [cbn; lra|]. cbn [map]. rewrite total_cons. change (length (x :: q)) with (S (length q)). rewrite S_INR.
    specialize (IH (fun y I => H y (or_intror I))). pose proof (H x (or_introl eq_refl)) as [A1 A2]. 
    assert (X : (x - m) ^ 2 + (x - m) * (2 * m - lo - hi) <= ((hi - lo) / 2) ^ 2).
    { assert (0 <= (x - lo) * (hi - x)) by (apply Rmult_le_pos; lra). assert (0 <= (m - (lo + hi) / 2) ^ 2) by apply pow2_ge_0. nra. }
    lra. }
  unfold variance. rewrite V. specialize (U l (mean l) H). apply (Rmult_le_reg_l (INR (length l))); [exact P|]. replace (INR (length l) * (total (map (fun x => (x - mean l) ^ 2 + (x - mean l) * (2 * mean l - lo - hi)) l) / INR (length l))) with (total (map (fun x => (x - mean l) ^ 2 + (x - mean l) * (2 * mean l - lo - hi)) l)) by (field; lra). exact U.
Qed.
(** A spread is at most half the extent of the beam. *)
Theorem C118_extent : forall N b r lo hi i, is_beam N b -> (0 < N)%nat -> spreads b r -> calc_min6d b = Ok lo -> calc_max6d b = Ok hi -> (i < 6)%nat ->
  r i <= (nth i hi 0 - nth i lo 0) / 2.
Proof.
  intros N b r lo hi i B N0 (x & l & E & _ & H) El Eh I. destruct (answers N b B N0) as (_ & _ & (y & l' & E' & _ & H')). rewrite E in E'. injection E' as <- <-. rewrite <- H, H' by exact I.
  destruct (C113_min N b B N0) as (lo' & El' & _ & Ml). rewrite El in El'. injection El' as <-. destruct (C113_max N b B N0) as (hi' & Eh' & _ & Mh). rewrite Eh in Eh'. injection Eh' as <-.
  destruct (Ml i I) as [Il Al]. destruct (Mh i I) as [Ih Ah].
  assert (D : 0 <= (nth i hi 0 - nth i lo 0) / 2) by (specialize (Al _ Ih); lra).
  rewrite <- (sqrt_pow2 _ D). apply sqrt_le_1; [apply variance_nonneg|apply pow2_ge_0|]. apply variance_extent; [apply (row_nonempty N); assumption|]. intros z Z. split; [apply Al|apply Ah]; exact Z.
Qed.
Print Assumptions C118_extent.

(** The hypotheses hold for a beam of three particles in other units and another order. *)
Definition three : beam := [[1; 2; 6]; [0; 0; 0]; [3; 4; 5]; [1; 1; 2]; [0; 1; 0]; [7; 7; 7]].
Definition three_moved : beam := map (map (fun x => -2 * x + 1)) three.
Definition three_turned : beam := map (@rev R) three.
Example C118_applies : is_beam 3 three /\ is_beam 3 three_moved /\ is_beam 3 three_turned /\ moved (fun _ => -2) (fun _ => 1) three three_moved /\
  (forall i, (i < 6)%nat -> Permutation (row three i) (row three_turned i)) /\ exists a v r, averages three a /\ variances three v /\ spreads three r /\ a 0%nat = 3 /\ v 0%nat = 14 / 3.
Proof.
  assert (B : is_beam 3 three) by (split; [reflexivity|repeat constructor]).
  refine (conj B (conj _ (conj _ (conj _ (conj _ _))))); [split; [reflexivity|repeat constructor]|split; [reflexivity|repeat constructor]| | |].
  - intros i I. do 6 (destruct i as [|i]; [reflexivity|]). lia.
  - intros i I. do 6 (destruct i as [|i]; [apply Permutation_rev|]). lia.
  - destruct (answers 3 three B ltac:(lia)) as (A & V & R0). do 3 eexists. refine (conj A (conj V (conj R0 _))). cbv [row three nth mean variance total length map fold_right INR]. split; lra.
Qed.

(** Theorems about rsbeams/rsstats/stats6d.py (properties C07-C14). *)
From Coq Require Import List Reals Lra Lia Bool Arith ZArith.
From Verif Require Import PyBase Stats_Model Stats_Spec Stats_Proofs Jacobi_Proofs Decor_Proofs SigFig_Proofs.
Import ListNotations.
Open Scope R_scope.

(** Two small beams used in the examples.  In [skew] the first particle is away from the
    centroid, in [quiet] it sits on it. *)
Definition skew : beam :=
  [[2; -1; -1]; [1; 1; -2]; [0; 0; 0]; [0; 0; 0]; [0; 0; 0]; [0; 0; 0]].
Definition quiet : beam :=
  [[0; 2; -2; 1; -1]; [0; 1; -1; 2; -2]; [0; 0; 0; 0; 0]; [0; 0; 0; 0; 0];
   [0; 0; 0; 0; 0]; [0; 0; 0; 0; 0]].

Lemma skew_beam : is_beam 3 skew.
Proof. split; [reflexivity|]. repeat constructor. Qed.
Lemma quiet_beam : is_beam 5 quiet.
Proof. split; [reflexivity|]. repeat constructor. Qed.

Ltac row_calc := unfold variance, covariance, mean; cbn [length map total fold_right combine fst snd INR]; try field; try lra.

Lemma quiet_centred : first_on_centroid quiet.
Proof. intros r [<-|[<-|[<-|[<-|[<-|[<-|[]]]]]]]; row_calc. Qed.

(** ---------------- C07 ---------------- *)
Theorem C07_variance : forall N b, is_beam N b -> (0 < N)%nat ->
  exists b', calc_variance6d b = Ok (b', map variance b).
Proof.
  intros N b Hb HN. eexists. apply calc_variance6d_spec. exact (is_beam_nonempty N b Hb HN).
Qed.
Print Assumptions C07_variance.

Theorem C07_rms : forall N b, is_beam N b -> (0 < N)%nat ->
  exists b', calc_rms6d b = Ok (b', map (fun r => sqrt (variance r)) b).
Proof.
  intros N b Hb HN. unfold calc_rms6d. rewrite calc_variance6d_spec by exact (is_beam_nonempty N b Hb HN).
  eexists. cbn [rbind fst snd]. rewrite map_map. reflexivity.
Qed.
Print Assumptions C07_rms.

Example C07_applies : exists b' rest, calc_variance6d skew = Ok (b', 2 :: 2 :: rest).
Proof.
  destruct (C07_variance 3 skew skew_beam ltac:(lia)) as [b' H]. rewrite H. exists b'. eexists.
  unfold skew. cbn [map]. do 4 f_equal; [|f_equal]; row_calc.
Qed.

(** An array without particles is refused. *)
Theorem C07_empty : forall b, is_beam 0 b -> calc_variance6d b = Err IndexError.
Proof.
  intros b [Hl Hf]. destruct b as [|r b]; [discriminate|]. inversion Hf; subst.
  destruct r; [reflexivity|discriminate].
Qed.
Print Assumptions C07_empty.

(** ---------------- C08 ---------------- *)
(** What really happens to the array: the first particle is moved to the centroid, by
    each of the three functions. *)
Theorem C08_array_afterwards_partial : forall N b, is_beam N b -> (0 < N)%nat ->
  (exists v, calc_variance6d b = Ok (recentre_first b, v)) /\
  (exists v, calc_rms6d b = Ok (recentre_first b, v)) /\
  (exists m, calc_correlations6d b = Ok (recentre_first b, m)) /\
  (recentre_first b = b <-> first_on_centroid b).
Proof.
  intros N b Hb HN. pose proof (is_beam_nonempty N b Hb HN) as Hne.
  split; [eexists; apply calc_variance6d_spec; exact Hne|].
  split; [eexists; unfold calc_rms6d; rewrite calc_variance6d_spec by exact Hne; reflexivity|].
  split; [destruct (correlations_spec N b Hb HN) as (m & E & _); exists m; exact E|].
  split; [|apply recentre_id; exact Hne].
  intros E r Hr. destruct r as [|x r]; [exact I|].
  clear Hb. unfold recentre_first in E. induction b as [|r0 b IH]; [destruct Hr|].
  cbn [map] in E. inversion E as [[E1 E2]]. destruct Hr as [->|Hr].
  - inversion E1 as [E3]. congruence.
  - inversion Hne; subst. apply IH; try assumption.
Qed.
Print Assumptions C08_array_afterwards_partial.

(** Asking for the variance a second time gives a smaller answer, by exactly this much. *)
Theorem C08_second_answer_partial : forall N b, is_beam N b -> (0 < N)%nat ->
  exists b1 b2, calc_variance6d b = Ok (b1, map variance b) /\
    calc_variance6d b1 = Ok (b2, map (fun r => variance r -
        (1 / INR N + 1 / INR N ^ 2) * (hd 0 r - mean r) ^ 2) b).
Proof.
  intros N b Hb HN. pose proof (is_beam_nonempty N b Hb HN) as Hne.
  exists (recentre_first b). eexists. split; [apply calc_variance6d_spec; exact Hne|].
  rewrite calc_variance6d_spec.
  - f_equal. f_equal. unfold recentre_first. rewrite map_map. apply map_ext_in. intros r Hr.
    destruct r as [|x r].
    + rewrite Forall_forall in Hne. exfalso. apply (Hne _ Hr). reflexivity.
    + rewrite variance_recentred. destruct Hb as [_ Hf]. rewrite Forall_forall in Hf.
      rewrite (Hf _ Hr). reflexivity.
  - unfold recentre_first. apply Forall_map. eapply Forall_impl; [|exact Hne]. intros [|x r] H; [exact H|discriminate].
Qed.
Print Assumptions C08_second_answer_partial.

Example C08_applies : first_on_centroid quiet /\ exists m, calc_correlations6d quiet = Ok (quiet, m).
Proof.
  split; [exact quiet_centred|].
  destruct (C08_array_afterwards_partial 5 quiet quiet_beam ltac:(lia)) as (_ & _ & [m E] & I).
  exists m. rewrite (proj2 I quiet_centred) in E. exact E.
Qed.

Theorem C08_beam_unchanged_refuted : exists b b1 v1 b2 v2, is_beam 3 b /\
  calc_variance6d b = Ok (b1, v1) /\ b1 <> b /\
  calc_variance6d b1 = Ok (b2, v2) /\ v2 <> v1.
Proof.
  destruct (C08_second_answer_partial 3 skew skew_beam ltac:(lia)) as (b1 & b2 & E1 & E2).
  exists skew, b1. eexists. exists b2. eexists. split; [exact skew_beam|]. split; [exact E1|].
  split; [|split; [exact E2|]].
  - intro E. rewrite E in E1. rewrite calc_variance6d_spec in E1
      by exact (is_beam_nonempty 3 skew skew_beam ltac:(lia)).
    assert (H : recentre_first skew = skew) by congruence.
    unfold recentre_first, skew in H. cbn [map] in H. inversion H as [[H1 H2]].
    revert H1. row_calc.
  - unfold skew. cbn [map]. intro H. inversion H as [[H1 H2]]. revert H1. cbn [hd INR].
    unfold variance, mean. cbn [length map total fold_right INR]. lra.
Qed.
Print Assumptions C08_beam_unchanged_refuted.

(** ---------------- C09 ---------------- *)
Theorem C09_sub_avg : forall N b, is_beam N b -> (0 < N)%nat ->
  is_beam N (sub_avg6d b) /\
  forall i, (i < 6)%nat ->
    mean (row (sub_avg6d b) i) = 0 /\
    forall k l, (k < N)%nat -> (l < N)%nat ->
      nth k (row (sub_avg6d b) i) 0 - nth l (row (sub_avg6d b) i) 0 =
      nth k (row b i) 0 - nth l (row b i) 0.
Proof.
  intros N b Hb HN. pose proof (is_beam_nonempty N b Hb HN) as Hne.
  rewrite sub_avg_spec by exact Hne.
  split.
  - destruct Hb as [Hl Hf]. split; [rewrite map_length; exact Hl|].
    apply Forall_map. eapply Forall_impl; [|exact Hf]. intros r Hr. cbv beta. rewrite map_length. exact Hr.
  - intros i Hi.
    assert (Hrow : row (map (fun r => map (fun x => x - mean r) r) b) i = map (fun x => x - mean (row b i)) (row b i)).
    { unfold row. exact (map_nth (fun r => map (fun x => x - mean r) r) b [] i). }
    rewrite Hrow. pose proof (is_beam_row_len N b i Hb Hi) as L.
    assert (row b i <> []) by (intro E; rewrite E in L; simpl in L; lia).
    split.
    + rewrite mean_sub by assumption. ring.
    + intros k l Hk Hl.
      rewrite (nth_indep _ 0 ((fun x => x - mean (row b i)) 0)) by (rewrite map_length; lia).
      rewrite (map_nth (fun x => x - mean (row b i))).
      rewrite (nth_indep (map _ _) 0 ((fun x => x - mean (row b i)) 0)) by (rewrite map_length; lia).
      rewrite (map_nth (fun x => x - mean (row b i))). ring.
Qed.
Print Assumptions C09_sub_avg.

Example C09_applies : mean (row (sub_avg6d [[1; 2]; [3; 7]; [0; 0]; [0; 0]; [0; 0]; [5; 6]]) 1) = 0.
Proof. apply (C09_sub_avg 2); try lia. split; [reflexivity|repeat constructor]. Qed.

(** ---------------- C10 ---------------- *)
(** The variance that normalize_rms6d really produces. *)
Theorem C10_normalize_partial : forall N b, is_beam N b -> (0 < N)%nat ->
  Forall (fun r => 0 < variance r) b ->
  exists rows, normalize_rms6d b = Ok rows /\ length rows = 6%nat /\
  forall i, (i < 6)%nat -> exists r, nth i rows None = Some r /\
    length r = N /\
    variance r = 1 - (1 / INR N + 1 / INR N ^ 2) * (hd 0 (row b i) - mean (row b i)) ^ 2 / variance (row b i) /\
    (hd 0 (row b i) = mean (row b i) -> variance r = 1).
Proof.
  intros N b Hb HN Hv. pose proof (is_beam_nonempty N b Hb HN) as Hne.
  unfold normalize_rms6d, calc_rms6d. rewrite calc_variance6d_spec by exact Hne. cbn [rbind fst snd].
  rewrite !map_map. eexists. split; [reflexivity|].
  assert (Hgen : forall c, Forall (fun r => r <> []) c -> Forall (fun r => 0 < variance r) c ->
    scale_rows (recentre_first c) (map (fun r => ndiv (Some 1) (Some (sqrt (variance r)))) c) =
    map (fun r => Some (map (fun x => x * (1 / sqrt (variance r)))
           (match r with [] => [] | _ :: xs => mean r :: xs end))) c).
  { induction c as [|r c IH]; intros H1 H2; [reflexivity|]. inversion H1; subst. inversion H2; subst.
    cbn [recentre_first map scale_rows].
    assert (Hs : 0 < sqrt (variance r)) by (apply sqrt_lt_R0; assumption).
    unfold ndiv at 1. cbn [fmap2]. destruct (Req_EM_T (sqrt (variance r)) 0); [lra|].
    fold (recentre_first c). rewrite IH by assumption. reflexivity. }
  rewrite (Hgen b Hne Hv). destruct Hb as [Hl Hf].
  split; [rewrite map_length; exact Hl|].
  intros i Hi. set (g := fun r => Some (map (fun x => x * (1 / sqrt (variance r)))
           (match r with [] => [] | _ :: xs => mean r :: xs end))).
  rewrite (nth_indep (map g b) None (g [])) by (rewrite map_length; lia). rewrite map_nth.
  fold (row b i). eexists. split; [reflexivity|].
  assert (HIn : In (row b i) b) by (apply nth_In; lia).
  rewrite Forall_forall in Hf, Hv, Hne. specialize (Hf _ HIn). specialize (Hv _ HIn). specialize (Hne _ HIn).
  destruct (row b i) as [|x r]; [contradiction|].
  split; [rewrite map_length; exact Hf|].
  assert (HV : variance (map (fun y => y * (1 / sqrt (variance (x :: r)))) (mean (x :: r) :: r)) =
     1 - (1 / INR N + 1 / INR N ^ 2) * (hd 0 (x :: r) - mean (x :: r)) ^ 2 / variance (x :: r)).
  { rewrite variance_scale, variance_recentred. rewrite Hf. cbn [hd].
    set (V := variance (x :: r)) in *.
    assert (Hs : 0 < sqrt V) by (apply sqrt_lt_R0; exact Hv).
    replace ((1 / sqrt V) ^ 2) with (1 / V).
    2:{ rewrite <- (pow2_sqrt V) at 1 by lra. field. lra. }
    assert (0 < INR N) by (apply lt_0_INR; lia). field. split; lra. }
  split; [exact HV|]. intros E. rewrite HV, E. unfold Rdiv. ring.
Qed.
Print Assumptions C10_normalize_partial.

Definition spread6 (r : list R) : beam := [r; r; r; r; r; r].
Lemma spread6_beam : forall r, is_beam (length r) (spread6 r).
Proof. intros. split; [reflexivity|]. repeat constructor. Qed.

Example C10_applies : exists rows r, normalize_rms6d (spread6 [0; 2; -2]) = Ok rows /\
  nth 3 rows None = Some r /\ variance r = 1.
Proof.
  destruct (C10_normalize_partial 3 (spread6 [0; 2; -2]) (spread6_beam _) ltac:(lia)) as (rows & E & _ & H).
  - repeat constructor; row_calc.
  - destruct (H 3%nat ltac:(lia)) as (r & Hr & _ & _ & H1). exists rows, r.
    split; [exact E|]. split; [exact Hr|]. apply H1. cbn [row spread6 nth hd]. row_calc.
Qed.

Theorem C10_unit_rms_refuted : exists b rows r, is_beam 2 b /\
  Forall (fun r => mean r = 0 /\ 0 < variance r) b /\
  normalize_rms6d b = Ok rows /\ nth 0 rows None = Some r /\ variance r = 1 / 4.
Proof.
  assert (Hm : mean [1; -1] = 0) by row_calc.
  assert (Hv : variance [1; -1] = 1) by row_calc.
  destruct (C10_normalize_partial 2 (spread6 [1; -1]) (spread6_beam _) ltac:(lia)) as (rows & E & _ & H).
  - repeat constructor; rewrite Hv; lra.
  - destruct (H 0%nat ltac:(lia)) as (r & Hr & _ & H1 & _). exists (spread6 [1; -1]), rows, r.
    split; [apply spread6_beam|]. split; [repeat constructor; rewrite ?Hm, ?Hv; lra|].
    split; [exact E|]. split; [exact Hr|]. rewrite H1. cbn [row spread6 nth hd]. rewrite Hm, Hv.
    cbn [INR]. field.
Qed.
Print Assumptions C10_unit_rms_refuted.

(** ---------------- C11 ---------------- *)
Theorem C11_correlations_partial : forall N b, is_beam N b -> (0 < N)%nat ->
  exists b' m, calc_correlations6d b = Ok (b', m) /\ symmetric6 m /\ psd6 m /\
  (forall i, (i < 6)%nat -> m i i = covariance (row b i) (row b i)) /\
  (forall i j, (i < 6)%nat -> (j < 6)%nat -> i <> j ->
     m i j = covariance (row b i) (row b j)
             - (hd 0 (row b i) - mean (row b i)) * (hd 0 (row b j) - mean (row b j)) / INR N) /\
  (first_on_centroid b -> forall i j, (i < 6)%nat -> (j < 6)%nat ->
     m i j = covariance (row b i) (row b j)).
Proof.
  intros N b Hb HN. destruct (correlations_spec N b Hb HN) as (m & E & Hd & Ho).
  destruct (corr_matrix_psd N b _ m Hb HN E) as [Hs Hp].
  exists (recentre_first b), m. split; [exact E|]. split; [exact Hs|]. split; [exact Hp|].
  split; [intros i Hi; rewrite Hd by exact Hi; apply variance_covariance|]. split; [exact Ho|].
  intros Hf i j Hi Hj. destruct (Nat.eq_dec i j) as [->|Hij]; [rewrite Hd by exact Hj; apply variance_covariance|].
  rewrite Ho by assumption.
  assert (HIn : In (row b i) b) by (apply nth_In; destruct Hb; lia).
  specialize (Hf _ HIn). pose proof (is_beam_row_len N b i Hb Hi) as L.
  destruct (row b i) as [|x r]; [simpl in L; lia|]. cbn [hd]. rewrite <- Hf. unfold Rdiv. ring.
Qed.
Print Assumptions C11_correlations_partial.

Example C11_applies : exists b' m, calc_correlations6d quiet = Ok (b', m) /\ m 0%nat 1%nat = 8 / 5.
Proof.
  destruct (C11_correlations_partial 5 quiet quiet_beam ltac:(lia)) as (b' & m & E & _ & _ & _ & _ & H).
  exists b', m. split; [exact E|]. rewrite H by (try lia; exact quiet_centred).
  cbn [row quiet nth]. row_calc.
Qed.

Theorem C11_correlations_refuted : exists b b' m, is_beam 3 b /\ calc_correlations6d b = Ok (b', m) /\
  covariance (row b 0) (row b 1) = 1 /\ m 0%nat 1%nat = 1 / 3.
Proof.
  destruct (C11_correlations_partial 3 skew skew_beam ltac:(lia)) as (b' & m & E & _ & _ & _ & H & _).
  exists skew, b', m. split; [exact skew_beam|]. split; [exact E|].
  split; [|rewrite H by lia]; cbn [row skew nth hd]; row_calc.
Qed.
Print Assumptions C11_correlations_refuted.

(** ---------------- C12 ---------------- *)
Theorem C12_eigen_decomposition : forall S l v, symmetric6 S -> psd6 S ->
  jacobi_eigen_solver6d S = Ok (l, v) -> eigen_decomposition S l v.
Proof. exact jacobi_correct. Qed.
Print Assumptions C12_eigen_decomposition.

(** Every matrix that calc_correlations6d produces is in the domain of C12. *)
Theorem C12_covers_correlations : forall N b b' m l v, is_beam N b -> (0 < N)%nat ->
  calc_correlations6d b = Ok (b', m) -> jacobi_eigen_solver6d m = Ok (l, v) ->
  eigen_decomposition m l v.
Proof.
  intros N b b' m l v Hb HN E EJ. destruct (corr_matrix_psd N b b' m Hb HN E). apply jacobi_correct; assumption.
Qed.
Print Assumptions C12_covers_correlations.

Lemma quiet_one_corr : exists m, calc_correlations6d quiet = Ok (recentre_first quiet, m) /\ one_corr m 2 (8 / 5).
Proof.
  destruct (correlations_spec 5 quiet quiet_beam ltac:(lia)) as (m & E & Hd & Ho). exists m. split; [exact E|].
  split; [rewrite Ho by lia; cbn [row quiet nth hd]; row_calc|].
  split; [rewrite Hd by lia; cbn [row quiet nth]; row_calc|].
  split; [rewrite Hd by lia; cbn [row quiet nth]; row_calc|].
  intros p q [Hp Hq] Hn.
  rewrite Ho by lia.
  assert (Hz : forall k, (2 <= k < 6)%nat -> row quiet k = [0; 0; 0; 0; 0]).
  { intros k Hk. do 6 (destruct k as [|k]; [first [lia|reflexivity]|]). lia. }
  rewrite (Hz q) by lia.
  assert (Hm0 : mean [0; 0; 0; 0; 0] = 0) by row_calc. unfold covariance. rewrite Hm0. cbn [hd].
  pose proof (is_beam_row_len 5 quiet p quiet_beam ltac:(lia)) as L.
  destruct (row quiet p) as [|a0 [|a1 [|a2 [|a3 [|a4 [|]]]]]]; try discriminate.
  set (mm := mean _). cbn [combine map total fold_right fst snd length INR]. field.
Qed.

Example C12_applies : exists b' m l v, calc_correlations6d quiet = Ok (b', m) /\
  jacobi_eigen_solver6d m = Ok (l, v) /\ eigen_decomposition m l v /\ v 0%nat 0%nat = 1 / sqrt 2.
Proof.
  destruct quiet_one_corr as (m & E & H1).
  destruct (jacobi_one_corr m 2 (8 / 5) H1 ltac:(lra)) as (l & v & EJ & Hv).
  exists (recentre_first quiet), m, l, v. split; [exact E|]. split; [exact EJ|].
  split; [apply (C12_covers_correlations 5 quiet _ m l v quiet_beam ltac:(lia) E EJ)|].
  rewrite Hv by lia. reflexivity.
Qed.

(** ---------------- C13 ---------------- *)
(** In general the result is an orthogonal change of basis of the beam with its first
    particle moved to the centroid; when that particle is on the centroid, it is an
    orthogonal change of basis of the beam itself and decorrelates it. *)
Theorem C13_basis_partial : forall N b new, is_beam N b -> (0 < N)%nat ->
  rm_correlations6d b = Ok new ->
  exists v, orthonormal_columns v /\ in_basis N v (recentre_first b) new.
Proof.
  intros N b new Hb HN H. destruct (rm_result N b new Hb HN H) as (m & l & v & _ & [Ho _] & Hn).
  exists v. split; assumption.
Qed.
Print Assumptions C13_basis_partial.

Theorem C13_decorrelated_partial : forall N b new, is_beam N b -> (0 < N)%nat -> first_on_centroid b ->
  rm_correlations6d b = Ok new ->
  (exists v, orthonormal_columns v /\ in_basis N v b new) /\
  forall i j, (i < 6)%nat -> (j < 6)%nat -> i <> j -> covariance (row new i) (row new j) = 0.
Proof.
  intros N b new Hb HN Hf H. destruct (rm_decorrelates N b new Hb HN Hf H) as (v & l & Ho & Hn & Hc).
  split; [exists v; split; assumption|]. intros i j Hi Hj Hij. rewrite Hc by assumption.
  apply Nat.eqb_neq in Hij. rewrite Hij. reflexivity.
Qed.
Print Assumptions C13_decorrelated_partial.

Example C13_applies : exists new, rm_correlations6d quiet = Ok new /\
  covariance (row quiet 0) (row quiet 1) = 8 / 5 /\ covariance (row new 0) (row new 1) = 0.
Proof.
  destruct quiet_one_corr as (m & E & H1).
  destruct (rm_one_corr 5 quiet m 2 (8 / 5) quiet_beam ltac:(lia) E H1 ltac:(lra)) as (new & R & _).
  exists new. split; [exact R|]. split; [cbn [row quiet nth]; row_calc|].
  apply (C13_decorrelated_partial 5 quiet new quiet_beam ltac:(lia) quiet_centred R); lia.
Qed.

Theorem C13_decorrelates_refuted : exists b new, is_beam 3 b /\ rm_correlations6d b = Ok new /\
  covariance (row new 0) (row new 1) <> 0.
Proof.
  destruct (correlations_spec 3 skew skew_beam ltac:(lia)) as (m & E & Hd & Ho).
  assert (H1 : one_corr m 2 (1 / 3)).
  { split; [rewrite Ho by lia; cbn [row skew nth hd]; row_calc|].
    split; [rewrite Hd by lia; cbn [row skew nth]; row_calc|].
    split; [rewrite Hd by lia; cbn [row skew nth]; row_calc|].
    intros p q [Hp Hq] Hn. rewrite Ho by lia.
    assert (Hz : forall k, (2 <= k < 6)%nat -> row skew k = [0; 0; 0]).
    { intros k Hk. do 6 (destruct k as [|k]; [first [lia|reflexivity]|]). lia. }
    rewrite (Hz q) by lia.
    assert (Hm0 : mean [0; 0; 0] = 0) by row_calc. unfold covariance. rewrite Hm0. cbn [hd].
    pose proof (is_beam_row_len 3 skew p skew_beam ltac:(lia)) as L.
    destruct (row skew p) as [|a0 [|a1 [|a2 [|]]]]; try discriminate.
    set (mm := mean _). cbn [combine map total fold_right fst snd length INR]. field. }
  destruct (rm_one_corr 3 skew m 2 (1 / 3) skew_beam ltac:(lia) E H1 ltac:(lra)) as (new & R & Hnb & Hn).
  exists skew, new. split; [exact skew_beam|]. split; [exact R|].
  rewrite (cov_cell 3) by (try exact Hnb; lia).
  assert (HR : recentre_first skew = [[0; -1; -1]; [0; 1; -2]; [0; 0; 0]; [0; 0; 0]; [0; 0; 0]; [0; 0; 0]]).
  { unfold recentre_first, skew. cbn [map]. repeat (f_equal; [f_equal; row_calc|]). f_equal. f_equal. row_calc. }
  rewrite HR in Hn.
  assert (Hs : 0 < sqrt 2) by (apply sqrt_lt_R0; lra).
  set (r := 1 / sqrt 2).
  assert (Hr : r * r = 1 / 2).
  { unfold r. replace (1 / sqrt 2 * (1 / sqrt 2)) with (1 / (sqrt 2 * sqrt 2)) by (field; lra). rewrite sqrt_sqrt by lra. reflexivity. }
  assert (C : forall k, (k < 3)%nat ->
     cell new 0 k = r * nth k [0; -2; 1] 0 /\ cell new 1 k = r * nth k [0; 0; -3] 0).
  { intros k Hk. unfold cell. rewrite !Hn by lia. unfold sum6, quarter_turn, row. fold r. cbn [nth Nat.eqb].
    destruct k as [|[|[|]]]; try lia; cbn [nth]; split; ring. }
  assert (E3 : forall f, tot 3 f = f 0%nat + f 1%nat + f 2%nat).
  { intros f. unfold tot. cbn [seq map total fold_right]. ring. }
  unfold cv, mu. rewrite !E3.
  destruct (C 0%nat ltac:(lia)) as [-> ->]. destruct (C 1%nat ltac:(lia)) as [-> ->].
  destruct (C 2%nat ltac:(lia)) as [-> ->]. cbn [nth INR].
  match goal with |- ?x <> 0 => replace x with (- (4 / 3) * (r * r)) by field end.
  rewrite Hr. lra.
Qed.
Print Assumptions C13_decorrelates_refuted.

(** ---------------- C14 ---------------- *)
(** e is the decade of v; the result is a whole number of units of the n-th significant
    digit, stays in the decade, and is within half a unit of v. *)
Theorem C14_significant_figures : forall v n, (1 <= n)%Z ->
  (v = 0 -> specify_significant_figures v n = 0) /\
  (v <> 0 -> exists e k, powerRZ 10 e <= Rabs v < powerRZ 10 (e + 1) /\
     specify_significant_figures v n = IZR k * powerRZ 10 (e - n + 1) /\
     powerRZ 10 e <= Rabs (specify_significant_figures v n) <= powerRZ 10 (e + 1) /\
     Rabs (specify_significant_figures v n - v) <= 1 / 2 * powerRZ 10 (e - n + 1)) /\
  specify_significant_figures (specify_significant_figures v n) n = specify_significant_figures v n.
Proof.
  intros v n Hn. split; [|split].
  - intros ->. unfold specify_significant_figures. destruct (Req_EM_T 0 0); [reflexivity|lra].
  - intros Hv. pose proof (decade_exp v Hv) as He. cbv zeta in He.
    destruct (sigfig_mult v n _ Hv Hn He) as [Hb [k Hk]].
    eexists. exists k. split; [exact He|]. split; [exact Hk|]. split; [exact Hb|].
    apply sigfig_near; assumption.
  - apply sigfig_idem. exact Hn.
Qed.
Print Assumptions C14_significant_figures.

Example C14_applies : specify_significant_figures 1234 2 = 1200.
Proof.
  assert (He : powerRZ 10 3 <= Rabs 1234 < powerRZ 10 (3 + 1)).
  { rewrite Rabs_right by lra. simpl. lra. }
  rewrite (sigfig_eq 1234 2 3 ltac:(lra) He).
  replace (powerRZ 10 (3 - 2 + 1)) with 100 by (simpl; lra).
  replace (round_half_even (1234 / 100)) with 12%Z; [lra|].
  unfold round_half_even. rewrite (rfloor_unique (1234 / 100) 12) by lra.
  destruct (Rlt_dec _ _); [reflexivity|lra].
Qed.

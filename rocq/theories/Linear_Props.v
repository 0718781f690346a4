(** C120: the Twiss parameters measured on a beam (rsbeams/rsptcls/RsDistrib6D.py calc_twiss6d) go through
    drifts, lenses and other linear maps of a plane as the textbook says. *)
From Coq Require Import List Reals Lra Lia Psatz Arith.
From Verif Require Import PyBase Stats_Model Stats_Spec Stats_Proofs Jacobi_Proofs Decor_Proofs Stats_Props Twiss_Model Twiss_Spec Twiss_Proofs Twiss_Props.
Import ListNotations.
Open Scope R_scope.

(** A linear map of one plane, (u, v) -> (a u + b v + o, c u + d v + p). *)
Record plane_map := { pa : R; pb : R; pc : R; pd : R; po : R; pp : R }.
Definition determinant (M : plane_map) : R := pa M * pd M - pb M * pc M.
(** Every particle of the beam [b] goes through the map of its plane. *)
Definition through (M : nat -> plane_map) (b b' : beam) : Prop := forall k, (k < 3)%nat ->
  row b' (2 * k) = map (fun p => pa (M k) * fst p + pb (M k) * snd p + po (M k)) (combine (row b (2 * k)) (row b (2 * k + 1))) /\
  row b' (2 * k + 1) = map (fun p => pc (M k) * fst p + pd (M k) * snd p + pp (M k)) (combine (row b (2 * k)) (row b (2 * k + 1))).
(** The textbook rule for the Twiss parameters behind the map. *)
Definition carried (M : plane_map) (t t' : twiss) : Prop :=
  tw_emit t' = tw_emit t /\
  tw_beta t' = pa M ^ 2 * tw_beta t - 2 * pa M * pb M * tw_alpha t + pb M ^ 2 * tw_gamma t /\
  tw_alpha t' = - (pa M * pc M * tw_beta t) + (pa M * pd M + pb M * pc M) * tw_alpha t - pb M * pd M * tw_gamma t /\
  tw_gamma t' = pc M ^ 2 * tw_beta t - 2 * pc M * pd M * tw_alpha t + pd M ^ 2 * tw_gamma t.

Lemma mean_shift : forall o l, l <> [] -> mean (map (fun x => x + o) l) = mean l + o.
Proof.
  intros o l N. unfold mean. rewrite map_length. pose proof (INR_len_pos l N) as P.
  assert (T : total (map (fun x => x + o) l) = total l + INR (length l) * o).
  { clear. induction l as [|x l IH]; [cbn; lra|]. cbn [map]. rewrite !total_cons, IH. change (length (x :: l)) with (S (length l)). rewrite S_INR. lra. }
  rewrite T. field. lra.
Qed.
Lemma cov_shift : forall o p l k, l <> [] -> k <> [] -> covariance (map (fun x => x + o) l) (map (fun x => x + p) k) = covariance l k.
Proof.
  intros o p l k L K. unfold covariance. rewrite !mean_shift, map_length by assumption. generalize (mean l), (mean k). intros m n. f_equal.
  clear. revert k. induction l as [|x l IH]; intros [|y k]; try reflexivity. cbn [combine map fst snd]. rewrite !total_cons, IH. ring.
Qed.
Lemma map_lin2 : forall a b o u v, map (fun p => a * fst p + b * snd p + o) (combine u v) = map (fun x => x + o) (lin2 a b u v).
Proof. intros. unfold lin2. rewrite map_map. reflexivity. Qed.
Lemma lin2_ne : forall a b u v, length u = length v -> u <> [] -> lin2 a b u v <> [].
Proof. intros a b [|x u] [|y v] L N; try discriminate; contradiction. Qed.
Lemma row_ne : forall N b i, is_beam N b -> (0 < N)%nat -> (i < 6)%nat -> row b i <> [].
Proof. intros N b i B N0 I E. pose proof (is_beam_row_len N b i B I) as L. rewrite E in L. cbn in L. lia. Qed.

Lemma first_through : forall N M b b', is_beam N b -> is_beam N b' -> (0 < N)%nat -> through M b b' -> first_on_centroid b -> first_on_centroid b'.
Proof.
  intros N M b b' B B' N0 T F r I. destruct (In_nth b' r [] I) as (i & L & E). assert (I6 : (i < 6)%nat) by (destruct B' as [H _]; lia).
  assert (G : forall a c o u v, length u = length v -> match u with [] => True | x :: _ => x = mean u end -> match v with [] => True | x :: _ => x = mean v end ->
     match map (fun p => a * fst p + c * snd p + o) (combine u v) with [] => True | x :: _ => x = mean (map (fun p => a * fst p + c * snd p + o) (combine u v)) end).
  { intros a c o [|x u] [|y v] Lu Hu Hv; try discriminate; [exact Logic.I|]. rewrite map_lin2. rewrite mean_shift by (apply lin2_ne; [exact Lu|discriminate]). rewrite lin2_mean by exact Lu. rewrite <- Hu, <- Hv. reflexivity. }
  assert (Fr : forall j, (j < 6)%nat -> match row b j with [] => True | x :: _ => x = mean (row b j) end) by (intros j J; apply F; apply nth_In; destruct B as [H _]; lia).
  assert (Le : forall j k, (j < 6)%nat -> (k < 6)%nat -> length (row b j) = length (row b k)) by (intros j k J K; rewrite !(is_beam_row_len N b) by assumption; reflexivity).
  rewrite <- E. change (nth i b' []) with (row b' i). destruct (Nat.Even_or_Odd i) as [[k ->]|[k ->]]; destruct (T k ltac:(lia)) as [T1 T2].
  - rewrite T1. apply G; [apply Le; lia|apply Fr; lia|apply Fr; lia].
  - rewrite T2. apply G; [apply Le; lia|apply Fr; lia|apply Fr; lia].
Qed.
(** the matrix of a beam whose first particle sits on the centroid *)
Lemma measured : forall N b b1 tx ty tz, is_beam N b -> (0 < N)%nat -> first_on_centroid b -> calc_twiss6d b = Ok (b1, (tx, ty, tz)) ->
  let t k := match k with 0%nat => tx | 1%nat => ty | _ => tz end in
  forall k, (k < 3)%nat -> 0 < tw_beta (t k) /\ 0 < tw_emit (t k) /\ tw_beta (t k) * tw_gamma (t k) - tw_alpha (t k) ^ 2 = 1 /\
   covariance (row b (2 * k)) (row b (2 * k)) = tw_emit (t k) * tw_beta (t k) /\
   covariance (row b (2 * k)) (row b (2 * k + 1)) = - (tw_emit (t k) * tw_alpha (t k)) /\
   covariance (row b (2 * k + 1)) (row b (2 * k + 1)) = tw_emit (t k) * tw_gamma (t k).
Proof.
  intros N b b1 tx ty tz B N0 F E t k Hk. destruct (C11_correlations_partial N b B N0) as (b2 & m & Ec & _ & _ & _ & _ & Hm). specialize (Hm F).
  destruct (C17_calc_twiss N b b2 m B N0 Ec) as [Good Bad].
  assert (D : forall k, (k < 3)%nat -> 0 < m (2*k)%nat (2*k)%nat * m (2*k+1)%nat (2*k+1)%nat - m (2*k)%nat (2*k+1)%nat * m (2*k+1)%nat (2*k)%nat).
  { intros j J. apply Rnot_le_lt. intros H. rewrite Bad in E by (exists j; split; assumption). discriminate. }
  destruct (Good D) as (t0 & t1 & t2 & E' & D0 & D1 & D2). rewrite E' in E. injection E as <- <- <- <-.
  assert (X : describes (t k) m k) by (destruct k as [|[|[|]]]; [exact D0|exact D1|exact D2|lia]).
  destruct X as (X1 & X2 & X3 & X4 & X5 & X6). rewrite Hm in X4, X5, X6 by lia. repeat split; [exact X2|exact X1|exact X3|lra|lra|lra].
Qed.
Lemma plane_carried : forall M e al be ga, determinant M = 1 -> 0 < be -> be * ga - al ^ 2 = 1 ->
  let be' := pa M ^ 2 * be - 2 * pa M * pb M * al + pb M ^ 2 * ga in
  let al' := - (pa M * pc M * be) + (pa M * pd M + pb M * pc M) * al - pb M * pd M * ga in
  let ga' := pc M ^ 2 * be - 2 * pc M * pd M * al + pd M ^ 2 * ga in
  0 < be' /\ be' * ga' - al' ^ 2 = 1 /\ e * ga' = e * ((1 + al' ^ 2) / be').
Proof.
  intros [a b c d o p] e al be ga D B G be' al' ga'. unfold determinant in D. cbn [pa pb pc pd] in *.
  assert (P : 0 < be').
  { assert (Q : be * be' = (a * be - b * al) ^ 2 + b ^ 2) by (unfold be'; transitivity ((a * be - b * al) ^ 2 + b ^ 2 * (be * ga - al ^ 2)); [ring|rewrite G; ring]).
    destruct (Req_EM_T b 0) as [->|Nb].
    - assert (a <> 0) by (intros ->; lra). assert (0 < a ^ 2) by nra. unfold be'. nra.
    - assert (0 < b ^ 2) by nra. assert (0 <= (a * be - b * al) ^ 2) by apply pow2_ge_0. apply (Rmult_lt_reg_l be); [exact B|]. lra. }
  assert (G' : be' * ga' - al' ^ 2 = 1) by (unfold be', al', ga'; transitivity ((a * d - b * c) ^ 2 * (be * ga - al ^ 2)); [ring|rewrite D, G; ring]).
  split; [exact P|]. split; [exact G'|]. replace (1 + al' ^ 2) with (be' * ga') by lra. field. lra.
Qed.

(** For a beam whose first particle sits on the centroid: the parameters behind the map are those of the textbook; the emittance stays. *)
Theorem C120_linear_partial : forall N b b' M b1 tx ty tz, is_beam N b -> is_beam N b' -> (0 < N)%nat -> first_on_centroid b ->
  (forall k, (k < 3)%nat -> determinant (M k) = 1) -> through M b b' -> calc_twiss6d b = Ok (b1, (tx, ty, tz)) ->
  exists b2 tx' ty' tz', calc_twiss6d b' = Ok (b2, (tx', ty', tz')) /\ carried (M 0%nat) tx tx' /\ carried (M 1%nat) ty ty' /\ carried (M 2%nat) tz tz'.
Proof.
  intros N b b' M b1 tx ty tz B B' N0 F D T E. pose proof (measured N b b1 tx ty tz B N0 F E) as K. cbv zeta in K. pose proof (first_through N M b b' B B' N0 T F) as F'.
  set (t := fun k => match k with 0%nat => tx | 1%nat => ty | _ => tz end) in *.
  set (be := fun k => pa (M k) ^ 2 * tw_beta (t k) - 2 * pa (M k) * pb (M k) * tw_alpha (t k) + pb (M k) ^ 2 * tw_gamma (t k)).
  set (al := fun k => - (pa (M k) * pc (M k) * tw_beta (t k)) + (pa (M k) * pd (M k) + pb (M k) * pc (M k)) * tw_alpha (t k) - pb (M k) * pd (M k) * tw_gamma (t k)).
  assert (X : forall k, (k < 3)%nat -> 0 < be k /\ 0 < tw_emit (t k) /\ matched (al k) (be k) (tw_emit (t k)) (row b' (2 * k)) (row b' (2 * k + 1))).
  { intros k Hk. destruct (K k Hk) as (K1 & K2 & K3 & K4 & K5 & K6). change (match k with 0%nat => tx | 1%nat => ty | _ => tz end) with (t k) in *.
    destruct (plane_carried (M k) (tw_emit (t k)) (tw_alpha (t k)) (tw_beta (t k)) (tw_gamma (t k)) (D k Hk) K1 K3) as (P1 & P2 & P3). fold (be k) in P1, P2, P3. fold (al k) in P2, P3.
    split; [exact P1|]. split; [exact K2|]. destruct (T k Hk) as [T1 T2]. rewrite T1, T2, !map_lin2.
    assert (L : length (row b (2 * k)) = length (row b (2 * k + 1))) by (rewrite !(is_beam_row_len N b) by (assumption || lia); reflexivity).
    pose proof (row_ne N b (2 * k) B N0 ltac:(lia)) as Ne. unfold matched. rewrite !cov_shift by (apply lin2_ne; assumption). rewrite !lin2_cov by exact L. rewrite K4, K5, K6. rewrite <- P3. unfold be, al. split; [ring|]. split; ring. }
  destruct (X 0%nat ltac:(lia)) as (X1 & X2 & X3). destruct (X 1%nat ltac:(lia)) as (Y1 & Y2 & Y3). destruct (X 2%nat ltac:(lia)) as (Z1 & Z2 & Z3).
  destruct (C17_measured_partial N b' _ _ _ _ _ _ _ _ _ B' N0 F' X1 X2 Y1 Y2 Z1 Z2 X3 Y3 Z3) as (sx & sy & sz & E' & Sx & Sy & Sz).
  exists b', sx, sy, sz. split; [exact E'|].
  assert (C : forall k s, (k < 3)%nat -> twiss_is s (al k) (be k) (tw_emit (t k)) -> carried (M k) (t k) s).
  { intros k s Hk (S1 & S2 & S3 & S4). destruct (K k Hk) as (K1 & _ & K3 & _). change (match k with 0%nat => tx | 1%nat => ty | _ => tz end) with (t k) in *.
    destruct (plane_carried (M k) (tw_emit (t k)) (tw_alpha (t k)) (tw_beta (t k)) (tw_gamma (t k)) (D k Hk) K1 K3) as (P1 & P2 & _). fold (be k) in P1, P2. fold (al k) in P2.
    unfold carried. fold (be k). fold (al k). split; [exact S3|]. split; [exact S2|]. split; [exact S1|]. apply (Rmult_eq_reg_l (be k)); [|lra]. rewrite S1, S2 in S4. lra. }
  split; [apply (C 0%nat); [lia|exact Sx]|]. split; [apply (C 1%nat); [lia|exact Sy]|apply (C 2%nat); [lia|exact Sz]].
Qed.
Print Assumptions C120_linear_partial.

(** Any beam: other units, other signs and another origin of the coordinates. *)
Definition magnified (M : nat -> plane_map) : Prop := forall k, (k < 3)%nat -> pb (M k) = 0 /\ pc (M k) = 0 /\ pa (M k) <> 0 /\ pd (M k) <> 0.
Definition enlarged (M : plane_map) (t t' : twiss) : Prop :=
  tw_emit t' = Rabs (pa M * pd M) * tw_emit t /\
  tw_emit t' * tw_beta t' = pa M ^ 2 * (tw_emit t * tw_beta t) /\
  tw_emit t' * tw_alpha t' = pa M * pd M * (tw_emit t * tw_alpha t) /\
  tw_emit t' * tw_gamma t' = pd M ^ 2 * (tw_emit t * tw_gamma t).
Lemma lin1 : forall a u v, length u = length v -> lin2 a 0 u v = map (fun x => a * x) u.
Proof. intros a u. unfold lin2. induction u as [|x u IH]; intros [|y v] L; try discriminate; [reflexivity|]. cbn [combine map fst snd]. rewrite IH by (injection L as L; exact L). f_equal. ring. Qed.
Lemma lin1' : forall a u v, length u = length v -> lin2 0 a u v = map (fun x => a * x) v.
Proof. intros a u. unfold lin2. induction u as [|x u IH]; intros [|y v] L; try discriminate; [reflexivity|]. cbn [combine map fst snd]. rewrite IH by (injection L as L; exact L). f_equal. ring. Qed.
Lemma mean_times : forall s l, mean (map (fun x => s * x) l) = s * mean l.
Proof.
  intros s l. unfold mean. rewrite map_length. assert (T : total (map (fun x => s * x) l) = s * total l).
  { induction l as [|x l IH]; [cbn; ring|]. cbn [map]. rewrite !total_cons, IH. ring. }
  rewrite T. unfold Rdiv. ring.
Qed.
Lemma cov_times : forall s r l k, covariance (map (fun x => s * x) l) (map (fun x => r * x) k) = s * r * covariance l k.
Proof.
  intros s r l k. unfold covariance. rewrite !mean_times, map_length. generalize (mean l), (mean k). intros m n.
  assert (T : total (map (fun xy => (fst xy - s * m) * (snd xy - r * n)) (combine (map (fun x => s * x) l) (map (fun x => r * x) k))) = s * r * total (map (fun xy => (fst xy - m) * (snd xy - n)) (combine l k))).
  { revert k. induction l as [|x l IH]; intros [|y k]; try (cbn; ring). cbn [combine map fst snd]. rewrite !total_cons, IH. ring. }
  rewrite T. unfold Rdiv. ring.
Qed.
Theorem C120_units : forall N b b' M b1 tx ty tz, is_beam N b -> is_beam N b' -> (0 < N)%nat -> magnified M -> through M b b' ->
  calc_twiss6d b = Ok (b1, (tx, ty, tz)) ->
  exists b2 tx' ty' tz', calc_twiss6d b' = Ok (b2, (tx', ty', tz')) /\ enlarged (M 0%nat) tx tx' /\ enlarged (M 1%nat) ty ty' /\ enlarged (M 2%nat) tz tz'.
Proof.
  intros N b b' M b1 tx ty tz B B' N0 G T E. destruct (C11_correlations_partial N b B N0) as (b2 & m & Ec & Sm & _ & Hd & Ho & _). destruct (C11_correlations_partial N b' B' N0) as (b3 & m' & Ec' & Sm' & _ & Hd' & Ho' & _).
  destruct (C17_calc_twiss N b b2 m B N0 Ec) as [Good Bad].
  assert (D : forall k, (k < 3)%nat -> 0 < m (2*k)%nat (2*k)%nat * m (2*k+1)%nat (2*k+1)%nat - m (2*k)%nat (2*k+1)%nat * m (2*k+1)%nat (2*k)%nat).
  { intros j J. apply Rnot_le_lt. intros H. rewrite Bad in E by (exists j; split; assumption). discriminate. }
  destruct (Good D) as (t0 & t1 & t2 & E' & D0 & D1 & D2). rewrite E' in E. injection E as <- <- <- <-. clear Good Bad.
  assert (R : forall k, (k < 3)%nat -> m' (2*k)%nat (2*k)%nat = pa (M k) ^ 2 * m (2*k)%nat (2*k)%nat /\ m' (2*k+1)%nat (2*k+1)%nat = pd (M k) ^ 2 * m (2*k+1)%nat (2*k+1)%nat /\
     m' (2*k)%nat (2*k+1)%nat = pa (M k) * pd (M k) * m (2*k)%nat (2*k+1)%nat).
  { intros k Hk. destruct (G k Hk) as (Gb & Gc & Ga & Gd). destruct (T k Hk) as [T1 T2]. rewrite Gb in T1. rewrite Gc in T2.
    assert (L : length (row b (2 * k)) = length (row b (2 * k + 1))) by (rewrite !(is_beam_row_len N b) by (assumption || lia); reflexivity).
    pose proof (row_ne N b (2 * k) B N0 ltac:(lia)) as Ne. pose proof (row_ne N b (2 * k + 1) B N0 ltac:(lia)) as Ne'.
    assert (W : forall {s} {l : list R}, l <> [] -> map (fun x => s * x) l <> []) by (intros s [|x l] Q; [contradiction|discriminate]).
    rewrite map_lin2, lin1 in T1 by exact L. rewrite map_lin2, lin1' in T2 by exact L.
    rewrite !Hd, !Hd', Ho, Ho' by lia. rewrite T1, T2, !cov_shift, !cov_times by (apply W; assumption). rewrite !mean_shift, !mean_times by (apply W; assumption).
    split; [ring|]. split; [ring|]. destruct (row b (2 * k)) as [|x u]; [contradiction|]. destruct (row b (2 * k + 1)) as [|y v]; [contradiction|]. cbn [map hd]. unfold Rdiv. ring. }
  destruct (C17_calc_twiss N b' b3 m' B' N0 Ec') as [Good _]. destruct Good as (s0 & s1 & s2 & F & F0 & F1 & F2).
  { intros k Hk. rewrite (Sm' (2*k+1)%nat (2*k)%nat) by lia. destruct (R k Hk) as (-> & -> & ->). specialize (D k Hk). rewrite (Sm (2*k+1)%nat (2*k)%nat) in D by lia. destruct (G k Hk) as (_ & _ & Ga & Gd).
    assert (0 < (pa (M k) * pd (M k)) ^ 2) by (assert (pa (M k) * pd (M k) <> 0) by (apply Rmult_integral_contrapositive_currified; assumption); nra).
    match goal with |- 0 < ?g => replace g with ((pa (M k) * pd (M k)) ^ 2 * (m (2 * k)%nat (2 * k)%nat * m (2 * k + 1)%nat (2 * k + 1)%nat - m (2 * k)%nat (2 * k + 1)%nat * m (2 * k)%nat (2 * k + 1)%nat)) by ring end. apply Rmult_lt_0_compat; assumption. }
  exists b3, s0, s1, s2. split; [exact F|].
  assert (C : forall k t s, (k < 3)%nat -> describes t m k -> describes s m' k -> enlarged (M k) t s).
  { intros k t s Hk (A1 & A2 & A3 & A4 & A5 & A6) (C1 & C2 & C3 & C4 & C5 & C6). destruct (R k Hk) as (R1 & R2 & R3). unfold enlarged. rewrite C4, C5, C6, R1, R2, R3, A4, A5, A6.
    split; [|split; [ring|split; ring]].
    assert (Q : tw_emit s ^ 2 = (Rabs (pa (M k) * pd (M k)) * tw_emit t) ^ 2).
    { transitivity (tw_emit s * tw_beta s * (tw_emit s * tw_gamma s) - (tw_emit s * tw_alpha s) ^ 2); [transitivity (tw_emit s ^ 2 * (tw_beta s * tw_gamma s - tw_alpha s ^ 2)); [rewrite C3; ring|ring]|].
      rewrite C4, C5, C6, R1, R2, R3, <- A4, <- A6. replace (m (2 * k)%nat (2 * k + 1)%nat) with (- (tw_emit t * tw_alpha t)) by lra. rewrite (Rpow_mult_distr (Rabs _)), RPow_abs, Rabs_right by (apply Rle_ge, pow2_ge_0).
      transitivity ((pa (M k) * pd (M k)) ^ 2 * tw_emit t ^ 2 * (tw_beta t * tw_gamma t - tw_alpha t ^ 2)); [ring|rewrite A3; ring]. }
    assert (0 <= Rabs (pa (M k) * pd (M k)) * tw_emit t) by (apply Rmult_le_pos; [apply Rabs_pos|lra]). nra. }
  split; [apply (C 0%nat); [lia|exact D0|exact F0]|]. split; [apply (C 1%nat); [lia|exact D1|exact F1]|apply (C 2%nat); [lia|exact D2|exact F2]].
Qed.
Print Assumptions C120_units.

(** A drift changes the emittance of a beam whose first particle is off the centroid. *)
Definition drift : plane_map := {| pa := 1; pb := 1; pc := 0; pd := 1; po := 0; pp := 0 |}.
Definition off : beam := [[2; -1; -1]; [1; 0; -1]; [2; -1; -1]; [1; 0; -1]; [2; -1; -1]; [1; 0; -1]].
Definition off_drifted : beam := [[3; -1; -2]; [1; 0; -1]; [3; -1; -2]; [1; 0; -1]; [3; -1; -2]; [1; 0; -1]].
Lemma off_through : is_beam 3 off /\ is_beam 3 off_drifted /\ through (fun _ => drift) off off_drifted.
Proof.
  split; [split; [reflexivity|repeat constructor]|]. split; [split; [reflexivity|repeat constructor]|]. intros k Hk. 
  do 3 (destruct k as [|k]; [split; cbn; repeat f_equal; ring|]). lia.
Qed.
Theorem C120_linear_refuted : exists b1 tx ty tz b2 tx' ty' tz', is_beam 3 off /\ is_beam 3 off_drifted /\ through (fun _ => drift) off off_drifted /\ determinant drift = 1 /\
  calc_twiss6d off = Ok (b1, (tx, ty, tz)) /\ calc_twiss6d off_drifted = Ok (b2, (tx', ty', tz')) /\ tw_emit tx ^ 2 = 11 / 9 /\ tw_emit tx' ^ 2 = 24 / 9.
Proof.
  destruct off_through as (B & B' & T).
  assert (G : forall b s u c, is_beam 3 b -> (forall k, (k < 3)%nat -> variance (row b (2 * k)) = s /\ variance (row b (2 * k + 1)) = u /\
     covariance (row b (2 * k)) (row b (2 * k + 1)) - (hd 0 (row b (2 * k)) - mean (row b (2 * k))) * (hd 0 (row b (2 * k + 1)) - mean (row b (2 * k + 1))) / INR 3 = c) -> 0 < s * u - c * c ->
     exists b1 tx ty tz, calc_twiss6d b = Ok (b1, (tx, ty, tz)) /\ tw_emit tx ^ 2 = s * u - c * c).
  { clear. intros b s u c B H P. destruct (C11_correlations_partial 3 b B ltac:(lia)) as (b2 & m & Ec & Sm & _ & Hd & Ho & _).
    assert (V : forall k, (k < 3)%nat -> m (2*k)%nat (2*k)%nat = s /\ m (2*k+1)%nat (2*k+1)%nat = u /\ m (2*k)%nat (2*k+1)%nat = c /\ m (2*k+1)%nat (2*k)%nat = c).
    { intros k Hk. destruct (H k Hk) as (H1 & H2 & H3). rewrite !Hd, <- !variance_covariance by lia. rewrite (Sm (2*k+1)%nat (2*k)%nat) by lia. rewrite Ho by lia. repeat split; assumption. }
    destruct (C17_calc_twiss 3 b b2 m B ltac:(lia) Ec) as [Good _]. destruct Good as (t0 & t1 & t2 & E & (D1 & D2 & D3 & D4 & D5 & D6) & _).
    { intros k Hk. destruct (V k Hk) as (-> & -> & -> & ->). exact P. }
    exists b2, t0, t1, t2. split; [exact E|]. destruct (V 0%nat ltac:(lia)) as (V1 & V2 & V3 & V4). rewrite V1 in D4. rewrite V3 in D5. rewrite V2 in D6.
    transitivity (tw_emit t0 ^ 2 * (tw_beta t0 * tw_gamma t0 - tw_alpha t0 ^ 2)); [rewrite D3; ring|]. transitivity (tw_emit t0 * tw_beta t0 * (tw_emit t0 * tw_gamma t0) - (tw_emit t0 * tw_alpha t0) ^ 2); [ring|]. rewrite D4, D5, D6. ring. }
  destruct (G off 2 (2 / 3) (1 / 3) B) as (b1 & tx & ty & tz & E & Q); [|lra|].
  { intros k Hk. do 3 (destruct k as [|k]; [cbn [row off nth hd Nat.mul Nat.add]; split; [row_calc|split; row_calc]|]). lia. }
  destruct (G off_drifted (14 / 3) (2 / 3) (2 / 3) B') as (b2 & tx' & ty' & tz' & E' & Q'); [|lra|].
  { intros k Hk. do 3 (destruct k as [|k]; [cbn [row off_drifted nth hd Nat.mul Nat.add]; split; [row_calc|split; row_calc]|]). lia. }
  exists b1, tx, ty, tz, b2, tx', ty', tz'. refine (conj B (conj B' (conj T (conj _ (conj E (conj E' (conj _ _))))))); [unfold determinant; cbn; lra|rewrite Q; lra|rewrite Q'; lra].
Qed.
Print Assumptions C120_linear_refuted.

Example C120_applies : exists b', is_beam 5 unit_beam /\ first_on_centroid unit_beam /\ is_beam 5 b' /\ through (fun _ => drift) unit_beam b' /\ determinant drift = 1 /\
  exists b1 tx ty tz, calc_twiss6d unit_beam = Ok (b1, (tx, ty, tz)).
Proof.
  pose proof unit_beam_ok as B. assert (F : first_on_centroid unit_beam).
  { intros r I. cbn in I. repeat (destruct I as [<-|I]; [unfold pu1, pv1; row_calc|]). destruct I. }
  exists (flat_map (fun _ => [map (fun p => 1 * fst p + 1 * snd p + 0) (combine pu1 pv1); map (fun p => 0 * fst p + 1 * snd p + 0) (combine pu1 pv1)]) [tt; tt; tt]).
  refine (conj B (conj F (conj _ (conj _ (conj _ _))))); [split; [reflexivity|repeat constructor]| |unfold determinant; cbn; lra|].
  - intros k Hk. do 3 (destruct k as [|k]; [split; reflexivity|]). lia.
  - pose proof unit_pq as U. destruct U as (U1 & U2 & U3).
    destruct (C17_measured_partial 5 unit_beam 0 1 1 0 1 1 0 1 1 B ltac:(lia) F) as (sx & sy & sz & E & _); try lra; try (unfold matched; cbn [row unit_beam nth]; rewrite U1, U2, U3; repeat split; lra).
    exists unit_beam, sx, sy, sz. exact E.
Qed.

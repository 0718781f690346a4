(** How the centroid of a kicked beam depends on its settings, and that it dies out (property C128). *)
From Coq Require Import List Reals Lra Lia Psatz Bool Arith ZArith.
From Coquelicot Require Import Coquelicot.
From Verif Require Import PyBase Decoh_Model Decoh_Spec Decoh_Props.
Import ListNotations.
Open Scope R_scope.

(** Coefficients the routines can handle: a lone one is not zero, the second of two is positive. *)
Definition usable (mu : list R) : Prop :=
  (forall m0, mu = [m0] -> m0 <> 0) /\ (forall m0 m1, mu = [m0; m1] -> 0 < m1).

Definition beam (N : nat) (Z nu0 : R) (mu : list R) : centroid := {| d_N := N; d_Z := Z; d_nu0 := nu0; d_mu := mu |}.

Lemma map_some_inj : forall (l m : list R), map Some l = map Some m -> l = m.
Proof. induction l as [|x l IH]; intros [|y m] H; try discriminate; [reflexivity|]. injection H as -> H. f_equal. now apply IH. Qed.

Lemma entries : forall N Z nu0 mu r, usable mu -> calculate_centroids (beam N Z nu0 mu) = Ok (map Some r) ->
  List.length r = N /\ forall k, (k < N)%nat -> centroid_after Z nu0 mu k (nth k r 0).
Proof.
  intros N Z nu0 mu r [U1 U2] E. destruct (C29_centroids_partial (beam N Z nu0 mu) U1 U2) as (r' & E' & L & H & _).
  assert (r' = r) by (apply map_some_inj; congruence). subst. split; [exact L|]. intros k Hk. apply (proj1 (H k Hk)).
Qed.
Lemma transfer : forall N Z nu0 mu Z' nu0' mu' (f : R -> R) r, usable mu -> usable mu' ->
  (forall n x, centroid_after Z nu0 mu n x -> centroid_after Z' nu0' mu' n (f x)) ->
  calculate_centroids (beam N Z nu0 mu) = Ok (map Some r) -> calculate_centroids (beam N Z' nu0' mu') = Ok (map Some (map f r)).
Proof.
  intros N Z nu0 mu Z' nu0' mu' f r U [V1 V2] T E. destruct (entries _ _ _ _ _ U E) as [L H].
  destruct (C29_centroids_partial (beam N Z' nu0' mu') V1 V2) as (r' & E' & L' & H' & _). rewrite E'. do 2 f_equal. cbn in L'.
  apply (nth_ext _ _ (f 0) (f 0)); [rewrite map_length; congruence|]. intros k Hk. rewrite map_nth. rewrite L' in Hk.
  rewrite (nth_indep r' (f 0) 0) by (rewrite L'; exact Hk). destruct (H' k Hk) as [C _].
  eapply centroid_unique; [exact C|]. now apply T, H.
Qed.

(** ---------- dependence on the settings ---------- *)
(** The centroid is proportional to the offset. *)
Theorem C128_amplitude : forall N Z nu0 mu k r, usable mu -> calculate_centroids (beam N Z nu0 mu) = Ok (map Some r) ->
  calculate_centroids (beam N (k * Z) nu0 mu) = Ok (map Some (map (Rmult k) r)).
Proof.
  intros N Z nu0 mu k r U. apply transfer; [exact U|exact U|]. intros n x H. unfold centroid_after in *.
  apply (is_RInt_ext (fun A => scal k (Z * cos (2 * PI * INR n * (nu0 - tune_shift mu A))))).
  - intros A _. unfold scal; simpl; unfold mult; simpl. ring.
  - apply (is_RInt_scal (V := R_NormedModule) (fun A => Z * cos (2 * PI * INR n * (nu0 - tune_shift mu A))) 0 1 k x H).
Qed.
Print Assumptions C128_amplitude.

Lemma cos_turns : forall (z : Z) x, cos (x + 2 * PI * IZR z) = cos x.
Proof.
  assert (P : forall n x, cos (x + 2 * PI * INR n) = cos x).
  { intros n x. replace (2 * PI * INR n) with (2 * INR n * PI) by ring. apply cos_period. }
  intros z x. destruct (Z_le_gt_dec 0 z) as [H|H].
  - rewrite <- (Z2Nat.id z H), <- INR_IZR_INZ. apply P.
  - rewrite <- (P (Z.to_nat (- z)) (x + 2 * PI * IZR z)). f_equal. rewrite INR_IZR_INZ, Z2Nat.id by lia. rewrite opp_IZR. ring.
Qed.

(** Only the fraction of the tune matters. *)
Theorem C128_fraction : forall N Z nu0 mu (z : BinNums.Z) r, usable mu -> calculate_centroids (beam N Z nu0 mu) = Ok (map Some r) ->
  calculate_centroids (beam N Z (nu0 + IZR z) mu) = Ok (map Some r).
Proof.
  intros N Z nu0 mu z r U E. rewrite <- (map_id r). revert E. apply transfer; [exact U|exact U|]. intros n x H. unfold centroid_after in *.
  eapply is_RInt_ext; [|exact H]. intros A _. cbn beta. f_equal.
  replace (2 * PI * INR n * (nu0 + IZR z - tune_shift mu A)) with (2 * PI * INR n * (nu0 - tune_shift mu A) + 2 * PI * IZR (Z.of_nat n * z)).
  - symmetry. apply cos_turns.
  - rewrite mult_IZR, <- INR_IZR_INZ. ring.
Qed.
Print Assumptions C128_fraction.

(** Tune and coefficients with the opposite sign give the same centroids. *)
Lemma tune_shift_opp : forall mu A, tune_shift (map Ropp mu) A = - tune_shift mu A.
Proof. induction mu as [|m mu IH]; intros A; cbn; [ring|]. rewrite IH. ring. Qed.
Theorem C128_mirror_partial : forall N Z nu0 mu r, usable mu -> List.length mu <> 2%nat ->
  calculate_centroids (beam N Z nu0 mu) = Ok (map Some r) -> calculate_centroids (beam N Z (- nu0) (map Ropp mu)) = Ok (map Some r).
Proof.
  intros N Z nu0 mu r U L E. rewrite <- (map_id r). revert E. apply transfer; [exact U| |].
  - split.
    + intros m0 H. destruct mu as [|m [|]]; try discriminate. injection H as <-. pose proof (proj1 U m eq_refl). lra.
    + intros m0 m1 H. destruct mu as [|a [|b [|]]]; try discriminate. now contradiction L.
  - intros n x H. unfold centroid_after in *. eapply is_RInt_ext; [|exact H]. intros A _. cbn beta. f_equal. rewrite tune_shift_opp.
    replace (2 * PI * INR n * (- nu0 - - tune_shift mu A)) with (- (2 * PI * INR n * (nu0 - tune_shift mu A))) by ring. symmetry. apply cos_neg.
Qed.
Print Assumptions C128_mirror_partial.

(** With two coefficients it does not hold. *)
Theorem C128_mirror_refuted : forall N Z nu0 m0 m1, (2 <= N)%nat -> 0 < m1 ->
  (exists r, calculate_centroids (beam N Z nu0 [m0; m1]) = Ok (map Some r)) /\
  ~ exists r, calculate_centroids (beam N Z (- nu0) (map Ropp [m0; m1])) = Ok (map Some r).
Proof.
  intros N Z nu0 m0 m1 HN Hm. split.
  - destruct (C29_centroids_partial (beam N Z nu0 [m0; m1])) as (r & E & _); [discriminate| |now exists r].
    intros a b Q. injection Q as <- <-. exact Hm.
  - intros (r & E). cbn [map] in E. unfold beam in E. rewrite (proj2 C29_coefficients_refuted N Z (- nu0) (- m0) (- m1)) in E by (lia || lra).
    replace (N - 1)%nat with (S (N - 2)) in E by lia. cbn in E. injection E as E. destruct r as [|x [|y r]]; discriminate.
Qed.
Print Assumptions C128_mirror_refuted.

(** Zeros after the coefficients do not matter if there are three or more in all. *)
Lemma tune_shift_zeros : forall k mu A, tune_shift (mu ++ repeat 0 k) A = tune_shift mu A.
Proof.
  intros k. induction mu as [|m mu IH]; intros A; cbn [app tune_shift]; [|now rewrite IH].
  induction k as [|k IHk]; [reflexivity|]. cbn [repeat tune_shift]. rewrite IHk. ring.
Qed.
Theorem C128_zeros_partial : forall N Z nu0 mu k r, usable mu -> (3 <= List.length mu + k)%nat ->
  calculate_centroids (beam N Z nu0 mu) = Ok (map Some r) -> calculate_centroids (beam N Z nu0 (mu ++ repeat 0 k)) = Ok (map Some r).
Proof.
  intros N Z nu0 mu k r U L E. rewrite <- (map_id r). revert E. apply transfer; [exact U| |].
  - split; intros; match goal with H : _ ++ _ = _ |- _ => apply (f_equal (@List.length R)) in H; rewrite app_length, repeat_length in H; cbn in H; lia end.
  - intros n x H. unfold centroid_after in *. eapply is_RInt_ext; [|exact H]. intros A _. cbn beta. now rewrite tune_shift_zeros.
Qed.
Print Assumptions C128_zeros_partial.

(** One zero after one coefficient raises. *)
Theorem C128_zero_refuted : forall N Z nu0 m0, (2 <= N)%nat -> calculate_centroids (beam N Z nu0 [m0; 0]) = Err ZeroDivisionError.
Proof.
  intros N Z nu0 m0 HN. unfold calculate_centroids, beam. cbn [d_mu d_N List.length].
  destruct N as [|[|N]]; [lia|lia|]. cbn [seq map_res]. unfold integrate_second_order at 1. cbn [turn_of Nat.eqb rbind].
  unfold integrate_second_order at 1. cbn [turn_of Nat.eqb mu_at d_mu nth_error rbind]. unfold second_integrand, pdiv.
  rewrite Rmult_0_r. destruct (Req_EM_T 0 0); [reflexivity|contradiction].
Qed.
Print Assumptions C128_zero_refuted.

(** Without a tune spread the centroid goes on oscillating. *)
Theorem C128_no_spread : forall N Z nu0,
  calculate_centroids (beam N Z nu0 []) = Ok (map (fun n => Some (Z * cos (2 * PI * INR n * nu0))) (seq 0 N)).
Proof.
  intros N Z nu0. destruct (C29_centroids_partial (beam N Z nu0 [])) as (r & E & L & H & _); [discriminate|discriminate|]. cbn in L, H.
  rewrite E. f_equal. rewrite <- (map_map (fun n => Z * cos (2 * PI * INR n * nu0)) Some). f_equal.
  set (f := fun n => Z * cos (2 * PI * INR n * nu0)).
  apply (nth_ext _ _ 0 (f 0%nat)); [rewrite map_length, seq_length; exact L|]. intros k Hk. rewrite L in Hk. rewrite map_nth, seq_nth by exact Hk. cbn [plus].
  destruct (H k Hk) as [C _]. eapply centroid_unique; [exact C|]. unfold centroid_after. apply (is_RInt_ext (fun _ => f k)); [|apply const_int].
  intros A _. cbn beta. unfold f. cbn [tune_shift]. now rewrite Rminus_0_r.
Qed.
Print Assumptions C128_no_spread.

(** ---------- decoherence ---------- *)
Ltac conj := repeat match goal with |- _ /\ _ => split end.
Fixpoint slope (mu : list R) (A : R) : R := match mu with [] => 0 | m :: r => (m + tune_shift r A) + A * slope r A end.
Fixpoint bend (mu : list R) (A : R) : R := match mu with [] => 0 | m :: r => 2 * slope r A + A * bend r A end.
Lemma tune_shift_derive : forall mu A, is_derive (tune_shift mu) A (slope mu A).
Proof.
  induction mu as [|m mu IH]; intros A; cbn [tune_shift slope]; [apply (is_derive_const (K := R_AbsRing) (V := R_NormedModule) 0 A)|].
  specialize (IH A). auto_derive; [conj; exists (slope mu A); exact IH|].
  replace (Derive (fun x => tune_shift mu x) A) with (slope mu A) by (symmetry; apply is_derive_unique; exact IH). ring.
Qed.
Lemma slope_derive : forall mu A, is_derive (slope mu) A (bend mu A).
Proof.
  induction mu as [|m mu IH]; intros A; cbn [slope bend]; [apply (is_derive_const (K := R_AbsRing) (V := R_NormedModule) 0 A)|].
  specialize (IH A). pose proof (tune_shift_derive mu A) as T. auto_derive.
  - conj; first [exact I | exists (slope mu A); exact T | exists (bend mu A); exact IH].
  - replace (Derive (fun x => tune_shift mu x) A) with (slope mu A) by (symmetry; apply is_derive_unique; exact T).
    replace (Derive (fun x => slope mu x) A) with (bend mu A) by (symmetry; apply is_derive_unique; exact IH). ring.
Qed.
Lemma tune_shift_nonneg : forall mu A, List.Forall (Rle 0) mu -> 0 <= A -> 0 <= tune_shift mu A.
Proof. induction mu as [|m mu IH]; intros A F H; cbn; [lra|]. inversion F; subst. specialize (IH A H3 H). apply Rmult_le_pos; lra. Qed.
Lemma slope_nonneg : forall mu A, List.Forall (Rle 0) mu -> 0 <= A -> 0 <= slope mu A.
Proof.
  induction mu as [|m mu IH]; intros A F H; cbn; [lra|]. inversion F; subst. specialize (IH A H3 H). pose proof (tune_shift_nonneg mu A H3 H).
  pose proof (Rmult_le_pos _ _ H IH). lra.
Qed.
Lemma bend_nonneg : forall mu A, List.Forall (Rle 0) mu -> 0 <= A -> 0 <= bend mu A.
Proof.
  induction mu as [|m mu IH]; intros A F H; cbn; [lra|]. inversion F; subst. specialize (IH A H3 H). pose proof (slope_nonneg mu A H3 H).
  pose proof (Rmult_le_pos _ _ H IH). lra.
Qed.

Lemma decay_one : forall nu0 m0 rest n x e, 0 < m0 -> List.Forall (Rle 0) rest -> (0 < n)%nat -> (e = 1 \/ e = -1) ->
  is_RInt (fun A => cos (2 * PI * INR n * (nu0 - tune_shift (m0 :: rest) A))) 0 1 x -> e * x <= / (PI * INR n * m0).
Proof.
  intros nu0 m0 rest n x e Hm F Hn He H. set (mu := m0 :: rest) in *. pose proof PI_RGT_0 as HP. assert (HN : 0 < INR n) by (now apply lt_0_INR).
  set (c := 2 * PI * INR n). assert (Hc : 0 < c) by (apply twopi_pos; exact HN).
  set (th := fun A => c * (nu0 - tune_shift mu A)). set (g := fun A => cos (th A)).
  assert (Fm : List.Forall (Rle 0) mu) by (constructor; [lra|exact F]).
  assert (Sl : forall A, 0 <= A -> m0 <= slope mu A).
  { intros A HA. cbn [slope mu]. pose proof (tune_shift_nonneg rest A F HA). pose proof (slope_nonneg rest A F HA). pose proof (Rmult_le_pos _ _ HA H1). lra. }
  assert (S0 : slope mu 0 = m0).
  { cbn [mu slope]. assert (tune_shift rest 0 = 0) as -> by (destruct rest; cbn; ring). ring. } clearbody mu.
  assert (Cg : forall A, continuous g A).
  { intros A. apply (continuous_comp th cos); [|apply (ex_derive_continuous cos); auto_derive; exact I].
    apply (ex_derive_continuous th). unfold th. auto_derive. conj; first [exact I | exists (slope mu A); apply tune_shift_derive]. }
  assert (Dg : forall A, is_derive (fun b => RInt g 0 b) A (g A)).
  { intros A. apply (is_derive_RInt g (fun b => RInt g 0 b) 0 A); [|apply Cg]. apply filter_forall. intros b. apply (RInt_correct g).
    apply (ex_RInt_continuous g). intros z _. apply Cg. }
  assert (E0 : RInt g 0 0 = 0) by apply (RInt_point (V := R_CompleteNormedModule) 0 g).
  assert (E1 : RInt g 0 1 = x) by (apply (is_RInt_unique (V := R_CompleteNormedModule)); exact H).
  assert (exists J : R -> R, J 0 = 0 /\ J 1 = x /\ forall A, is_derive J A (g A)) as (J & J0 & J1 & DJ) by (exists (fun b => RInt g 0 b); auto).
  (* the function that decreases *)
  set (G := fun A => e * J A + e * (sin (th A) / (c * slope mu A)) + / (c * slope mu A)).
  set (dG := fun A => - (bend mu A / (c * slope mu A ^ 2)) * (e * sin (th A) + 1)).
  assert (DG : forall A, 0 <= A -> is_derive G A (dG A)).
  { intros A HA. specialize (Sl A HA). unfold G, dG, th. pose proof (tune_shift_derive mu A) as T. pose proof (slope_derive mu A) as B.
    pose proof (DJ A) as Q. assert (N1 : c * slope mu A <> 0) by (apply Rgt_not_eq, Rmult_lt_0_compat; lra).
    auto_derive.
    - conj; first [exact I | exact N1 | exists (g A); exact Q | exists (slope mu A); exact T | exists (bend mu A); exact B].
    - replace (Derive (fun x => tune_shift mu x) A) with (slope mu A) by (symmetry; apply is_derive_unique; exact T).
      replace (Derive (fun x => slope mu x) A) with (bend mu A) by (symmetry; apply is_derive_unique; exact B).
      replace (Derive (fun x => J x) A) with (g A) by (symmetry; apply is_derive_unique; exact Q).
      unfold g, th. unfold Rminus. field. split; lra. }
  destruct (MVT_gen G 0 1 dG) as (z & Hz & M).
  { intros A HA. rewrite Rmin_left, Rmax_right in HA by lra. apply DG. lra. }
  { intros A HA. rewrite Rmin_left, Rmax_right in HA by lra. apply continuity_pt_filterlim. apply (ex_derive_continuous G). exists (dG A). apply DG. lra. }
  rewrite Rmin_left, Rmax_right in Hz by lra.
  assert (D : dG z <= 0).
  { unfold dG. assert (0 <= bend mu z / (c * slope mu z ^ 2)).
    { apply Rmult_le_pos; [apply bend_nonneg; [exact Fm|lra]|]. left. apply Rinv_0_lt_compat, Rmult_lt_0_compat; [exact Hc|].
      apply pow_lt. specialize (Sl z ltac:(lra)). lra. }
    assert (0 <= e * sin (th z) + 1) by (pose proof (SIN_bound (th z)); destruct He as [-> | ->]; lra).
    pose proof (Rmult_le_pos _ _ H0 H1). lra. }
  assert (Q : G 1 <= G 0) by lra. unfold G in Q. rewrite J0, J1 in Q.
  rewrite S0 in Q. assert (P1 : 0 < / (c * slope mu 1)).
  { apply Rinv_0_lt_compat, Rmult_lt_0_compat; [exact Hc|]. specialize (Sl 1 ltac:(lra)). lra. }
  assert (P0 : 0 < / (c * m0)) by (apply Rinv_0_lt_compat, Rmult_lt_0_compat; assumption).
  assert (B1 : - / (c * slope mu 1) <= e * (sin (th 1) / (c * slope mu 1))).
  { unfold Rdiv. pose proof (SIN_bound (th 1)). destruct He as [-> | ->]; nra. }
  assert (B0 : e * (sin (th 0) / (c * m0)) <= / (c * m0)).
  { unfold Rdiv. pose proof (SIN_bound (th 0)). destruct He as [-> | ->]; nra. }
  assert (R2 : / (PI * INR n * m0) = 2 * / (c * m0)) by (unfold c; field; repeat split; lra).
  rewrite R2. lra.
Qed.

Lemma decay_cos : forall nu0 m0 rest n x, 0 < m0 -> List.Forall (Rle 0) rest -> (0 < n)%nat ->
  is_RInt (fun A => cos (2 * PI * INR n * (nu0 - tune_shift (m0 :: rest) A))) 0 1 x -> Rabs x <= / (PI * INR n * m0).
Proof.
  intros nu0 m0 rest n x Hm F Hn H. pose proof (decay_one nu0 m0 rest n x 1 Hm F Hn (or_introl eq_refl) H).
  pose proof (decay_one nu0 m0 rest n x (-1) Hm F Hn (or_intror eq_refl) H). apply Rabs_le. lra.
Qed.

Lemma centroid_decay : forall Z nu0 m0 rest n x, 0 < m0 -> List.Forall (Rle 0) rest -> (0 < n)%nat ->
  centroid_after Z nu0 (m0 :: rest) n x -> Rabs x <= Rabs Z / (PI * INR n * m0).
Proof.
  intros Z nu0 m0 rest n x Hm F Hn H. destruct (Req_dec Z 0) as [->|HZ].
  - assert (x = 0).
    { eapply centroid_unique; [exact H|]. unfold centroid_after. apply (is_RInt_ext (fun _ => 0)); [intros A _; cbn beta; symmetry; apply Rmult_0_l|apply const_int]. }
    subst x. rewrite Rabs_R0. unfold Rdiv. rewrite Rmult_0_l. apply Rle_refl.
  - assert (C : is_RInt (fun A => cos (2 * PI * INR n * (nu0 - tune_shift (m0 :: rest) A))) 0 1 (/ Z * x)).
    { eapply is_RInt_ext; [|apply (is_RInt_scal (V := R_NormedModule) _ 0 1 (/ Z) x H)]. intros A _. unfold scal; simpl; unfold mult; simpl.
      rewrite <- Rmult_assoc, Rinv_l, Rmult_1_l by exact HZ. reflexivity. }
    pose proof (decay_cos _ _ _ _ _ Hm F Hn C) as D. rewrite Rabs_mult, Rabs_Rinv in D by exact HZ. pose proof (Rabs_pos_lt Z HZ).
    apply Rmult_le_reg_l with (/ Rabs Z); [now apply Rinv_0_lt_compat|]. eapply Rle_trans; [exact D|]. unfold Rdiv. rewrite <- Rmult_assoc, Rinv_l by lra. lra.
Qed.

(** The centroid dies out: with a spread of tunes that grows or falls with amplitude throughout,
    it is after n turns at most the offset over pi n |m0|, m0 the first coefficient. *)
Definition one_sign (m0 : R) (rest : list R) : Prop :=
  (0 < m0 /\ List.Forall (Rle 0) rest) \/ (m0 < 0 /\ List.Forall (fun m => m <= 0) rest).
Theorem C128_dies_out : forall N Z nu0 m0 rest r, usable (m0 :: rest) -> one_sign m0 rest ->
  calculate_centroids (beam N Z nu0 (m0 :: rest)) = Ok (map Some r) ->
  List.length r = N /\
  (forall n, (0 < n < N)%nat -> Rabs (nth n r 0) <= Rabs Z / (PI * INR n * Rabs m0)).
Proof.
  intros N Z nu0 m0 rest r U S E. destruct (entries _ _ _ _ _ U E) as [L H]. split; [exact L|]. intros n Hn. specialize (H n ltac:(lia)).
  destruct S as [[P F]|[P F]].
  - rewrite (Rabs_right m0) by lra. apply (centroid_decay Z nu0 m0 rest n); [exact P|exact F|lia|exact H].
  - rewrite (Rabs_left m0) by lra. apply (centroid_decay Z (- nu0) (- m0) (map Ropp rest) n); [lia || lra| |lia|].
    + clear - F. induction F; cbn; constructor; [lra|assumption].
    + unfold centroid_after in *. eapply is_RInt_ext; [|exact H]. intros A _. cbn beta. f_equal.
      replace (tune_shift (- m0 :: map Ropp rest) A) with (tune_shift (map Ropp (m0 :: rest)) A) by reflexivity. rewrite tune_shift_opp.
      replace (2 * PI * INR n * (- nu0 - - tune_shift (m0 :: rest) A)) with (- (2 * PI * INR n * (nu0 - tune_shift (m0 :: rest) A))) by ring.
      symmetry. apply cos_neg.
Qed.
Print Assumptions C128_dies_out.

Lemma mul3_pos : forall a b c, 0 < a -> 0 < b -> 0 < c -> 0 < a * b * c.
Proof. intros. apply Rmult_lt_0_compat; [now apply Rmult_lt_0_compat|assumption]. Qed.
Lemma INR_archimed_q : forall q, exists T : nat, q < INR T.
Proof.
  intros q. exists (Z.to_nat (up (Rabs q))). pose proof (archimed (Rabs q)) as [A _]. pose proof (Rabs_pos q). pose proof (Rle_abs q).
  rewrite INR_IZR_INZ, Z2Nat.id; [lra|]. apply le_IZR. lra.
Qed.

(** hence below any bound from some turn on *)
Theorem C128_vanishes : forall Z nu0 m0 rest eps, usable (m0 :: rest) -> one_sign m0 rest -> 0 < eps ->
  exists T, forall N r n, calculate_centroids (beam N Z nu0 (m0 :: rest)) = Ok (map Some r) -> (T <= n < N)%nat -> Rabs (nth n r 0) < eps.
Proof.
  intros Z nu0 m0 rest eps U S He. pose proof PI_RGT_0 as HP.
  assert (M : 0 < Rabs m0) by (apply Rabs_pos_lt; destruct S as [[? _]|[? _]]; lra).
  set (q := Rabs Z / (PI * Rabs m0 * eps)). destruct (INR_archimed_q q) as (T & HT).
  exists (1 + T)%nat. intros N r n E Hn. destruct (C128_dies_out N Z nu0 m0 rest r U S E) as [_ D]. specialize (D n ltac:(lia)).
  eapply Rle_lt_trans; [exact D|]. assert (HN : q < INR n) by (eapply Rlt_le_trans; [exact HT|apply le_INR; lia]).
  assert (P : 0 < INR n) by (apply lt_0_INR; lia).
  apply Rmult_lt_reg_r with (PI * INR n * Rabs m0); [apply mul3_pos; assumption|].
  unfold Rdiv at 1. rewrite Rmult_assoc, Rinv_l, Rmult_1_r by (apply Rgt_not_eq; apply mul3_pos; assumption).
  unfold q in HN. apply Rmult_lt_compat_r with (r := PI * Rabs m0 * eps) in HN; [|apply mul3_pos; assumption].
  unfold Rdiv in HN. rewrite Rmult_assoc, Rinv_l, Rmult_1_r in HN by (apply Rgt_not_eq; apply mul3_pos; assumption). lra.
Qed.
Print Assumptions C128_vanishes.

(** The hypotheses are met: four coefficients, ten turns. *)
Example C128_applies : exists r, calculate_centroids (beam 10 3 (1/4) [2; 0; 1; 5]) = Ok (map Some r) /\
  usable [2; 0; 1; 5] /\ one_sign 2 [0; 1; 5] /\ Rabs (nth 9 r 0) <= 3 / (PI * 9 * 2).
Proof.
  assert (U : usable [2; 0; 1; 5]) by (split; discriminate).
  assert (S : one_sign 2 [0; 1; 5]) by (left; split; [lra|repeat constructor; lra]).
  destruct (C29_centroids_partial (beam 10 3 (1/4) [2; 0; 1; 5])) as (r & E & _); [apply U|apply U|].
  exists r. split; [exact E|]. split; [exact U|]. split; [exact S|].
  destruct (C128_dies_out _ _ _ _ _ _ U S E) as [_ D]. specialize (D 9%nat ltac:(lia)). rewrite (Rabs_right 3), (Rabs_right 2) in D by lra.
  replace (INR 9) with 9 in D by (cbn; lra). exact D.
Qed.

(** Theorems about decoherence (properties C28, C29). *)
From Coq Require Import List Reals Lra Lia Psatz Bool Arith.
From Coquelicot Require Import Coquelicot.
From Verif Require Import PyBase Decoh_Model Decoh_Spec.
Import ListNotations.
Open Scope R_scope.

Lemma twopi_pos : forall n, 0 < n -> 0 < 2 * PI * n.
Proof. intros n H. pose proof PI_RGT_0 as P. assert (0 < PI * n) by (apply Rmult_lt_0_compat; lra). lra. Qed.

Lemma advance_scaled : forall mu k n A, 0 < n -> (0 < k)%nat ->
  advance_from mu k (2 * PI * n * A) n = 2 * PI * n * A ^ (k - 1) * tune_shift mu A.
Proof.
  induction mu as [|m mu IH]; intros k n A Hn Hk; cbn [advance_from tune_shift]; [ring|].
  assert (HP : 2 * PI * n <> 0) by (apply Rgt_not_eq; apply twopi_pos; exact Hn).
  rewrite IH by (assumption || lia). destruct k as [|k]; [lia|]. replace (S k - 1)%nat with k by lia.
  replace (S (S k) - 1)%nat with (S k) by lia. set (c := 2 * PI * n) in *.
  assert (Hc : c ^ k <> 0) by (apply pow_nonzero; exact HP).
  rewrite Rpow_mult_distr. rewrite <- !tech_pow_Rmult. field. exact Hc.
Qed.

Lemma advance_continuous : forall mu k n x, continuous (fun a => advance_from mu k a n) x.
Proof.
  induction mu as [|m mu IH]; intros k n x; cbn [advance_from].
  - apply continuous_const.
  - apply (continuous_plus (fun a => m * a ^ k / (2 * PI * n) ^ (k - 1)) (fun a => advance_from mu (S k) a n)); [|apply IH].
    apply (ex_derive_continuous (fun a => m * a ^ k / (2 * PI * n) ^ (k - 1))). auto_derive. exact I.
Qed.

(** The integrand without the cut-off. *)
Definition smooth_integrand (s : centroid) (a n : R) : R :=
  d_Z s / (2 * n) * (cos (2 * PI * d_nu0 s * n - advance_from (d_mu s) 1 a n) / PI).

Lemma smooth_continuous : forall s n x, continuous (fun a => smooth_integrand s a n) x.
Proof.
  intros s n x. unfold smooth_integrand.
  apply (continuous_mult (fun _ => d_Z s / (2 * n)) (fun a => cos (2 * PI * d_nu0 s * n - advance_from (d_mu s) 1 a n) / PI)).
  - apply continuous_const.
  - apply (continuous_mult (fun a => cos (2 * PI * d_nu0 s * n - advance_from (d_mu s) 1 a n)) (fun _ => / PI)).
    + apply (continuous_comp (fun a => 2 * PI * d_nu0 s * n - advance_from (d_mu s) 1 a n) cos).
      * apply (continuous_minus (fun _ => 2 * PI * d_nu0 s * n) (fun a => advance_from (d_mu s) 1 a n)).
        -- apply continuous_const.
        -- apply advance_continuous.
      * apply (ex_derive_continuous cos). auto_derive. exact I.
    + apply continuous_const.
Qed.

Lemma reduced_smooth : forall s a n, a <= 2 * PI * n -> reduced_integrand s a n = smooth_integrand s a n.
Proof.
  intros s a n H. unfold reduced_integrand, smooth_integrand. destruct (Rle_dec a (2 * PI * n)); [|contradiction].
  rewrite cos_minus. reflexivity.
Qed.

Lemma any_order_spec : forall s n, (0 < n)%nat ->
  centroid_after (d_Z s) (d_nu0 s) (d_mu s) n (RInt (fun a => reduced_integrand s a (INR n)) 0 (2 * PI * INR n)).
Proof.
  intros s n Hn. pose proof PI_RGT_0 as HPI. assert (HN : 0 < INR n) by (apply lt_0_INR; exact Hn).
  assert (HL : 0 < 2 * PI * INR n) by (apply twopi_pos; exact HN).
  set (u := 2 * PI * INR n) in *.
  assert (E : is_RInt (fun a => reduced_integrand s a (INR n)) 0 u (RInt (fun a => reduced_integrand s a (INR n)) 0 u)).
  { apply (RInt_correct (fun a => reduced_integrand s a (INR n))).
    apply (ex_RInt_ext (fun a => smooth_integrand s a (INR n))).
    - intros x Hx. symmetry. apply reduced_smooth. rewrite Rmin_left, Rmax_right in Hx by lra. fold u. lra.
    - apply (ex_RInt_continuous (fun a => smooth_integrand s a (INR n))). intros z _. apply smooth_continuous. }
  unfold centroid_after.
  apply (is_RInt_ext (fun y => scal u (reduced_integrand s (u * y + 0) (INR n)))).
  - intros A HA. rewrite Rmin_left, Rmax_right in HA by lra.
    rewrite reduced_smooth by (fold u; nra). unfold smooth_integrand. rewrite Rplus_0_r.
    unfold u at 2. rewrite advance_scaled by (assumption || lia). change (A ^ (1 - 1)) with 1.
    unfold scal; simpl; unfold mult; simpl. 
    replace (2 * PI * d_nu0 s * INR n - 2 * PI * INR n * 1 * tune_shift (d_mu s) A)
      with (2 * PI * INR n * (d_nu0 s - tune_shift (d_mu s) A)) by ring.
    unfold u. field. lra.
  - apply (is_RInt_comp_lin (fun a => reduced_integrand s a (INR n)) u 0 0 1).
    replace (u * 0 + 0) with 0 by ring. replace (u * 1 + 0) with u by ring. exact E.
Qed.

Lemma const_int : forall c : R, is_RInt (fun _ => c) 0 1 c.
Proof.
  intros c. pose proof (is_RInt_const (V := R_NormedModule) 0 1 c) as H.
  change (is_RInt (fun _ : R => c) 0 1 ((1 - 0) * c)) in H.
  replace ((1 - 0) * c) with c in H by ring. exact H.
Qed.

Lemma turn_zero : forall Z nu0 mu, centroid_after Z nu0 mu 0 Z.
Proof.
  intros Z nu0 mu. unfold centroid_after. apply (is_RInt_ext (fun _ => Z)).
  - intros x _. change (Z = Z * cos (2 * PI * INR 0 * (nu0 - tune_shift mu x))). simpl (INR 0). rewrite Rmult_0_r, Rmult_0_l, cos_0. ring.
  - apply const_int.
Qed.

Lemma first_order_spec : forall Z nu0 m0 n, (0 < n)%nat -> m0 <> 0 ->
  centroid_after Z nu0 [m0] n
    (Z / (2 * PI * INR n * m0) * (cos (2 * PI * nu0 * INR n) * sin (2 * PI * INR n * m0)
           + 2 * sin (2 * PI * nu0 * INR n) * sin (PI * INR n * m0) ^ 2)).
Proof.
  intros Z nu0 m0 n Hn Hm. pose proof PI_RGT_0 as HPI. assert (HN : 0 < INR n) by (apply lt_0_INR; exact Hn).
  set (N := INR n) in *. unfold centroid_after. fold N.
  set (F := fun A => - (Z * sin (2 * PI * N * (nu0 - A * m0))) / (2 * PI * N * m0)).
  replace (Z / (2 * PI * N * m0) * _) with (minus (F 1) (F 0)).
  - apply (is_RInt_derive F).
    + intros x _. unfold F. auto_derive; [exact I|]. cbn [tune_shift]. rewrite Rplus_0_r. unfold Rdiv. field_simplify_eq; [|repeat split; lra].
      replace (nu0 + - (x * m0)) with (nu0 - x * m0) by ring. ring.
    + intros x _. apply (ex_derive_continuous (fun A => Z * cos (2 * PI * N * (nu0 - tune_shift [m0] A)))). cbn [tune_shift].
      auto_derive. exact I.
  - unfold F, minus, plus, opp; simpl.
    set (c := 2 * PI * nu0 * N). set (x := PI * N * m0).
    replace (2 * PI * N * (nu0 - 1 * m0)) with (c - 2 * x) by (unfold c, x; ring).
    replace (2 * PI * N * (nu0 - 0 * m0)) with c by (unfold c; ring).
    replace (2 * PI * N * m0) with (2 * x) by (unfold x; ring).
    assert (Hx : x <> 0) by (unfold x; apply Rmult_integral_contrapositive_currified; [apply Rgt_not_eq; apply Rmult_lt_0_compat; lra|exact Hm]).
    rewrite sin_minus, cos_2a_sin. field. exact Hx.
Qed.

Lemma fresnel_C_derive : forall x, is_derive fresnel_C x (cos (PI / 2 * x ^ 2)).
Proof.
  assert (HC : forall z, continuous (fun t => cos (PI / 2 * t ^ 2)) z).
  { intros z. apply (ex_derive_continuous (fun t => cos (PI / 2 * t ^ 2))). auto_derive. exact I. }
  intros x. apply (is_derive_RInt (fun t => cos (PI / 2 * t ^ 2)) fresnel_C 0 x).
  - apply filter_forall. intros b. apply (RInt_correct (fun t => cos (PI / 2 * t ^ 2))).
    apply (ex_RInt_continuous (fun t => cos (PI / 2 * t ^ 2))). intros z _. apply HC.
  - apply HC.
Qed.
Lemma fresnel_S_derive : forall x, is_derive fresnel_S x (sin (PI / 2 * x ^ 2)).
Proof.
  assert (HC : forall z, continuous (fun t => sin (PI / 2 * t ^ 2)) z).
  { intros z. apply (ex_derive_continuous (fun t => sin (PI / 2 * t ^ 2))). auto_derive. exact I. }
  intros x. apply (is_derive_RInt (fun t => sin (PI / 2 * t ^ 2)) fresnel_S 0 x).
  - apply filter_forall. intros b. apply (RInt_correct (fun t => sin (PI / 2 * t ^ 2))).
    apply (ex_RInt_continuous (fun t => sin (PI / 2 * t ^ 2))). intros z _. apply HC.
  - apply HC.
Qed.

Lemma derive_mix : forall (c1 c2 : R -> R) (A d1 d2 a b Z k : R), is_derive c1 A d1 -> is_derive c2 A d2 ->
  is_derive (fun A => (c1 A * a + c2 A * b) * Z / k) A ((d1 * a + d2 * b) * Z / k).
Proof.
  intros c1 c2 A d1 d2 a b Z k H1 H2. auto_derive.
  - split; [exists d1; exact H1|]. split; [exists d2; exact H2|]. exact Logic.I.
  - replace (Derive (fun x => c1 x) A) with d1 by (symmetry; apply is_derive_unique; exact H1).
    replace (Derive (fun x => c2 x) A) with d2 by (symmetry; apply is_derive_unique; exact H2). unfold Rdiv. ring.
Qed.

Lemma second_order_spec : forall Z nu0 m0 m1 n, (0 < n)%nat -> 0 < m1 ->
  let N := INR n in
  let w := fun u => (m0 * N * PI + m1 * u) / sqrt (m1 * N * PI ^ 2) in
  let K := PI * m0 ^ 2 * N / (2 * m1) + 2 * PI * nu0 * N in
  let I := fun u => fresnel_C (w u) * cos K + fresnel_S (w u) * sin K in
  centroid_after Z nu0 [m0; m1] n ((I (2 * PI * N) - I 0) * Z / sqrt (4 * m1 * N)).
Proof.
  intros Z nu0 m0 m1 n Hn Hm N w K I. pose proof PI_RGT_0 as HPI. assert (HN : 0 < N) by (apply lt_0_INR; exact Hn).
  unfold centroid_after. fold N.
  set (q := sqrt (m1 * N)).
  assert (Hmn : 0 < m1 * N) by (apply Rmult_lt_0_compat; assumption).
  assert (Hq : 0 < q) by (apply sqrt_lt_R0; exact Hmn).
  assert (Hq2 : q * q = m1 * N) by (apply sqrt_sqrt; lra).
  assert (E1 : sqrt (m1 * N * PI ^ 2) = q * PI).
  { rewrite sqrt_mult by (lra || apply pow2_ge_0). fold q. f_equal. apply sqrt_pow2. lra. }
  assert (E2 : sqrt (4 * m1 * N) = 2 * q).
  { replace (4 * m1 * N) with (2 ^ 2 * (m1 * N)) by ring. rewrite sqrt_mult by lra. fold q. rewrite sqrt_pow2 by lra. reflexivity. }
  set (F := fun A => I (2 * PI * N * A) * Z / (2 * q)).
  replace ((I (2 * PI * N) - I 0) * Z / sqrt (4 * m1 * N)) with (minus (F 1) (F 0)).
  - apply (is_RInt_derive F).
    + intros A _. unfold F, I.
      assert (Dw : is_derive (fun A => w (2 * PI * N * A)) A (2 * q)).
      { unfold w. rewrite E1. auto_derive; [exact Logic.I|].
        apply Rmult_eq_reg_r with (q * PI); [|apply Rgt_not_eq; apply Rmult_lt_0_compat; assumption].
        transitivity (2 * PI * (m1 * N)); [field; lra|rewrite <- Hq2; ring]. }
      pose proof (is_derive_comp fresnel_C (fun A => w (2 * PI * N * A)) A _ _ (fresnel_C_derive _) Dw) as D1.
      pose proof (is_derive_comp fresnel_S (fun A => w (2 * PI * N * A)) A _ _ (fresnel_S_derive _) Dw) as D2.
      unfold scal in D1, D2; simpl in D1, D2; unfold mult in D1, D2; simpl in D1, D2.
      set (ww := w (2 * PI * N * A)) in *.
      assert (EW : PI / 2 * ww ^ 2 = K - 2 * PI * N * (nu0 - tune_shift [m0; m1] A)).
      { unfold ww, w, K. rewrite E1. cbn [tune_shift].
        replace (PI / 2 * ((m0 * N * PI + m1 * (2 * PI * N * A)) / (q * PI)) ^ 2)
          with (PI / 2 * (m0 * N + m1 * 2 * N * A) ^ 2 / (q * q)) by (field; lra).
        rewrite Hq2. field. lra. }
      replace (ww * (ww * 1)) with (ww ^ 2) in D1, D2 by (simpl; ring).
      rewrite EW in D1, D2.
      set (th := 2 * PI * N * (nu0 - tune_shift [m0; m1] A)) in *.
      pose proof (derive_mix _ _ A _ _ (cos K) (sin K) Z (2 * q) D1 D2) as D.
      assert (EV : (2 * q * cos (K - th) * cos K + 2 * q * sin (K - th) * sin K) * Z / (2 * q) = Z * cos th).
      { rewrite cos_minus, sin_minus. pose proof (sin2_cos2 K) as P. unfold Rsqr in P.
        replace ((2 * q * (cos K * cos th + sin K * sin th) * cos K + 2 * q * (sin K * cos th - cos K * sin th) * sin K) * Z / (2 * q))
          with (Z * cos th * (sin K * sin K + cos K * cos K)) by (field; lra).
        rewrite P. ring. }
      rewrite EV in D. exact D.
    + intros x _. apply (ex_derive_continuous (fun A => Z * cos (2 * PI * N * (nu0 - tune_shift [m0; m1] A)))). cbn [tune_shift].
      auto_derive. exact Logic.I.
  - unfold F, minus, plus, opp; simpl. rewrite E2. rewrite !Rmult_1_r, !Rmult_0_r. field. lra.
Qed.

Lemma centroid_unique : forall Z nu0 mu n x y, centroid_after Z nu0 mu n x -> centroid_after Z nu0 mu n y -> x = y.
Proof.
  intros Z nu0 mu n x y H1 H2. unfold centroid_after in *.
  rewrite <- (is_RInt_unique (V := R_CompleteNormedModule) _ _ _ _ H1). exact (is_RInt_unique (V := R_CompleteNormedModule) _ _ _ _ H2).
Qed.

(** ---------------- C28 ---------------- *)
(** The turn a caller asks for: the one given, and the last one if none is given. *)
Definition asks_for (s : centroid) (turn : option nat) (n : nat) : Prop := turn = Some n \/ (turn = None /\ n = d_N s).
Lemma asks_turn : forall s turn n, asks_for s turn n -> turn_of s turn = n.
Proof. intros s turn n [->|[-> ->]]; reflexivity. Qed.

Theorem C28_any_order : forall s turn n, asks_for s turn n -> exists x,
  integrate_any_order s turn = Ok x /\ centroid_after (d_Z s) (d_nu0 s) (d_mu s) n x.
Proof.
  intros s turn n A. unfold integrate_any_order. rewrite (asks_turn _ _ _ A). clear A. destruct n as [|n].
  - exists (d_Z s). split; [reflexivity|apply turn_zero].
  - cbn [Nat.eqb]. eexists. split; [reflexivity|apply any_order_spec; lia].
Qed.
Print Assumptions C28_any_order.

Theorem C28_first_order_partial : forall s m0 rest turn n, asks_for s turn n -> d_mu s = m0 :: rest -> m0 <> 0 -> exists x,
  integrate_first_order s turn = Ok x /\ centroid_after (d_Z s) (d_nu0 s) [m0] n x.
Proof.
  intros s m0 rest turn n A Hmu Hm. unfold integrate_first_order. rewrite (asks_turn _ _ _ A). clear A. destruct n as [|n].
  - exists (d_Z s). split; [reflexivity|apply turn_zero].
  - cbn [Nat.eqb]. unfold mu_at. rewrite Hmu. cbn [nth_error rbind]. unfold pdiv.
    assert (HN : 0 < INR (S n)) by (apply lt_0_INR; lia). pose proof PI_RGT_0.
    destruct (Req_EM_T _ 0) as [E|_].
    + exfalso. revert E. apply Rmult_integral_contrapositive_currified; [apply Rgt_not_eq; apply twopi_pos; exact HN|exact Hm].
    + cbn [rbind]. eexists. split; [reflexivity|apply first_order_spec; [lia|exact Hm]].
Qed.
Print Assumptions C28_first_order_partial.

Theorem C28_second_order_partial : forall s m0 m1 rest turn n, asks_for s turn n -> d_mu s = m0 :: m1 :: rest -> 0 < m1 -> exists x,
  integrate_second_order s turn = Ok (Some x) /\ centroid_after (d_Z s) (d_nu0 s) [m0; m1] n x.
Proof.
  intros s m0 m1 rest turn n A Hmu Hm. unfold integrate_second_order. rewrite (asks_turn _ _ _ A). clear A. destruct n as [|n].
  - exists (d_Z s). split; [reflexivity|apply turn_zero].
  - cbn [Nat.eqb]. unfold mu_at. rewrite Hmu. cbn [nth_error rbind].
    assert (HN : 0 < INR (S n)) by (apply lt_0_INR; lia). pose proof PI_RGT_0.
    assert (Hmn : 0 < m1 * INR (S n)) by (apply Rmult_lt_0_compat; assumption).
    unfold second_integrand, pdiv. destruct (Req_EM_T (2 * m1) 0); [lra|]. cbn [rbind].
    assert (Hp : 0 < m1 * INR (S n) * PI ^ 2) by (apply Rmult_lt_0_compat; [exact Hmn|apply pow_lt; lra]).
    unfold nsqrt. destruct (Rlt_dec (m1 * INR (S n) * PI ^ 2) 0); [lra|].
    destruct (Rlt_dec (4 * m1 * INR (S n)) 0); [lra|].
    assert (S1 : 0 < sqrt (m1 * INR (S n) * PI ^ 2)) by (apply sqrt_lt_R0; exact Hp).
    assert (S2 : 0 < sqrt (4 * m1 * INR (S n))) by (apply sqrt_lt_R0; lra).
    unfold ndiv. destruct (Req_EM_T (sqrt (m1 * INR (S n) * PI ^ 2)) 0); [lra|]. cbn [fmap1 fmap2].
    destruct (Req_EM_T (sqrt (4 * m1 * INR (S n))) 0); [lra|].
    eexists. split; [reflexivity|]. exact (second_order_spec (d_Z s) (d_nu0 s) m0 m1 (S n) ltac:(lia) Hm).
Qed.
Print Assumptions C28_second_order_partial.

(** With too few coefficients the closed forms raise, although the integral has a value. *)
Theorem C28_missing_refuted : forall s turn n, asks_for s turn n -> (0 < n)%nat ->
  (d_mu s = [] -> integrate_first_order s turn = Err IndexError) /\
  ((List.length (d_mu s) < 2)%nat -> integrate_second_order s turn = Err IndexError).
Proof.
  intros s turn n A N. unfold integrate_first_order, integrate_second_order. rewrite (asks_turn _ _ _ A). destruct n as [|n]; [lia|]. cbn [Nat.eqb]. unfold mu_at. split.
  - intros ->. reflexivity.
  - destruct (d_mu s) as [|m0 [|m1 rest]]; cbn [List.length]; intros L; [reflexivity|reflexivity|lia].
Qed.
Print Assumptions C28_missing_refuted.

Definition beam1 : centroid := {| d_N := 5; d_Z := 2; d_nu0 := 1/3; d_mu := [1/100] |}.
Example C28_applies : asks_for beam1 None 5 /\ exists x, integrate_first_order beam1 (Some 3%nat) = Ok x /\ integrate_any_order beam1 (Some 3%nat) = Ok x.
Proof.
  split; [right; split; reflexivity|]. destruct (C28_first_order_partial beam1 (1/100) [] (Some 3%nat) 3 (or_introl eq_refl) eq_refl ltac:(lra)) as (x & E & H).
  destruct (C28_any_order beam1 (Some 3%nat) 3 (or_introl eq_refl)) as (y & E' & H'). exists x. split; [exact E|]. rewrite E'. f_equal.
  exact (centroid_unique _ _ _ _ _ _ H' H).
Qed.

(** The closed forms fail where the integral does not: a zero slope raises, a negative
    second coefficient gives nan. *)
Theorem C28_closed_forms_refuted :
  (forall Z nu0 n, (0 < n)%nat ->
     integrate_first_order {| d_N := 5; d_Z := Z; d_nu0 := nu0; d_mu := [0] |} (Some n) = Err ZeroDivisionError) /\
  (forall Z nu0 m0 m1 n, (0 < n)%nat -> m1 < 0 ->
     integrate_second_order {| d_N := 5; d_Z := Z; d_nu0 := nu0; d_mu := [m0; m1] |} (Some n) = Ok None).
Proof.
  split.
  - intros Z nu0 n Hn. unfold integrate_first_order, turn_of. destruct n as [|n]; [lia|]. cbn [Nat.eqb].
    unfold mu_at. cbn [d_mu nth_error rbind]. unfold pdiv. rewrite Rmult_0_r. destruct (Req_EM_T 0 0); [reflexivity|lra].
  - intros Z nu0 m0 m1 n Hn Hm. unfold integrate_second_order, turn_of. destruct n as [|n]; [lia|]. cbn [Nat.eqb].
    unfold mu_at. cbn [d_mu nth_error rbind]. assert (HN : 0 < INR (S n)) by (apply lt_0_INR; lia). pose proof PI_RGT_0.
    unfold second_integrand, pdiv. destruct (Req_EM_T (2 * m1) 0); [lra|]. cbn [rbind]. unfold nsqrt at 1 2.
    assert (m1 * INR (S n) * PI ^ 2 < 0) by (assert (0 < INR (S n) * PI ^ 2) by (apply Rmult_lt_0_compat; [exact HN|apply pow_lt; lra]); nra).
    destruct (Rlt_dec (m1 * INR (S n) * PI ^ 2) 0); [|contradiction]. reflexivity.
Qed.
Print Assumptions C28_closed_forms_refuted.

(** ---------------- C29 ---------------- *)
Lemma centroid_bound : forall Z nu0 mu n x, centroid_after Z nu0 mu n x -> Rabs x <= Rabs Z.
Proof.
  intros Z nu0 mu n x H. unfold centroid_after in H.
  assert (B : forall t, - Rabs Z <= Z * cos t <= Rabs Z).
  { intros t. pose proof (COS_bound t). apply Rabs_le_between. rewrite Rabs_mult.
    assert (Rabs (cos t) <= 1) by (apply Rabs_le; lra). pose proof (Rabs_pos Z). nra. }
  assert (C : forall c : R, is_RInt (fun _ => c) 0 1 c).
  { apply const_int. }
  apply Rabs_le. split.
  - apply (is_RInt_le (fun _ => - Rabs Z) (fun A => Z * cos (2 * PI * INR n * (nu0 - tune_shift mu A))) 0 1); [lra|apply C|exact H|].
    intros. apply B.
  - apply (is_RInt_le (fun A => Z * cos (2 * PI * INR n * (nu0 - tune_shift mu A))) (fun _ => Rabs Z) 0 1); [lra|exact H|apply C|].
    intros. apply B.
Qed.

Lemma map_res_ok : forall (f : nat -> res fl) (P : nat -> R -> Prop) l,
  (forall n, exists x, f n = Ok (Some x) /\ P n x) ->
  exists r, map_res f l = Ok (map Some r) /\ List.length r = List.length l /\
    forall k, (k < List.length l)%nat -> P (nth k l 0%nat) (nth k r 0).
Proof.
  intros f P l Hf. induction l as [|a l (r & E & L & H)].
  - exists []. split; [reflexivity|]. split; [reflexivity|]. simpl. intros; lia.
  - destruct (Hf a) as (x & Ex & Hx). cbn [map_res]. rewrite Ex, E. cbn [rbind]. exists (x :: r).
    split; [reflexivity|]. split; [simpl; rewrite L; reflexivity|].
    intros [|k] Hk; cbn [nth]; [exact Hx|]. apply H. simpl in Hk. lia.
Qed.

(** One value per turn 0..N-1, in order, each the centroid after that many turns and none
    larger than the start. *)
Theorem C29_centroids_partial : forall s,
  (forall m0, d_mu s = [m0] -> m0 <> 0) -> (forall m0 m1, d_mu s = [m0; m1] -> 0 < m1) ->
  exists r, calculate_centroids s = Ok (map Some r) /\ List.length r = d_N s /\
    (forall k, (k < d_N s)%nat -> centroid_after (d_Z s) (d_nu0 s) (d_mu s) k (nth k r 0) /\ Rabs (nth k r 0) <= Rabs (d_Z s)) /\
    ((0 < d_N s)%nat -> nth 0 r 0 = d_Z s).
Proof.
  intros s H1 H2.
  assert (G : exists r, calculate_centroids s = Ok (map Some r) /\ List.length r = List.length (seq 0 (d_N s)) /\
    forall k, (k < List.length (seq 0 (d_N s)))%nat -> centroid_after (d_Z s) (d_nu0 s) (d_mu s) (nth k (seq 0 (d_N s)) 0%nat) (nth k r 0)).
  { unfold calculate_centroids. destruct (d_mu s) as [|m0 [|m1 [|m2 rest]]] eqn:Em; cbn [List.length];
      apply (map_res_ok _ (fun n x => centroid_after _ _ _ n x)); intros n.
    - destruct (C28_any_order s (Some n) n (or_introl eq_refl)) as (x & E & H). rewrite E, Em in *. exists x. split; [reflexivity|exact H].
    - destruct (C28_first_order_partial s m0 [] (Some n) n (or_introl eq_refl) Em (H1 m0 eq_refl)) as (x & E & H). rewrite E. exists x. split; [reflexivity|exact H].
    - destruct (C28_second_order_partial s m0 m1 [] (Some n) n (or_introl eq_refl) Em (H2 m0 m1 eq_refl)) as (x & E & H). rewrite E. exists x. split; [reflexivity|exact H].
    - destruct (C28_any_order s (Some n) n (or_introl eq_refl)) as (x & E & H). rewrite E, Em in *. exists x. split; [reflexivity|exact H]. }
  destruct G as (r & E & L & H). rewrite seq_length in L, H. exists r. split; [exact E|]. split; [exact L|]. split.
  - intros k Hk. specialize (H k Hk). rewrite seq_nth in H by exact Hk. split; [exact H|]. eapply centroid_bound. exact H.
  - intros Hp. specialize (H 0%nat Hp). rewrite seq_nth in H by exact Hp. simpl in H.
    exact (centroid_unique _ _ _ _ _ _ H (turn_zero _ _ _)).
Qed.
Print Assumptions C29_centroids_partial.

Example C29_applies : exists r, calculate_centroids beam1 = Ok (map Some r) /\ List.length r = 5%nat.
Proof.
  destruct (C29_centroids_partial beam1) as (r & E & L & _).
  - intros m0 E. injection E as <-. lra.
  - intros m0 m1 E. discriminate.
  - exists r. split; assumption.
Qed.

(** The coefficients left out: without a tune shift nothing is returned, and with a negative
    second coefficient every turn but the first is nan. *)
Theorem C29_coefficients_refuted :
  (forall N Z nu0, (2 <= N)%nat ->
     calculate_centroids {| d_N := N; d_Z := Z; d_nu0 := nu0; d_mu := [0] |} = Err ZeroDivisionError) /\
  (forall N Z nu0 m0 m1, (1 <= N)%nat -> m1 < 0 ->
     calculate_centroids {| d_N := N; d_Z := Z; d_nu0 := nu0; d_mu := [m0; m1] |} =
       Ok (Some Z :: repeat None (N - 1))).
Proof.
  assert (G0 : forall Z nu0 N n, (0 < n)%nat ->
     integrate_first_order {| d_N := N; d_Z := Z; d_nu0 := nu0; d_mu := [0] |} (Some n) = Err ZeroDivisionError).
  { intros Z nu0 N n Hn. unfold integrate_first_order, turn_of. destruct n as [|n]; [lia|]. cbn [Nat.eqb].
    unfold mu_at. cbn [d_mu nth_error rbind]. unfold pdiv. rewrite Rmult_0_r. destruct (Req_EM_T 0 0); [reflexivity|lra]. }
  assert (G1 : forall Z nu0 m0 m1 N n, (0 < n)%nat -> m1 < 0 ->
     integrate_second_order {| d_N := N; d_Z := Z; d_nu0 := nu0; d_mu := [m0; m1] |} (Some n) = Ok None).
  { intros Z nu0 m0 m1 N n Hn Hm. unfold integrate_second_order, turn_of. destruct n as [|n]; [lia|]. cbn [Nat.eqb].
    unfold mu_at. cbn [d_mu nth_error rbind]. assert (HN : 0 < INR (S n)) by (apply lt_0_INR; lia). pose proof PI_RGT_0.
    unfold second_integrand, pdiv. destruct (Req_EM_T (2 * m1) 0); [lra|]. cbn [rbind]. unfold nsqrt at 1 2.
    assert (m1 * INR (S n) * PI ^ 2 < 0) by (assert (0 < INR (S n) * PI ^ 2) by (apply Rmult_lt_0_compat; [exact HN|apply pow_lt; lra]); nra).
    destruct (Rlt_dec (m1 * INR (S n) * PI ^ 2) 0); [|contradiction]. reflexivity. }
  split.
  - intros N Z nu0 HN. unfold calculate_centroids. cbn [d_mu d_N List.length].
    destruct N as [|[|N]]; [lia|lia|]. cbn [seq map_res]. rewrite (G0 Z nu0 (S (S N)) 1%nat) by lia. reflexivity.
  - intros N Z nu0 m0 m1 HN Hm. unfold calculate_centroids. cbn [d_mu d_N List.length].
    destruct N as [|N]; [lia|]. cbn [seq map_res].
    set (s := {| d_N := S N; d_Z := Z; d_nu0 := nu0; d_mu := [m0; m1] |}).
    assert (F : forall k a, (0 < a)%nat -> map_res (fun n => integrate_second_order s (Some n)) (seq a k) = Ok (repeat None k)).
    { induction k as [|k IH]; intros a Ha; [reflexivity|]. cbn [seq map_res repeat].
      unfold s at 1. rewrite G1 by assumption. cbn [rbind]. rewrite IH by lia. reflexivity. }
    rewrite F by lia. cbn. rewrite Nat.sub_0_r. reflexivity.
Qed.
Print Assumptions C29_coefficients_refuted.

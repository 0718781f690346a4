From Coq Require Import List Reals Lra Lia Psatz Bool Arith ZArith.
From Verif Require Import PyBase Stats_Model Stats_Spec.
Open Scope R_scope.

Lemma rfloor_spec : forall x, IZR (rfloor x) <= x < IZR (rfloor x) + 1.
Proof. intros x. unfold rfloor. rewrite minus_IZR. destruct (archimed x) as [H1 H2]. lra. Qed.

Lemma rfloor_unique : forall x z, IZR z <= x < IZR z + 1 -> rfloor x = z.
Proof.
  intros x z H. pose proof (rfloor_spec x) as H'.
  assert (IZR (rfloor x) < IZR (z + 1)) by (rewrite plus_IZR; lra).
  assert (IZR z < IZR (rfloor x + 1)) by (rewrite plus_IZR; lra).
  apply lt_IZR in H0. apply lt_IZR in H1. lia.
Qed.

Lemma round_near : forall x, Rabs (IZR (round_half_even x) - x) <= 1 / 2.
Proof.
  intros x. unfold round_half_even. pose proof (rfloor_spec x) as H.
  destruct (Rlt_dec _ _); [apply Rabs_le; lra|].
  destruct (Rlt_dec _ _); [rewrite plus_IZR; apply Rabs_le; lra|].
  destruct (Z.even _); [|rewrite plus_IZR]; apply Rabs_le; lra.
Qed.

Lemma round_int : forall k, round_half_even (IZR k) = k.
Proof.
  intros k. unfold round_half_even. rewrite (rfloor_unique (IZR k) k) by lra.
  destruct (Rlt_dec _ _); [reflexivity|lra].
Qed.

Lemma pow10_pos : forall z, 0 < powerRZ 10 z.
Proof. intros. apply powerRZ_lt. lra. Qed.

Lemma ln10_pos : 0 < ln 10.
Proof. rewrite <- ln_1. apply ln_increasing; lra. Qed.

Lemma ln_pow10 : forall z, ln (powerRZ 10 z) = IZR z * ln 10.
Proof. intros. rewrite powerRZ_Rpower by lra. unfold Rpower. apply ln_exp. Qed.

Lemma decade_exp : forall v, v <> 0 -> let e := rfloor (ln (Rabs v) / ln 10) in
  powerRZ 10 e <= Rabs v < powerRZ 10 (e + 1).
Proof.
  intros v Hv e. assert (Ha : 0 < Rabs v) by (apply Rabs_pos_lt; exact Hv).
  pose proof (rfloor_spec (ln (Rabs v) / ln 10)) as [H1 H2]. fold e in H1, H2.
  pose proof ln10_pos as HL.
  assert (E : ln (Rabs v) = ln (Rabs v) / ln 10 * ln 10) by (field; lra).
  split.
  - destruct (Rle_lt_dec (powerRZ 10 e) (Rabs v)) as [|H]; [assumption|].
    apply ln_increasing in H; [|exact Ha]. rewrite ln_pow10 in H. nra.
  - destruct (Rlt_le_dec (Rabs v) (powerRZ 10 (e + 1))) as [|H]; [assumption|].
    destruct H as [H|H].
    + apply ln_increasing in H; [|apply pow10_pos]. rewrite ln_pow10, plus_IZR in H. nra.
    + apply (f_equal ln) in H. rewrite ln_pow10, plus_IZR in H. nra.
Qed.

Lemma pow10_lt : forall a b, powerRZ 10 a < powerRZ 10 b -> (a < b)%Z.
Proof.
  intros a b H. apply ln_increasing in H; [|apply pow10_pos]. rewrite !ln_pow10 in H.
  pose proof ln10_pos. apply lt_IZR. nra.
Qed.

Lemma decade_unique : forall v e e', powerRZ 10 e <= v < powerRZ 10 (e + 1) ->
  powerRZ 10 e' <= v < powerRZ 10 (e' + 1) -> e = e'.
Proof.
  intros v e e' H H'.
  assert (e < e' + 1)%Z by (apply pow10_lt; lra). assert (e' < e + 1)%Z by (apply pow10_lt; lra). lia.
Qed.

Lemma sigfig_eq : forall v n e, v <> 0 -> powerRZ 10 e <= Rabs v < powerRZ 10 (e + 1) ->
  specify_significant_figures v n =
  IZR (round_half_even (v / powerRZ 10 (e - n + 1))) * powerRZ 10 (e - n + 1).
Proof.
  intros v n e Hv He. unfold specify_significant_figures.
  destruct (Req_EM_T v 0); [contradiction|].
  rewrite (decade_unique (Rabs v) _ e (decade_exp v Hv) He). unfold py_round.
  assert (E : powerRZ 10 (e - n + 1) * powerRZ 10 (n - 1) = powerRZ 10 e).
  { rewrite <- powerRZ_add by lra. f_equal. lia. }
  pose proof (pow10_pos (e - n + 1)). pose proof (pow10_pos (n - 1)). pose proof (pow10_pos e).
  replace (v / powerRZ 10 e * powerRZ 10 (n - 1)) with (v / powerRZ 10 (e - n + 1)).
  - rewrite <- E. field. lra.
  - rewrite <- E. field. lra.
Qed.

Lemma sigfig_near : forall v n e, v <> 0 -> powerRZ 10 e <= Rabs v < powerRZ 10 (e + 1) ->
  Rabs (specify_significant_figures v n - v) <= 1 / 2 * powerRZ 10 (e - n + 1).
Proof.
  intros v n e Hv He. rewrite (sigfig_eq v n e Hv He).
  set (u := powerRZ 10 (e - n + 1)). assert (0 < u) by apply pow10_pos.
  pose proof (round_near (v / u)) as Hr.
  replace (IZR (round_half_even (v / u)) * u - v) with ((IZR (round_half_even (v / u)) - v / u) * u) by (field; lra).
  rewrite Rabs_mult, (Rabs_right u) by lra. apply Rmult_le_compat_r; lra.
Qed.

(** a value that already has at most n significant digits is unchanged *)
Lemma sigfig_exact : forall v n e k, v <> 0 -> powerRZ 10 e <= Rabs v < powerRZ 10 (e + 1) ->
  v = IZR k * powerRZ 10 (e - n + 1) -> specify_significant_figures v n = v.
Proof.
  intros v n e k Hv He Hk. rewrite (sigfig_eq v n e Hv He). rewrite Hk.
  pose proof (pow10_pos (e - n + 1)).
  replace (IZR k * powerRZ 10 (e - n + 1) / powerRZ 10 (e - n + 1)) with (IZR k) by (field; lra).
  rewrite round_int. reflexivity.
Qed.

Lemma pow10_nat_IZR : forall n, (0 <= n)%Z -> exists m, powerRZ 10 n = IZR m.
Proof.
  intros n Hn. exists (10 ^ n)%Z. rewrite <- (Z2Nat.id n) by exact Hn.
  rewrite <- pow_powerRZ. rewrite pow_IZR. reflexivity.
Qed.

Lemma sigfig_mult : forall v n e, v <> 0 -> (1 <= n)%Z -> powerRZ 10 e <= Rabs v < powerRZ 10 (e + 1) ->
  powerRZ 10 e <= Rabs (specify_significant_figures v n) <= powerRZ 10 (e + 1) /\
  exists k, specify_significant_figures v n = IZR k * powerRZ 10 (e - n + 1).
Proof.
  intros v n e Hv Hn He. split; [|eexists; apply sigfig_eq; assumption].
  rewrite (sigfig_eq v n e Hv He).
  set (u := powerRZ 10 (e - n + 1)). assert (Hu : 0 < u) by apply pow10_pos.
  set (k := round_half_even (v / u)).
  destruct (pow10_nat_IZR (n - 1) ltac:(lia)) as [m1 M1].
  destruct (pow10_nat_IZR n ltac:(lia)) as [m2 M2].
  assert (E1 : powerRZ 10 e = IZR m1 * u).
  { rewrite <- M1. unfold u. rewrite <- powerRZ_add by lra. f_equal. lia. }
  assert (E2 : powerRZ 10 (e + 1) = IZR m2 * u).
  { rewrite <- M2. unfold u. rewrite <- powerRZ_add by lra. f_equal. lia. }
  rewrite E1, E2. rewrite E1, E2 in He.
  rewrite Rabs_mult, (Rabs_right u) by lra. rewrite <- abs_IZR.
  assert (Hx : IZR m1 <= Rabs (v / u) < IZR m2).
  { unfold Rdiv. rewrite Rabs_mult, (Rabs_right (/ u)) by (left; apply Rinv_0_lt_compat; lra).
    pose proof (Rinv_0_lt_compat u Hu). assert (u * / u = 1) by (field; lra).
    split; [apply Rmult_le_reg_r with u|apply Rmult_lt_reg_r with u]; try lra;
      rewrite Rmult_assoc, (Rmult_comm (/ u)), H0; lra. }
  pose proof (round_near (v / u)) as Hr. fold k in Hr.
  assert (Habs : Rabs (IZR (Z.abs k) - Rabs (v / u)) <= 1 / 2).
  { rewrite abs_IZR. eapply Rle_trans; [apply Rabs_triang_inv2|]. exact Hr. }
  assert (m1 <= Z.abs k <= m2)%Z.
  { assert (- (1 / 2) <= IZR (Z.abs k) - Rabs (v / u) <= 1 / 2).
    { unfold Rabs at 1 in Habs. destruct (Rcase_abs _); lra. }
    split; apply Z.lt_succ_r; apply lt_IZR; rewrite succ_IZR; lra. }
  split; apply Rmult_le_compat_r; try lra; apply IZR_le; lia.
Qed.

Lemma sigfig_idem : forall v n, (1 <= n)%Z ->
  specify_significant_figures (specify_significant_figures v n) n = specify_significant_figures v n.
Proof.
  intros v n Hn. destruct (Req_EM_T v 0) as [->|Hv].
  { unfold specify_significant_figures at 2 3. destruct (Req_EM_T 0 0); [|lra].
    unfold specify_significant_figures. destruct (Req_EM_T 0 0); [reflexivity|lra]. }
  pose proof (decade_exp v Hv) as He. set (e := rfloor (ln (Rabs v) / ln 10)) in *. cbv zeta in He.
  destruct (sigfig_mult v n e Hv Hn He) as [Hb [k Hk]].
  set (r := specify_significant_figures v n) in *.
  assert (Hr : r <> 0).
  { intro E. rewrite E, Rabs_R0 in Hb. pose proof (pow10_pos e). lra. }
  destruct (proj2 Hb) as [Hlt|Heq].
  - apply (sigfig_exact r n e k); try assumption. split; [apply Hb|exact Hlt].
  - destruct (pow10_nat_IZR (n - 1) ltac:(lia)) as [m M].
    assert (E : powerRZ 10 (e + 1) = IZR m * powerRZ 10 (e + 1 - n + 1)).
    { rewrite <- M, <- powerRZ_add by lra. f_equal. lia. }
    assert (Hdec : powerRZ 10 (e + 1) <= Rabs r < powerRZ 10 (e + 1 + 1)).
    { rewrite Heq. split; [lra|]. rewrite (powerRZ_add 10 (e + 1) 1) by lra. simpl (powerRZ 10 1).
      pose proof (pow10_pos (e + 1)). lra. }
    destruct (Rle_dec 0 r) as [Hpos|Hneg].
    + apply (sigfig_exact r n (e + 1) m); try assumption. rewrite <- E, <- Heq. rewrite Rabs_right; lra.
    + apply (sigfig_exact r n (e + 1) (- m)); try assumption.
      rewrite opp_IZR, <- Ropp_mult_distr_l, <- E, <- Heq. rewrite Rabs_left; lra.
Qed.

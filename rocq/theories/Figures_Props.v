(** C119: specify_significant_figures (rsbeams/rsstats/stats6d.py) rounds to the nearest number of that
    many figures, respects signs, the order of numbers and shifts of the decimal point. *)
From Coq Require Import Reals Lra Lia ZArith Bool.
From Verif Require Import PyBase Stats_Model SigFig_Proofs.
Open Scope R_scope.

(** [d] can be written with [n] decimal figures. *)
Definition has_figures (n : Z) (d : R) : Prop := exists k j, (Z.abs k < 10 ^ n)%Z /\ d = IZR k * powerRZ 10 j.

Lemma figures_zero : forall n, specify_significant_figures 0 n = 0.
Proof. intros n. unfold specify_significant_figures. destruct (Req_EM_T 0 0); [reflexivity|lra]. Qed.
Lemma pow10_sum : forall a b, powerRZ 10 (a + b) = powerRZ 10 a * powerRZ 10 b.
Proof. intros. apply powerRZ_add. lra. Qed.
Lemma pow10_Z : forall n, (0 <= n)%Z -> powerRZ 10 n = IZR (10 ^ n).
Proof. intros n Hn. rewrite <- (Z2Nat.id n) by exact Hn. rewrite <- pow_powerRZ. rewrite pow_IZR. reflexivity. Qed.
Lemma pow10_le : forall a b, (a <= b)%Z -> powerRZ 10 a <= powerRZ 10 b.
Proof. intros a b H. apply Rnot_lt_le. intros L. apply pow10_lt in L. lia. Qed.
Lemma pow10_up : forall e, powerRZ 10 (e + 1) = 10 * powerRZ 10 e.
Proof. intros e. rewrite pow10_sum. simpl. lra. Qed.

Lemma round_odd : forall x, round_half_even (- x) = (- round_half_even x)%Z.
Proof.
  intros x. destruct (Req_EM_T x (IZR (rfloor x))) as [E|N].
  - rewrite E, <- opp_IZR, !round_int. reflexivity.
  - pose proof (rfloor_spec x) as H. assert (F : rfloor (- x) = (- rfloor x - 1)%Z) by (apply rfloor_unique; rewrite minus_IZR, opp_IZR; lra).
    unfold round_half_even. rewrite F, minus_IZR, opp_IZR. set (f := rfloor x) in *.
    destruct (Rlt_dec (x - IZR f) (1 / 2)) as [A|A]; destruct (Rlt_dec (- x - (- IZR f - 1)) (1 / 2)) as [B|B]; try lra.
    + destruct (Rlt_dec (1 / 2) (- x - (- IZR f - 1))); [lia|lra].
    + destruct (Rlt_dec (1 / 2) (x - IZR f)); [lia|lra].
    + destruct (Rlt_dec (1 / 2) (- x - (- IZR f - 1))); [lra|]. destruct (Rlt_dec (1 / 2) (x - IZR f)); [lra|].
      replace (- f - 1)%Z with (- (f + 1))%Z by lia. rewrite Z.even_opp, Z.even_add. destruct (Z.even f); cbn; lia.
Qed.
Lemma abs_between : forall x a, Rabs x <= a -> - a <= x <= a.
Proof. intros x a H. pose proof (Rle_abs x) as P. pose proof (Rle_abs (- x)) as Q. rewrite Rabs_Ropp in Q. lra. Qed.
Lemma round_mono : forall x y, x <= y -> (round_half_even x <= round_half_even y)%Z.
Proof.
  intros x y H. destruct (Z_le_gt_dec (round_half_even x) (round_half_even y)) as [L|G]; [exact L|exfalso].
  pose proof (round_near x) as A. pose proof (round_near y) as B. apply abs_between in A. apply abs_between in B.
  assert (I : IZR (round_half_even y) + 1 <= IZR (round_half_even x)) by (rewrite <- plus_IZR; apply IZR_le; lia).
  assert (x = y) by lra. subst y. lia.
Qed.
Lemma round_nearest : forall x m, Rabs (IZR (round_half_even x) - x) <= Rabs (IZR m - x).
Proof.
  intros x m. destruct (Z.eq_dec m (round_half_even x)) as [->|N]; [lra|]. pose proof (round_near x) as A.
  assert (B : 1 <= Rabs (IZR m - IZR (round_half_even x))) by (rewrite <- minus_IZR, <- abs_IZR; apply IZR_le; lia).
  pose proof (Rabs_triang (IZR m - x) (x - IZR (round_half_even x))) as T. replace (IZR m - x + (x - IZR (round_half_even x))) with (IZR m - IZR (round_half_even x)) in T by ring.
  rewrite (Rabs_minus_sym x) in T. lra.
Qed.

(** The sign goes through. *)
Theorem C119_negative : forall v n, specify_significant_figures (- v) n = - specify_significant_figures v n.
Proof.
  intros v n. destruct (Req_EM_T v 0) as [->|Hv]; [rewrite Ropp_0, figures_zero; lra|].
  pose proof (decade_exp v Hv) as He. cbv zeta in He. rewrite (sigfig_eq v n _ Hv He). rewrite (sigfig_eq (- v) n _ ltac:(lra) ltac:(rewrite Rabs_Ropp; exact He)).
  replace (- v / powerRZ 10 (rfloor (ln (Rabs v) / ln 10) - n + 1)) with (- (v / powerRZ 10 (rfloor (ln (Rabs v) / ln 10) - n + 1))) by (unfold Rdiv; ring).
  rewrite round_odd, opp_IZR. ring.
Qed.
Print Assumptions C119_negative.

(** A shift of the decimal point goes through. *)
Theorem C119_point : forall v n k, specify_significant_figures (v * powerRZ 10 k) n = specify_significant_figures v n * powerRZ 10 k.
Proof.
  intros v n k. pose proof (pow10_pos k) as K. destruct (Req_EM_T v 0) as [->|Hv]; [rewrite Rmult_0_l, figures_zero; lra|].
  pose proof (decade_exp v Hv) as He. cbv zeta in He. set (e := rfloor (ln (Rabs v) / ln 10)) in *. rewrite (sigfig_eq v n e Hv He).
  assert (He' : powerRZ 10 (e + k) <= Rabs (v * powerRZ 10 k) < powerRZ 10 (e + k + 1)).
  { rewrite Rabs_mult, (Rabs_right (powerRZ 10 k)) by lra. replace (e + k + 1)%Z with (e + 1 + k)%Z by lia. rewrite !(pow10_sum _ k). nra. }
  rewrite (sigfig_eq (v * powerRZ 10 k) n (e + k)); [|apply Rmult_integral_contrapositive_currified; lra|exact He'].
  replace (e + k - n + 1)%Z with (e - n + 1 + k)%Z by lia. rewrite pow10_sum. pose proof (pow10_pos (e - n + 1)) as U.
  replace (v * powerRZ 10 k / (powerRZ 10 (e - n + 1) * powerRZ 10 k)) with (v / powerRZ 10 (e - n + 1)) by (field; lra). ring.
Qed.
Print Assumptions C119_point.

Lemma figures_pos : forall v n, (1 <= n)%Z -> 0 < v -> 0 < specify_significant_figures v n.
Proof.
  intros v n Hn V. assert (Hv : v <> 0) by lra. pose proof (decade_exp v Hv) as He. cbv zeta in He. set (e := rfloor (ln (Rabs v) / ln 10)) in *.
  pose proof (sigfig_near v n e Hv He) as A. apply abs_between in A. rewrite Rabs_right in He by lra.
  pose proof (pow10_le (e - n + 1) e ltac:(lia)) as L. pose proof (pow10_pos (e - n + 1)) as U. lra.
Qed.
Lemma figures_mono_pos : forall v w n, (1 <= n)%Z -> 0 < v -> v <= w -> specify_significant_figures v n <= specify_significant_figures w n.
Proof.
  intros v w n Hn V L. assert (Hv : v <> 0) by lra. assert (Hw : w <> 0) by lra.
  pose proof (decade_exp v Hv) as He. cbv zeta in He. set (e := rfloor (ln (Rabs v) / ln 10)) in *.
  pose proof (decade_exp w Hw) as Hf. cbv zeta in Hf. set (f := rfloor (ln (Rabs w) / ln 10)) in *.
  assert (Lef : (e < f + 1)%Z) by (apply pow10_lt; rewrite Rabs_right in He by lra; rewrite Rabs_right in Hf by lra; lra).
  destruct (Z.eq_dec e f) as [E|N].
  - rewrite <- E in Hf. rewrite (sigfig_eq v n e Hv He), (sigfig_eq w n e Hw Hf). pose proof (pow10_pos (e - n + 1)) as U. apply Rmult_le_compat_r; [lra|]. apply IZR_le, round_mono.
    unfold Rdiv. apply Rmult_le_compat_r; [|exact L]. apply Rlt_le, Rinv_0_lt_compat. exact U.
  - destruct (sigfig_mult v n e Hv Hn He) as [[_ B] _]. destruct (sigfig_mult w n f Hw Hn Hf) as [[B' _] _].
    pose proof (figures_pos v n Hn V) as P. pose proof (figures_pos w n Hn ltac:(lra)) as P'. rewrite Rabs_right in B by lra. rewrite Rabs_right in B' by lra.
    pose proof (pow10_le (e + 1) f ltac:(lia)). lra.
Qed.
(** A greater number is never rounded to a smaller one. *)
Theorem C119_order : forall v w n, (1 <= n)%Z -> v <= w -> specify_significant_figures v n <= specify_significant_figures w n.
Proof.
  intros v w n Hn L. destruct (Rtotal_order v 0) as [V|[->|V]].
  - destruct (Rtotal_order w 0) as [W|[->|W]].
    + pose proof (figures_mono_pos (- w) (- v) n Hn ltac:(lra) ltac:(lra)) as H. rewrite !C119_negative in H. lra.
    + pose proof (figures_pos (- v) n Hn ltac:(lra)) as H. rewrite C119_negative in H. rewrite figures_zero. lra.
    + pose proof (figures_pos (- v) n Hn ltac:(lra)) as H. rewrite C119_negative in H. pose proof (figures_pos w n Hn W). lra.
  - destruct (Req_EM_T w 0) as [->|W]; [lra|]. rewrite figures_zero. apply Rlt_le, figures_pos; [exact Hn|lra].
  - apply figures_mono_pos; assumption.
Qed.
Print Assumptions C119_order.

(** A number that has no more figures comes back as it is. *)
Theorem C119_unchanged : forall d n, (1 <= n)%Z -> has_figures n d -> specify_significant_figures d n = d.
Proof.
  intros d n Hn (k & j & K & ->). set (d := IZR k * powerRZ 10 j). destruct (Req_EM_T d 0) as [->|Hd]; [apply figures_zero|].
  pose proof (decade_exp d Hd) as He. cbv zeta in He. set (e := rfloor (ln (Rabs d) / ln 10)) in *.
  assert (Lt : powerRZ 10 e < powerRZ 10 (n + j)).
  { eapply Rle_lt_trans; [apply He|]. unfold d. rewrite Rabs_mult, (Rabs_right (powerRZ 10 j)) by (pose proof (pow10_pos j); lra). rewrite pow10_sum, (pow10_Z n) by lia. apply Rmult_lt_compat_r; [apply pow10_pos|]. rewrite <- abs_IZR. apply IZR_lt. exact K. }
  apply pow10_lt in Lt. destruct (pow10_nat_IZR (j - (e - n + 1)) ltac:(lia)) as [m M].
  apply (sigfig_exact d n e (k * m) Hd He). rewrite mult_IZR, <- M, Rmult_assoc, <- pow10_sum. replace (j - (e - n + 1) + (e - n + 1))%Z with j by lia. reflexivity.
Qed.
Print Assumptions C119_unchanged.

Lemma figures_nearest_multiple : forall v n e m, v <> 0 -> powerRZ 10 e <= Rabs v < powerRZ 10 (e + 1) ->
  Rabs (specify_significant_figures v n - v) <= Rabs (IZR m * powerRZ 10 (e - n + 1) - v).
Proof.
  intros v n e m Hv He. rewrite (sigfig_eq v n e Hv He). set (u := powerRZ 10 (e - n + 1)). assert (U : 0 < u) by apply pow10_pos.
  assert (S : forall z, Rabs (IZR z * u - v) = Rabs (IZR z - v / u) * u).
  { intros z. rewrite <- (Rabs_right u) at 3 by lra. rewrite <- Rabs_mult. f_equal. field. lra. }
  rewrite !S. apply Rmult_le_compat_r; [lra|apply round_nearest].
Qed.
(** The answer has the number of figures asked for, and no number with that many is nearer. *)
Theorem C119_nearest : forall v n, (1 <= n)%Z ->
  has_figures n (specify_significant_figures v n) /\
  forall d, has_figures n d -> Rabs (specify_significant_figures v n - v) <= Rabs (d - v).
Proof.
  intros v n Hn. assert (T : (0 < 10 ^ n)%Z) by (apply Z.pow_pos_nonneg; lia). destruct (Req_EM_T v 0) as [->|Hv].
  - rewrite figures_zero. split; [exists 0%Z, 0%Z; split; [cbn; exact T|cbn; lra]|]. intros d _. rewrite Rminus_0_r, Rabs_R0. apply Rabs_pos.
  - pose proof (decade_exp v Hv) as He. cbv zeta in He. set (e := rfloor (ln (Rabs v) / ln 10)) in *. split.
    + destruct (sigfig_mult v n e Hv Hn He) as [[_ B] [k E]]. pose proof (pow10_pos (e - n + 1)) as U.
      assert (K : (Z.abs k <= 10 ^ n)%Z).
      { apply le_IZR. rewrite abs_IZR, <- pow10_Z by lia. apply (Rmult_le_reg_r (powerRZ 10 (e - n + 1))); [exact U|]. rewrite <- pow10_sum. replace (n + (e - n + 1))%Z with (e + 1)%Z by lia.
        rewrite E, Rabs_mult, (Rabs_right (powerRZ 10 (e - n + 1))) in B by lra. exact B. }
      destruct (Z.eq_dec (Z.abs k) (10 ^ n)) as [Q|Q]; [|exists k, (e - n + 1)%Z; split; [lia|exact E]].
      exists (Z.sgn k * 1)%Z, (e + 1)%Z. split.
      * assert (2 <= 10 ^ n)%Z by (replace n with (1 + (n - 1))%Z by lia; rewrite Z.pow_add_r by lia; assert (0 < 10 ^ (n - 1))%Z by (apply Z.pow_pos_nonneg; lia); lia). destruct k; cbn; lia.
      * rewrite E. replace k with (Z.sgn k * 10 ^ n)%Z at 1 by (rewrite <- Q; destruct k; cbn; lia). rewrite !mult_IZR, <- (pow10_Z n) by lia. rewrite !Rmult_assoc, <- pow10_sum. replace (n + (e - n + 1))%Z with (e + 1)%Z by lia. lra.
    + intros d (k & j & K & ->). destruct (Z_le_gt_dec (e - n + 1) j) as [J|J].
      * destruct (pow10_nat_IZR (j - (e - n + 1)) ltac:(lia)) as [m M]. pose proof (figures_nearest_multiple v n e (k * m) Hv He) as H.
        rewrite mult_IZR, <- M, Rmult_assoc, <- pow10_sum in H. replace (j - (e - n + 1) + (e - n + 1))%Z with j in H by lia. exact H.
      * assert (D : Rabs (IZR k * powerRZ 10 j) <= powerRZ 10 e).
        { rewrite Rabs_mult, (Rabs_right (powerRZ 10 j)) by (pose proof (pow10_pos j); lra). apply Rle_trans with (powerRZ 10 (n + j)); [|apply pow10_le; lia].
          rewrite pow10_sum, (pow10_Z n) by lia. apply Rmult_le_compat_r; [pose proof (pow10_pos j); lra|]. rewrite <- abs_IZR. apply IZR_le. lia. }
        destruct (pow10_nat_IZR (n - 1) ltac:(lia)) as [m M]. assert (P : powerRZ 10 e = IZR m * powerRZ 10 (e - n + 1)) by (rewrite <- M, <- pow10_sum; f_equal; lia).
        assert (A : Rabs (specify_significant_figures v n - v) <= Rabs v - powerRZ 10 e).
        { destruct (Rle_lt_dec 0 v) as [V|V].
          - pose proof (figures_nearest_multiple v n e m Hv He) as H. rewrite <- P in H. eapply Rle_trans; [exact H|]. rewrite (Rabs_right v) in * by lra. rewrite Rabs_left1 by lra. lra.
          - pose proof (figures_nearest_multiple v n e (- m) Hv He) as H. rewrite opp_IZR, <- Ropp_mult_distr_l, <- P in H. eapply Rle_trans; [exact H|]. rewrite (Rabs_left v) in * by lra. rewrite Rabs_right by lra. lra. }
        eapply Rle_trans; [exact A|]. pose proof (Rabs_triang_inv v (IZR k * powerRZ 10 j)) as T'. rewrite Rabs_minus_sym in T'. lra.
Qed.
Print Assumptions C119_nearest.

Example C119_applies : has_figures 3 (-125 / 10) /\ ~ has_figures 3 1234 /\ specify_significant_figures 1234 3 = 1230.
Proof.
  assert (F : specify_significant_figures 1234 3 = 1230).
  { assert (He : powerRZ 10 3 <= Rabs 1234 < powerRZ 10 (3 + 1)) by (rewrite Rabs_right by lra; simpl; lra).
    rewrite (sigfig_eq 1234 3 3 ltac:(lra) He). replace (powerRZ 10 (3 - 3 + 1)) with 10 by (simpl; lra). replace (round_half_even (1234 / 10)) with 123%Z; [lra|].
    unfold round_half_even. rewrite (rfloor_unique (1234 / 10) 123) by lra. destruct (Rlt_dec _ _); [reflexivity|lra]. }
  split; [exists (-125)%Z, (-1)%Z; split; [reflexivity|simpl; lra]|]. split; [|exact F].
  intros H. apply C119_unchanged in H; [|lia]. rewrite F in H. lra.
Qed.

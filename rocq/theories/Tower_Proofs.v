(** Numbers that are reached from the rational ones by arithmetic and square roots are not roots of
    a cubic that has no rational root. For C111. *)
From Coq Require Import List Reals ZArith Znumtheory Lra Lia Psatz.
Import ListNotations.
Open Scope R_scope.

Definition rational (x : R) : Prop := exists m n, (n <> 0)%Z /\ x = IZR m / IZR n.
(** one square root more *)
Definition adjoin (F : R -> Prop) (d : R) : R -> Prop := fun x => exists u v, F u /\ F v /\ x = u + v * sqrt d.
Inductive tower : (R -> Prop) -> Prop :=
| base : tower rational
| step : forall F d, tower F -> F d -> 0 <= d -> tower (adjoin F d).

Record field (F : R -> Prop) : Prop := {
  f0 : F 0; f1 : F 1;
  fadd : forall x y, F x -> F y -> F (x + y);
  fopp : forall x, F x -> F (- x);
  fmul : forall x y, F x -> F y -> F (x * y);
  finv : forall x, F x -> x <> 0 -> F (/ x) }.

Lemma IZR_neq : forall n, (n <> 0)%Z -> IZR n <> 0.
Proof. intros n H E. apply eq_IZR in E. contradiction. Qed.
Lemma rational_field : field rational.
Proof.
  constructor.
  - exists 0%Z, 1%Z. split; [lia|lra].
  - exists 1%Z, 1%Z. split; [lia|lra].
  - intros x y (m & n & N & ->) (p & q & Q & ->). exists (m * q + p * n)%Z, (n * q)%Z. split; [lia|]. rewrite plus_IZR, !mult_IZR. field. split; now apply IZR_neq.
  - intros x (m & n & N & ->). exists (- m)%Z, n. split; [exact N|]. rewrite opp_IZR. field. now apply IZR_neq.
  - intros x y (m & n & N & ->) (p & q & Q & ->). exists (m * p)%Z, (n * q)%Z. split; [lia|]. rewrite !mult_IZR. field. split; now apply IZR_neq.
  - intros x (m & n & N & ->) H. assert (M : (m <> 0)%Z). { intros ->. apply H. unfold Rdiv. ring. } exists n, m. split; [exact M|]. field. split; now apply IZR_neq.
Qed.
Lemma fsub F : field F -> forall x y, F x -> F y -> F (x - y).
Proof. intros H x y X Y. unfold Rminus. apply (fadd F H); [exact X|now apply (fopp F H)]. Qed.
Lemma fdiv F : field F -> forall x y, F x -> F y -> F (x / y) \/ y = 0.
Proof. intros H x y X Y. destruct (Req_dec y 0); [now right|left]. unfold Rdiv. apply (fmul F H); [exact X|now apply (finv F H)]. Qed.
Lemma fz F : field F -> forall z, F (IZR z).
Proof.
  intros H. assert (P : forall n, F (INR n)). { induction n as [|n IH]; [exact (f0 F H)|]. rewrite S_INR. apply (fadd F H); [exact IH|exact (f1 F H)]. }
  intros z. destruct (Z_le_dec 0 z).
  - rewrite <- (Z2Nat.id z) by lia. rewrite <- INR_IZR_INZ. apply P.
  - replace z with (- Z.of_nat (Z.to_nat (- z)))%Z by lia. rewrite opp_IZR, <- INR_IZR_INZ. apply (fopp F H), P.
Qed.

Lemma adjoin_field : forall F d, field F -> F d -> 0 <= d -> field (adjoin F d).
Proof.
  intros F d H D P. pose proof (sqrt_sqrt d P) as SQ. set (s := sqrt d) in *.
  assert (ext : forall x, F x -> adjoin F d x). { intros x X. exists x, 0. split; [exact X|]. split; [exact (f0 F H)|]. ring. }
  constructor.
  - apply ext, (f0 F H).
  - apply ext, (f1 F H).
  - intros x y (u & v & U & V & ->) (a & b & A & B & ->). exists (u + a), (v + b). split; [now apply (fadd F H)|]. split; [now apply (fadd F H)|]. ring.
  - intros x (u & v & U & V & ->). exists (- u), (- v). split; [now apply (fopp F H)|]. split; [now apply (fopp F H)|]. ring.
  - intros x y (u & v & U & V & ->) (a & b & A & B & ->). exists (u * a + v * b * d), (u * b + v * a).
    split; [apply (fadd F H); [now apply (fmul F H)|apply (fmul F H); [now apply (fmul F H)|exact D]]|]. split; [apply (fadd F H); now apply (fmul F H)|]. fold s. rewrite <- SQ. ring.
  - intros x (u & v & U & V & ->) N. fold s in N |- *. set (q := u * u - v * v * d).
    assert (FQ : F q). { apply (fsub F H); [now apply (fmul F H)|apply (fmul F H); [now apply (fmul F H)|exact D]]. }
    assert (E : (u + v * s) * (u - v * s) = q) by (unfold q; rewrite <- SQ; ring).
    destruct (Req_dec q 0) as [Q|Q].
    + rewrite Q in E. apply Rmult_integral in E. destruct E as [E|E]; [contradiction|].
      assert (X : u + v * s = u + u) by lra. rewrite X in *. apply ext. apply (finv F H); [now apply (fadd F H)|exact N].
    + exists (u * / q), (- v * / q). assert (IQ : F (/ q)) by now apply (finv F H). split; [now apply (fmul F H)|]. split; [apply (fmul F H); [now apply (fopp F H)|exact IQ]|].
      fold s. apply (Rmult_eq_reg_l (u + v * s)); [|exact N]. rewrite Rinv_r by exact N. replace ((u + v * s) * (u * / q + - v * / q * s)) with ((u + v * s) * (u - v * s) * / q) by ring. rewrite E. symmetry. now apply Rinv_r.
Qed.
Lemma tower_field : forall F, tower F -> field F.
Proof. induction 1; [exact rational_field|now apply adjoin_field]. Qed.

(** A cubic with a root in the larger field has one in the smaller. *)
Definition cubic (a b c x : R) : R := x * x * x + a * (x * x) + b * x + c.
Lemma cubic_down : forall F d a b c x, field F -> F d -> 0 <= d -> F a -> F b -> F c -> adjoin F d x -> cubic a b c x = 0 -> exists y, F y /\ cubic a b c y = 0.
Proof.
  intros F d a b c x H D P A B C (u & v & U & V & ->) Z. pose proof (sqrt_sqrt d P) as SQ. set (s := sqrt d) in *.
  assert (M : forall p q, F p -> F q -> F (p * q)) by apply (fmul F H). assert (L : forall p q, F p -> F q -> F (p + q)) by apply (fadd F H).
  set (p := u * u * u + (u * v * v * d + u * v * v * d + u * v * v * d) + a * (u * u + v * v * d) + b * u + c).
  set (q := (u * u * v + u * u * v + u * u * v) + v * v * v * d + a * (u * v + u * v) + b * v).
  assert (FP : F p) by (unfold p; repeat first [assumption|apply L|apply M]).
  assert (FQ : F q) by (unfold q; repeat first [assumption|apply L|apply M]).
  assert (E1 : cubic a b c (u + v * s) = p + q * s) by (unfold cubic, p, q; rewrite <- SQ; ring).
  assert (E2 : cubic a b c (u - v * s) = p - q * s) by (unfold cubic, p, q; rewrite <- SQ; ring).
  rewrite Z in E1. destruct (Req_dec q 0) as [Q|Q].
  - rewrite Q in *. assert (p = 0) by lra. assert (Z2 : cubic a b c (u - v * s) = 0) by lra.
    destruct (Req_dec (v * s) 0) as [Y|Y].
    + exists u. split; [exact U|]. rewrite Y, Rplus_0_r in Z. exact Z.
    + exists (- a - (u + u)). split; [apply (fsub F H); [now apply (fopp F H)|now apply L]|].
      set (w := v * s) in *. unfold cubic in *.
      assert (K : 3 * (u * u) + w * w + 2 * a * u + b = 0).
      { apply (Rmult_eq_reg_l (2 * w)); [|lra]. rewrite Rmult_0_r. rewrite <- (Rminus_diag_eq 0 0 eq_refl). rewrite <- Z at 1. rewrite <- Z2. ring. }
      assert (K2 : u * u * u + 3 * (u * (w * w)) + a * (u * u + w * w) + b * u + c = 0) by lra.
      replace b with (- (3 * (u * u) + w * w + 2 * a * u)) in * by lra. nra.
  - exists (u + v * (- p / q)). split.
    + apply L; [exact U|]. apply M; [exact V|]. unfold Rdiv. apply M; [now apply (fopp F H)|now apply (finv F H)].
    + replace (- p / q) with s; [exact Z|]. apply (Rmult_eq_reg_l q); [|exact Q]. field_simplify; [lra|exact Q].
Qed.
Lemma cubic_tower : forall F a b c x, tower F -> rational a -> rational b -> rational c -> F x -> cubic a b c x = 0 -> exists y, rational y /\ cubic a b c y = 0.
Proof.
  intros F a b c x T A B C X Z. revert x X Z. induction T as [|F d T IH D P]; intros x X Z; [eauto|].
  assert (IN : forall y, rational y -> F y). { clear - T. induction T as [|F d T IH D P]; [auto|]. intros y Y. exists y, 0. split; [now apply IH|]. split; [apply (f0 F (tower_field F T))|ring]. }
  destruct (cubic_down F d a b c x (tower_field F T) D P (IN a A) (IN b B) (IN c C) X Z) as [y [Y ZY]]. now apply (IH y).
Qed.

(** x^3 - 7 x^2 + 14 x - 7 has no rational root. *)
Lemma seven : prime 7.
Proof. apply prime_intro; [lia|]. intros n B. assert (C : (n = 1 \/ n = 2 \/ n = 3 \/ n = 4 \/ n = 5 \/ n = 6)%Z) by lia. apply Zgcd_1_rel_prime. destruct C as [->|[->|[->|[->|[->| ->]]]]]; reflexivity. Qed.
Lemma seven_cube : forall m, (7 | m * m * m)%Z -> (7 | m)%Z.
Proof. intros m D. apply prime_mult in D; [|exact seven]. destruct D as [D|D]; [|exact D]. apply prime_mult in D; [|exact seven]. tauto. Qed.
Lemma no_rational_root : forall y, rational y -> cubic (-7) 14 (-7) y = 0 -> False.
Proof.
  intros y (m & n & N & ->) Z.
  assert (G : exists p q, (q <> 0)%Z /\ IZR m / IZR n = IZR p / IZR q /\ Z.gcd p q = 1%Z).
  { destruct (Z.gcd_divide_l m n) as [p EP]. destruct (Z.gcd_divide_r m n) as [q EQ]. set (g := Z.gcd m n) in *.
    assert (g <> 0)%Z by (intros X; rewrite X in EQ; lia). exists p, q.
    assert (Q : (q <> 0)%Z) by (intros X; rewrite X in EQ; lia). split; [exact Q|]. split.
    - rewrite EP, EQ, !mult_IZR. field. split; now apply IZR_neq.
    - assert (GP : (0 < g)%Z) by (pose proof (Z.gcd_nonneg m n); unfold g in *; lia).
      apply (Z.mul_reg_r _ _ g); [lia|]. rewrite <- Z.gcd_mul_mono_r_nonneg by lia. rewrite <- EP, <- EQ. unfold g. lia. }
  destruct G as (p & q & Q & E & GC). rewrite E in Z. clear m n N E.
  assert (ZI : (p * p * p - 7 * (p * p * q) + 14 * (p * (q * q)) - 7 * (q * q * q) = 0)%Z).
  { apply eq_IZR. rewrite !minus_IZR, plus_IZR, minus_IZR, !mult_IZR. pose proof (IZR_neq q Q) as QR.
    transitivity (cubic (-7) 14 (-7) (IZR p / IZR q) * (IZR q * IZR q * IZR q)); [unfold cubic; field; exact QR|rewrite Z; ring]. }
  assert (DP : (7 | p)%Z). { apply seven_cube. exists (p * p * q - 2 * (p * (q * q)) + q * q * q)%Z. lia. }
  destruct DP as [k ->].
  assert (DQ : (7 | q)%Z). { apply seven_cube. exists (7 * (k * k * k) - 7 * (k * k * q) + 2 * (k * (q * q)))%Z. nia. }
  assert (D1 : (7 | Z.gcd (k * 7) q)%Z) by (apply Z.gcd_greatest; [exists k; ring|exact DQ]). rewrite GC in D1. apply Z.divide_1_r in D1. lia.
Qed.
Theorem not_in_tower : forall F x, tower F -> F x -> cubic (-7) 14 (-7) x <> 0.
Proof.
  intros F x T X Z. destruct (cubic_tower F (-7) 14 (-7) x T) as [y [Y ZY]]; [exists (-7)%Z, 1%Z|exists 14%Z, 1%Z|exists (-7)%Z, 1%Z| | |]; try (split; [lia|lra]); [exact X|exact Z|]. exact (no_rational_root y Y ZY).
Qed.

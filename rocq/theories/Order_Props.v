(** C117: of two particles the faster one has more of everything (rsbeams/rsstats/kinematic.py). *)
From Coq Require Import List Reals Lra Psatz Bool.
From Verif Require Import PyBase Kin_Model Kin_Spec Kin_Proofs Kin_Props.
Open Scope R_scope.

(** the particle does not move backwards *)
Definition forward (q : particle) : Prop := 0 <= q_betagamma q.

Lemma sq_lt : forall x y, 0 <= x -> 0 <= y -> x ^ 2 < y ^ 2 -> x < y.
Proof. intros x y X Y H. destruct (Rlt_le_dec x y) as [L|L]; [exact L|]. exfalso. nra. Qed.
Lemma inverse_order : forall a b x y, 1 <= a -> a < b -> a * (1 - x) = 1 -> b * (1 - y) = 1 -> x < y.
Proof. intros a b x y A L X Y. apply Rnot_le_lt. intros H. assert (0 < 1 - y) by nra. nra. Qed.
Lemma gamma_bg : forall c m q, relativistic c m q -> q_gamma q ^ 2 = 1 + q_betagamma q ^ 2 /\ 1 <= q_gamma q.
Proof. intros c m q (_ & G & I & B & _). split; [rewrite B; nra|exact G]. Qed.
Lemma grows : forall c m q1 q2, 0 < c -> 0 < m -> relativistic c m q1 -> relativistic c m q2 -> forward q1 ->
  q_betagamma q1 < q_betagamma q2 -> forall k, quantity q1 k < quantity q2 k.
Proof.
  unfold forward. intros c m q1 q2 Hc Hm R1 R2 F L k. destruct (gamma_bg _ _ _ R1) as [G1 P1]. destruct (gamma_bg _ _ _ R2) as [G2 P2].
  assert (Lg : q_gamma q1 < q_gamma q2) by (apply sq_lt; nra).
  assert (E1 := relativistic_energy c m q1 Hm R1). assert (E2 := relativistic_energy c m q2 Hm R2).
  destruct R1 as (B1 & _ & I1 & K1 & M1 & _ & _ & T1 & V1 & H1). destruct R2 as (B2 & _ & I2 & K2 & M2 & _ & _ & T2 & V2 & H2).
  assert (Lp : q_momentum q1 < q_momentum q2) by (rewrite M1, M2; nra).
  assert (Le : q_energy q1 < q_energy q2) by nra.
  assert (Lb : q_beta q1 < q_beta q2).
  { assert (N1 : 0 <= q_beta q1) by nra. assert (N2 : 0 <= q_beta q2) by nra. apply sq_lt; [exact N1|exact N2|].
    apply (inverse_order (q_gamma q1 ^ 2) (q_gamma q2 ^ 2)); [nra|nra|exact I1|exact I2]. }
  destruct k; cbn [quantity]; [exact Lp|rewrite V1, V2; nra|exact Le|lra|exact L| |exact Lb|exact Lg].
  assert (q_brho q1 * c < q_brho q2 * c) by lra. nra.
Qed.
Lemma ordered : forall c m q1 q2 k, 0 < c -> 0 < m -> relativistic c m q1 -> relativistic c m q2 -> forward q1 -> forward q2 ->
  quantity q1 k < quantity q2 k -> forall k', quantity q1 k' < quantity q2 k'.
Proof.
  intros c m q1 q2 k Hc Hm R1 R2 F1 F2 L k'. destruct (Rtotal_order (q_betagamma q1) (q_betagamma q2)) as [H|[H|H]].
  - exact (grows c m q1 q2 Hc Hm R1 R2 F1 H k').
  - exfalso. destruct k; cbn [quantity] in L; revert L; apply Rle_not_lt; apply Req_le.
    all: destruct (gamma_bg _ _ _ R1) as [G1 P1]; destruct (gamma_bg _ _ _ R2) as [G2 P2].
    all: assert (Eg : q_gamma q1 = q_gamma q2) by (apply Rle_antisym; apply Rnot_lt_le; intros X; rewrite H in G1; nra).
    all: assert (E1 := relativistic_energy c m q1 Hm R1); assert (E2 := relativistic_energy c m q2 Hm R2).
    all: destruct R1 as (B1 & _ & I1 & K1 & M1 & _ & _ & T1 & V1 & H1); destruct R2 as (B2 & _ & I2 & K2 & M2 & _ & _ & T2 & V2 & H2).
    all: assert (Eb : q_beta q1 = q_beta q2) by (apply (Rmult_eq_reg_r (q_gamma q1)); [rewrite <- K1, Eg, <- K2; exact H|lra]).
    all: try congruence.
    apply (Rmult_eq_reg_r c); [|lra]. rewrite H1, H2. congruence.
  - exfalso. pose proof (grows c m q2 q1 Hc Hm R2 R1 F2 H k). lra.
Qed.
Lemma not_backwards : forall c m k q x, 0 < c -> 0 < m -> relativistic c m q -> quantity q k = x -> 0 <= x -> (signed_kind k = false -> 0 <= q_beta q) -> forward q.
Proof.
  unfold forward. intros c m k q x Hc Hm R E X S. destruct R as (B & G & I & K & M & _ & _ & T & V & H). rewrite K.
  destruct k; cbn [quantity signed_kind] in *; try (specialize (S eq_refl)); subst x; try nra.
Qed.
Lemma in_unit_lt : forall K u k x y, wf_consts K -> x < y -> in_unit K u k x < in_unit K u k y.
Proof.
  intros K u k x y (C & E & _) L. unfold in_unit. assert (P : 0 < si_per_ev K k) by (destruct k; cbn; try lra; apply Rdiv_lt_0_compat; assumption).
  destruct u; try exact L; nra.
Qed.

(** what the result says about a kind is the number [r] *)
Definition says (cv : converter) (k : kind) (r : R) : Prop := reported (cv_out cv) k = Some (Some r).

(** Two particles of one mass, both with the same kind of quantity given, the second with more of it:
    every number reported is greater for the second.  The units of the inputs may differ. *)
Theorem C117_faster : forall K a1 a2 k x1 x2, exact_consts K ->
  proper_units a1 -> positive_mass a1 -> given a1 k (in_unit K (a_input_unit a1) k x1) -> physical (c_light K) (meant_mass K a1) k x1 ->
  proper_units a2 -> positive_mass a2 -> given a2 k (in_unit K (a_input_unit a2) k x2) ->
  physical (c_light K) (meant_mass K a2) k x2 ->
  meant_mass K a2 = meant_mass K a1 -> a_output_unit a2 = a_output_unit a1 -> 0 <= x1 -> x1 < x2 ->
  exists cv1 cv2 cv1' cv2', construct K a1 = Ok cv1 /\ construct K a2 = Ok cv2 /\ call K cv1 = Ok cv1' /\ call K cv2 = Ok cv2' /\
    forall k', exists r1 r2, says cv1' k' r1 /\ says cv2' k' r2 /\ r1 < r2.
Proof.
  intros K a1 a2 k x1 x2 HK U1 M1 G1 P1 U2 M2 G2 P2 Em Eo X L. destruct HK as [W HK].
  destruct (C04_units_only_rescale K a1 k x1 (conj W HK) U1 M1 G1 P1) as (q1 & v1 & w1 & C1 & D1 & R1 & Q1 & S1 & B1).
  destruct (C04_units_only_rescale K a2 k x2 (conj W HK) U2 M2 G2 P2) as (q2 & v2 & w2 & C2 & D2 & R2 & Q2 & S2 & B2).
  exists v1, v2, w1, w2. refine (conj C1 (conj C2 (conj D1 (conj D2 _)))). intros k'.
  assert (Hc : 0 < c_light K) by apply W. assert (Hm : 0 < meant_mass K a1) by (apply meant_mass_pos; assumption). rewrite Em in R2.
  exists (in_unit K (a_output_unit a1) k' (quantity q1 k')), (in_unit K (a_output_unit a1) k' (quantity q2 k')).
  refine (conj (S1 k') (conj _ _)); [unfold says; rewrite <- Eo; exact (S2 k')|]. apply in_unit_lt; [exact W|].
  apply (ordered _ _ q1 q2 k Hc Hm R1 R2).
  - exact (not_backwards _ _ k q1 x1 Hc Hm R1 Q1 X B1).
  - apply (not_backwards _ _ k q2 x2 Hc Hm R2 Q2); [lra|exact B2].
  - rewrite Q1, Q2. exact L.
Qed.
Print Assumptions C117_faster.
Example C117_faster_applies : let a1 := one_arg Kkenergy 0 None UeV UeV UeV in let a2 := one_arg Kkenergy (5 * e_charge K0) None UeV USI UeV in
  proper_units a1 /\ proper_units a2 /\ positive_mass a1 /\ positive_mass a2 /\ given a1 Kkenergy (in_unit K0 (a_input_unit a1) Kkenergy 0) /\
  given a2 Kkenergy (in_unit K0 (a_input_unit a2) Kkenergy 5) /\ meant_mass K0 a2 = meant_mass K0 a1.
Proof.
  cbv zeta. refine (conj _ (conj _ (conj _ (conj _ (conj _ (conj _ eq_refl)))))).
  - repeat split; left; reflexivity.
  - repeat split; [left|right|left]; reflexivity.
  - intros m E; discriminate.
  - intros m E; discriminate.
  - apply one_arg_given.
  - apply one_arg_given.
Qed.

(** A heavier particle of the same momentum is slower and has less kinetic energy, but more energy; its
    rigidity is the same. *)
Lemma heavier : forall c m1 m2 q1 q2, 0 < c -> 0 < m1 -> m1 < m2 -> relativistic c m1 q1 -> relativistic c m2 q2 ->
  q_momentum q1 = q_momentum q2 -> 0 < q_momentum q1 ->
  q_beta q2 < q_beta q1 /\ q_gamma q2 < q_gamma q1 /\ q_velocity q2 < q_velocity q1 /\ q_betagamma q2 < q_betagamma q1 /\
  q_kenergy q2 < q_kenergy q1 /\ q_energy q1 < q_energy q2 /\ q_brho q1 = q_brho q2.
Proof.
  intros c m1 m2 q1 q2 Hc Hm L R1 R2 Ep Pp. destruct (gamma_bg _ _ _ R1) as [G1 P1]. destruct (gamma_bg _ _ _ R2) as [G2 P2].
  assert (E1 := relativistic_energy c m1 q1 Hm R1). assert (Hm2 : 0 < m2) by lra. assert (E2 := relativistic_energy c m2 q2 Hm2 R2).
  destruct R1 as (B1 & _ & I1 & K1 & M1 & S1 & N1 & T1 & V1 & H1). destruct R2 as (B2 & _ & I2 & K2 & M2 & S2 & N2 & T2 & V2 & H2).
  assert (Lu : q_betagamma q2 < q_betagamma q1).
  { apply Rnot_le_lt. intros X. assert (0 < q_betagamma q1) by nra. assert (q_betagamma q1 * m1 < q_betagamma q2 * m2) by nra. lra. }
  assert (U2 : 0 < q_betagamma q2) by nra.
  assert (Lg : q_gamma q2 < q_gamma q1) by (apply sq_lt; nra).
  assert (Le : q_energy q1 < q_energy q2) by (apply sq_lt; [lra|lra|rewrite S1, S2, Ep; nra]).
  assert (Lb : q_beta q2 < q_beta q1).
  { assert (0 <= q_beta q1) by nra. assert (0 <= q_beta q2) by nra. apply sq_lt; [assumption|assumption|].
    apply (inverse_order (q_gamma q2 ^ 2) (q_gamma q1 ^ 2)); [nra|nra|exact I2|exact I1]. }
  assert (Lk : q_kenergy q2 < q_kenergy q1).
  { (* kinetic energy times (energy + mass) is the momentum squared *)
    assert (A1 : q_kenergy q1 * (q_energy q1 + m1) = q_momentum q1 ^ 2) by (rewrite T1; nra).
    assert (A2 : q_kenergy q2 * (q_energy q2 + m2) = q_momentum q1 ^ 2) by (rewrite T2, Ep; nra).
    assert (0 < q_kenergy q1) by (rewrite T1; nra). nra. }
  refine (conj Lb (conj Lg (conj _ (conj Lu (conj Lk (conj Le _)))))); [rewrite V1, V2; nra|].
  apply (Rmult_eq_reg_r c); [|lra]. congruence.
Qed.
Theorem C117_heavier : forall K a1 a2 p, exact_consts K ->
  proper_units a1 -> positive_mass a1 -> given a1 Kmomentum (in_unit K (a_input_unit a1) Kmomentum p) ->
  proper_units a2 -> positive_mass a2 -> given a2 Kmomentum (in_unit K (a_input_unit a2) Kmomentum p) ->
  a_output_unit a2 = a_output_unit a1 -> 0 < p -> meant_mass K a1 < meant_mass K a2 ->
  exists cv1 cv2 cv1' cv2', construct K a1 = Ok cv1 /\ construct K a2 = Ok cv2 /\ call K cv1 = Ok cv1' /\ call K cv2 = Ok cv2' /\
    forall k, exists r1 r2, says cv1' k r1 /\ says cv2' k r2 /\
      match k with
      | Kbeta | Kgamma | Kvelocity | Kbetagamma | Kkenergy => r2 < r1
      | Kenergy => r1 < r2
      | Kmomentum | Kbrho => r1 = r2
      end.
Proof.
  intros K a1 a2 p HK U1 M1 G1 U2 M2 G2 Eo X L. assert (W : wf_consts K) by apply HK.
  destruct (C04_units_only_rescale K a1 Kmomentum p HK U1 M1 G1 I) as (q1 & v1 & w1 & C1 & D1 & R1 & Q1 & S1 & B1).
  destruct (C04_units_only_rescale K a2 Kmomentum p HK U2 M2 G2 I) as (q2 & v2 & w2 & C2 & D2 & R2 & Q2 & S2 & B2).
  exists v1, v2, w1, w2. refine (conj C1 (conj C2 (conj D1 (conj D2 _)))). intros k.
  assert (Hc : 0 < c_light K) by apply W. assert (Hm : 0 < meant_mass K a1) by (apply meant_mass_pos; assumption).
  cbn [quantity] in Q1, Q2. destruct (heavier (c_light K) _ _ q1 q2 Hc Hm L R1 R2) as (Lb & Lg & Lv & Lu & Lk & Le & Eb); [congruence|lra|].
  exists (in_unit K (a_output_unit a1) k (quantity q1 k)), (in_unit K (a_output_unit a1) k (quantity q2 k)).
  refine (conj (S1 k) (conj _ _)); [unfold says; rewrite <- Eo; exact (S2 k)|].
  destruct k; cbn [quantity]; try (apply in_unit_lt; assumption); f_equal; congruence.
Qed.
Print Assumptions C117_heavier.
Example C117_heavier_applies : let a1 := one_arg Kmomentum 1000 (Some 1000) UeV UeV USI in let a2 := one_arg Kmomentum 1000 (Some 2000) UeV UeV USI in
  proper_units a1 /\ proper_units a2 /\ positive_mass a1 /\ positive_mass a2 /\ given a1 Kmomentum (in_unit K0 (a_input_unit a1) Kmomentum 1000) /\
  given a2 Kmomentum (in_unit K0 (a_input_unit a2) Kmomentum 1000) /\ meant_mass K0 a1 < meant_mass K0 a2.
Proof.
  cbv zeta. refine (conj _ (conj _ (conj _ (conj _ (conj _ (conj _ _)))))).
  - repeat split; [left|left|right]; reflexivity.
  - repeat split; [left|left|right]; reflexivity.
  - intros m E; injection E as <-; lra.
  - intros m E; injection E as <-; lra.
  - apply one_arg_given.
  - apply one_arg_given.
  - cbn. lra.
Qed.

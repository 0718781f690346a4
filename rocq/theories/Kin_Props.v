(** Theorems about rsbeams/rsstats/kinematic.py (properties C01-C06, C69). *)
From Coq Require Import List Reals Lra Bool.
From Verif Require Import PyBase Kin_Model Kin_Spec Kin_Proofs.
Open Scope R_scope.

(** Concrete constants: scipy's c and e, and an electron mass that is the same
    mass in both units. *)
Definition K0 : consts :=
  {| c_light := 299792458; e_charge := 1602176634 / 10 ^ 28;
     me_ev := 510998950 / 1000;
     me_kg := 510998950 / 1000 * (1602176634 / 10 ^ 28 / 299792458 ^ 2) |}.

Example K0_exact : exact_consts K0.
Proof. unfold exact_consts, wf_consts, kg_per_ev; simpl. repeat split; lra. Qed.

Definition one_arg (k : kind) (v : R) (mass : option R) (mu iu ou : unit_name) : kargs :=
  {| a_val := fun k' => if (match k, k' with
        | Kmomentum, Kmomentum | Kvelocity, Kvelocity | Kenergy, Kenergy | Kkenergy, Kkenergy
        | Kbetagamma, Kbetagamma | Kbrho, Kbrho | Kbeta, Kbeta | Kgamma, Kgamma => true
        | _, _ => false end) then Some v else None;
     a_mass := mass; a_mass_unit := mu; a_input_unit := iu; a_output_unit := ou |}.

Lemma one_arg_given : forall k v m mu iu ou, given (one_arg k v m mu iu ou) k v.
Proof. intros. split; [destruct k; reflexivity|]. intros k' H. destruct k, k'; try reflexivity; contradiction. Qed.

(** C01: every answer satisfies all the relativistic identities (default units). *)
Theorem C01_kinematics_consistent : forall K a k x,
  wf_consts K ->
  a_mass_unit a = UeV -> a_input_unit a = UeV -> a_output_unit a = UeV ->
  positive_mass a -> given a k x ->
  physical (c_light K) (meant_mass K a) k x ->
  exists q cv cv', construct K a = Ok cv /\ call K cv = Ok cv' /\
    relativistic (c_light K) (meant_mass K a) q /\ quantity q k = x /\
    reports K UeV (cv_out cv') q /\
    (signed_kind k = false -> 0 <= q_beta q).
Proof. exact converter_correct_ev. Qed.
Print Assumptions C01_kinematics_consistent.

Example C01_applies : exists q cv cv',
  construct K0 (one_arg Kenergy 2000000 (Some 1000000) UeV UeV UeV) = Ok cv /\
  call K0 cv = Ok cv' /\ relativistic 299792458 1000000 q /\ q_energy q = 2000000 /\
  q_gamma q = 2 /\ reports K0 UeV (cv_out cv') q.
Proof.
  destruct (C01_kinematics_consistent K0 (one_arg Kenergy 2000000 (Some 1000000) UeV UeV UeV) Kenergy 2000000)
    as (q & cv & cv' & H1 & H2 & H3 & H4 & H5 & H6); try reflexivity.
  - apply K0_exact.
  - intros m E. inversion E. lra.
  - apply one_arg_given.
  - cbv [physical meant_mass one_arg a_mass a_mass_unit]. lra.
  - exists q, cv, cv'. repeat (split; auto). cbn in H3, H4.
    pose proof (relativistic_energy 299792458 1000000 q ltac:(lra) H3). lra.
Qed.

(** C02 and C04: in any combination of units, the answer describes the one particle
    whose quantity of the given kind is the given value. *)
Theorem C04_units_only_rescale : forall K a k x,
  exact_consts K -> proper_units a -> positive_mass a ->
  given a k (in_unit K (a_input_unit a) k x) ->
  physical (c_light K) (meant_mass K a) k x ->
  exists q cv cv', construct K a = Ok cv /\ call K cv = Ok cv' /\
    relativistic (c_light K) (meant_mass K a) q /\ quantity q k = x /\
    reports K (a_output_unit a) (cv_out cv') q /\
    (signed_kind k = false -> 0 <= q_beta q).
Proof. exact converter_correct. Qed.
Print Assumptions C04_units_only_rescale.

Example C04_applies : exists q cv cv',
  construct K0 (one_arg Kmomentum (in_unit K0 USI Kmomentum 5) None USI USI USI) = Ok cv /\
  call K0 cv = Ok cv' /\ q_momentum q = 5 /\
  reported (cv_out cv') Kmomentum = Some (Some (in_unit K0 USI Kmomentum 5)).
Proof.
  destruct (C04_units_only_rescale K0 (one_arg Kmomentum (in_unit K0 USI Kmomentum 5) None USI USI USI) Kmomentum 5)
    as (q & cv & cv' & H1 & H2 & H3 & H4 & H5 & H6); try reflexivity.
  - apply K0_exact.
  - repeat split; right; reflexivity.
  - intros m E. discriminate.
  - apply one_arg_given.
  - exists q, cv, cv'. repeat (split; auto). cbn in H4. rewrite <- H4. exact (H5 Kmomentum).
Qed.

(** With the CODATA constants that scipy ships, which are rounded, the two mass units
    agree to better than one part in 10^8; this bounds the factor by which the mass used
    can differ from the mass meant (theorem C04_internal_mass). *)
Theorem C04_codata_mass_units :
  let dev ev kg := Rabs (ev / kg * (1602176634 / 10 ^ 28 / 299792458 ^ 2) - 1) in
  dev (510998950 / 1000) (91093837015 / 10 ^ 41) < / 10 ^ 8 /\
  dev (51099895069 / 10 ^ 5) (91093837139 / 10 ^ 41) < / 10 ^ 8.
Proof.
  cbv zeta. split; apply Rabs_def1; lra.
Qed.
Print Assumptions C04_codata_mass_units.

Theorem C04_internal_mass : forall K a, wf_consts K -> proper_units a -> positive_mass a ->
  forall k v cv, given a k v -> construct K a = Ok cv ->
  cv_mass cv = meant_mass K a \/
  cv_mass cv = meant_mass K a * (ev_per_kg K * kg_per_ev K) \/
  cv_mass cv = meant_mass K a / (ev_per_kg K * kg_per_ev K).
Proof.
  intros K a Hw HU Hm k v cv Hg HC.
  destruct (construct_ok K a k v HU Hg) as (cw & D1 & _ & D3 & _).
  rewrite HC in D1. inversion D1; subst cw. rewrite D3.
  rewrite internal_mass_wf by assumption.
  pose proof Hw as (Hc & He & Hev & Hkg).
  assert (Hkp : 0 < kg_per_ev K).
  { unfold kg_per_ev. apply Rdiv_lt_0_compat; [assumption|apply pow_lt; assumption]. }
  assert (Hep : 0 < ev_per_kg K) by (apply Rdiv_lt_0_compat; assumption).
  unfold meant_mass. destruct (a_mass a) as [m|]; [|left; reflexivity].
  destruct (a_mass_unit a), (a_input_unit a); try (left; reflexivity).
  - right; right. field. lra.
  - right; left. field. lra.
Qed.
Print Assumptions C04_internal_mass.

(** C02: feeding any reported quantity back reproduces all of them, whatever the units
    of the second converter. *)
Theorem C02_round_trip : forall K a k x a2 k2, exact_consts K ->
  proper_units a -> positive_mass a -> given a k (in_unit K (a_input_unit a) k x) ->
  physical (c_light K) (meant_mass K a) k x ->
  proper_units a2 -> positive_mass a2 -> meant_mass K a2 = meant_mass K a ->
  forall cv cv' q, construct K a = Ok cv -> call K cv = Ok cv' ->
  reports K (a_output_unit a) (cv_out cv') q ->
  given a2 k2 (in_unit K (a_input_unit a2) k2 (quantity q k2)) ->
  (signed_kind k2 = true \/ 0 <= q_beta q) ->
  exists cv2 cv2', construct K a2 = Ok cv2 /\ call K cv2 = Ok cv2' /\
    reports K (a_output_unit a2) (cv_out cv2') q.
Proof. exact converter_round_trip. Qed.
Print Assumptions C02_round_trip.

Example C02_applies : forall k2, exists q cv cv',
  construct K0 (one_arg Kgamma 2 None UeV UeV UeV) = Ok cv /\ call K0 cv = Ok cv' /\
  reports K0 UeV (cv_out cv') q /\
  exists cv2 cv2', construct K0 (one_arg k2 (quantity q k2) None UeV UeV UeV) = Ok cv2 /\
    call K0 cv2 = Ok cv2' /\ reports K0 UeV (cv_out cv2') q.
Proof.
  intros k2.
  assert (HU : forall k v m, proper_units (one_arg k v m UeV UeV UeV)) by (intros; repeat split; left; reflexivity).
  assert (HM : forall k v, positive_mass (one_arg k v None UeV UeV UeV)) by (intros k v m E; discriminate).
  destruct (C01_kinematics_consistent K0 (one_arg Kgamma 2 None UeV UeV UeV) Kgamma 2)
    as (q & cv & cv' & H1 & H2 & H3 & H4 & H5 & H6); try reflexivity; auto.
  - apply K0_exact.
  - apply one_arg_given.
  - simpl. lra.
  - exists q, cv, cv'. split; [exact H1|]. split; [exact H2|]. split; [exact H5|].
    refine (C02_round_trip K0 (one_arg Kgamma 2 None UeV UeV UeV) Kgamma 2
      (one_arg k2 (quantity q k2) None UeV UeV UeV) k2 K0_exact (HU _ _ _) (HM _ _) _ _
      (HU _ _ _) (HM _ _) eq_refl cv cv' q H1 H2 H5 _ _).
    + apply one_arg_given.
    + simpl. lra.
    + apply one_arg_given.
    + right. auto.
Qed.

(** C02: without the sign condition the round trip fails: energy does not know the
    direction of motion. *)
Theorem C02_sign_lost_refuted : exists a a2 cv cv' cv2 cv2' E,
  given a Kbeta (-3/5) /\ construct K0 a = Ok cv /\ call K0 cv = Ok cv' /\
  reported (cv_out cv') Kenergy = Some (Some E) /\
  given a2 Kenergy E /\ construct K0 a2 = Ok cv2 /\ call K0 cv2 = Ok cv2' /\
  reported (cv_out cv2') Kbeta <> reported (cv_out cv') Kbeta.
Proof.
  pose (a := one_arg Kbeta (-3/5) None UeV UeV UeV).
  assert (HM : forall k v, positive_mass (one_arg k v None UeV UeV UeV)) by (intros k v m E; discriminate).
  destruct (C01_kinematics_consistent K0 a Kbeta (-3/5))
    as (q & cv & cv' & H1 & H2 & H3 & H4 & H5 & H6); try reflexivity; auto.
  { apply K0_exact. } { apply HM. } { apply one_arg_given. } { simpl. lra. }
  pose (a2 := one_arg Kenergy (q_energy q) None UeV UeV UeV).
  destruct (C01_kinematics_consistent K0 a2 Kenergy (q_energy q))
    as (q2 & cv2 & cv2' & G1 & G2 & G3 & G4 & G5 & G6); try reflexivity; auto.
  { apply K0_exact. } { apply HM. } { apply one_arg_given. }
  { apply (relativistic_physical _ _ q Kenergy); [unfold K0, c_light; lra|unfold meant_mass, a2, one_arg, a_mass, me_ev, K0; lra|exact H3]. }
  exists a, a2, cv, cv', cv2, cv2', (q_energy q).
  split; [apply one_arg_given|]. split; [exact H1|]. split; [exact H2|].
  split; [exact (H5 Kenergy)|]. split; [apply one_arg_given|]. split; [exact G1|].
  split; [exact G2|]. rewrite (H5 Kbeta), (G5 Kbeta). cbn in *. intros E. inversion E.
  specialize (G6 eq_refl). lra.
Qed.
Print Assumptions C02_sign_lost_refuted.

(** C03: construction succeeds exactly when one quantity is given and units are proper,
    and fails with AssertionError otherwise. *)
Theorem C03_exactly_one_quantity : forall K a,
  ((exists cv, construct K a = Ok cv) <-> (proper_units a /\ exists k v, given a k v)) /\
  (~ (proper_units a /\ exists k v, given a k v) -> construct K a = Err AssertionError).
Proof.
  intros K a.
  assert (H : (exists cv, construct K a = Ok cv) <-> (proper_units a /\ exists k v, given a k v)).
  { split.
    - intros [cv H]. exact (construct_inv K a cv H).
    - intros [HU (k & v & Hg)]. destruct (construct_ok K a k v HU Hg) as (cv & H & _). exists cv. exact H. }
  split; [exact H|]. intros Hn. destruct (construct_total K a) as [Ho|He]; [|exact He].
  exfalso. apply Hn. apply H. exact Ho.
Qed.
Print Assumptions C03_exactly_one_quantity.

Example C03_accepts : exists cv, construct K0 (one_arg Kbeta (1/2) None UeV UeV UeV) = Ok cv.
Proof.
  apply C03_exactly_one_quantity. split; [repeat split; left; reflexivity|].
  exists Kbeta, (1/2). apply one_arg_given.
Qed.
Example C03_rejects_two : construct K0
  {| a_val := fun k => match k with Kbeta => Some 0 | Kgamma => Some 1 | _ => None end;
     a_mass := None; a_mass_unit := UeV; a_input_unit := UeV; a_output_unit := UeV |} = Err AssertionError.
Proof. reflexivity. Qed.

(** C05: exactly when the reported mass is the supplied one. *)
Theorem C05_reported_mass_partial : forall K a k x cv cv', wf_consts K -> kg_per_ev K <> 1 ->
  proper_units a -> positive_mass a ->
  given a k (in_unit K (a_input_unit a) k x) ->
  construct K a = Ok cv -> call K cv = Ok cv' ->
  o_mass_label (cv_out cv') = a_mass_unit a /\
  (o_mass (cv_out cv') = supplied_mass K a <->
   match a_mass a with
   | Some _ => a_input_unit a = a_output_unit a
   | None => a_output_unit a = UeV
   end).
Proof.
  intros K a k x cv cv' Hw Hne HU Hm Hg C1 C2. split.
  - exact (proj1 (reported_mass K a k x cv cv' Hw HU Hm Hg C1 C2)).
  - exact (reported_mass_iff K a k x cv cv' Hw Hne HU Hm Hg C1 C2).
Qed.
Print Assumptions C05_reported_mass_partial.

Theorem C05_reported_mass_refuted : exists a cv cv', proper_units a /\ given a Kgamma 2 /\
  a_mass a = None /\ a_mass_unit a = UeV /\
  construct K0 a = Ok cv /\ call K0 cv = Ok cv' /\
  o_mass_label (cv_out cv') = UeV /\ o_mass (cv_out cv') <> me_ev K0.
Proof.
  pose (a := one_arg Kgamma 2 None UeV UeV USI).
  assert (HU : proper_units a) by (repeat split; [left|left|right]; reflexivity).
  destruct (C04_units_only_rescale K0 a Kgamma 2) as (q & cv & cv' & H1 & H2 & _); auto.
  { apply K0_exact. } { intros m E; discriminate. } { apply one_arg_given. } { simpl. lra. }
  exists a, cv, cv'. split; [exact HU|]. split; [apply one_arg_given|].
  split; [reflexivity|]. split; [reflexivity|]. split; [exact H1|]. split; [exact H2|].
  destruct (C05_reported_mass_partial K0 a Kgamma 2 cv cv') as [L M]; auto.
  { apply K0_exact. } { unfold kg_per_ev; simpl; lra. } { intros m E; discriminate. } { apply one_arg_given. }
  split; [exact L|]. intros E. assert (H : a_output_unit a = UeV) by (apply M; exact E). discriminate.
Qed.
Print Assumptions C05_reported_mass_refuted.

(** C06: with eV output every later call reports the same; with SI output every call
    multiplies momentum and energies by the conversion factor once more. *)
Theorem C06_repeated_calls_partial : forall K a k x, exact_consts K -> proper_units a -> positive_mass a ->
  given a k (in_unit K (a_input_unit a) k x) ->
  physical (c_light K) (meant_mass K a) k x ->
  exists q cv, construct K a = Ok cv /\ relativistic (c_light K) (meant_mass K a) q /\ quantity q k = x /\
  forall n, exists cv', call_n K (S n) cv = Ok cv' /\
    forall k', reported (cv_out cv') k' = Some (Some
      (match a_output_unit a with
       | USI => quantity q k' * si_per_ev K k' ^ (S n)
       | _ => quantity q k'
       end)).
Proof.
  intros K a k x He HU Hm Hg Hp.
  pose proof (internal_mass_exact K a He HU Hm) as Hmass. destruct He as [Hw Hx].
  destruct (converter_calls K a k x Hw HU Hg) as (q & cv & C1 & C2 & C3 & C4 & C5).
  - rewrite Hmass. exact (meant_mass_pos K a Hw Hm).
  - rewrite Hmass. exact Hp.
  - rewrite Hmass in C2. exists q, cv. split; [exact C1|]. split; [exact C2|]. split; [exact C3|].
    intros n. destruct (C5 n) as (cv' & D1 & D2). exists cv'. split; [exact D1|]. exact D2.
Qed.
Print Assumptions C06_repeated_calls_partial.

Theorem C06_repeated_calls_refuted : exists a cv cv1 cv2,
  construct K0 a = Ok cv /\ call K0 cv = Ok cv1 /\ call K0 cv1 = Ok cv2 /\
  reported (cv_out cv2) Kenergy <> reported (cv_out cv1) Kenergy.
Proof.
  pose (a := one_arg Kgamma 2 None UeV UeV USI).
  assert (HU : proper_units a) by (repeat split; [left|left|right]; reflexivity).
  destruct (C06_repeated_calls_partial K0 a Kgamma 2) as (q & cv & H1 & H2 & H3 & H4); auto.
  { apply K0_exact. } { intros m E; discriminate. } { apply one_arg_given. } { simpl. lra. }
  destruct (H4 O) as (cv1 & A1 & A2). destruct (H4 1%nat) as (cv2 & B1 & B2).
  cbn [call_n rbind] in A1, B1. rewrite A1 in B1. cbn [rbind] in B1.
  exists a, cv, cv1, cv2. split; [exact H1|]. split; [exact A1|]. split; [exact B1|].
  rewrite A2, B2. intros E. inversion E as [E1]. cbn -[Rdiv] in E1.
  pose proof (relativistic_energy (c_light K0) (me_ev K0) q ltac:(cbn; lra) H2) as HE. cbn -[Rdiv] in HE, H3.
  rewrite HE, H3 in E1. lra.
Qed.
Print Assumptions C06_repeated_calls_refuted.

(** C69: an unphysical input gives no finite answer, except negative gamma, energy or
    kinetic energy of magnitude beyond the rest energy. *)
Theorem C69_unphysical_partial : forall K a k x cv, wf_consts K -> proper_units a ->
  given a k (in_unit K (a_input_unit a) k x) ->
  construct K a = Ok cv -> 0 < cv_mass cv ->
  ~ physical (c_light K) (cv_mass cv) k x ->
  ~ (signed_kind k = false /\
     match k with Kgamma => x <= -1 | Kenergy => x <= - cv_mass cv | _ => x <= -2 * cv_mass cv end) ->
  call K cv = Err ZeroDivisionError \/
  exists cv', call K cv = Ok cv' /\
    (reported (cv_out cv') Kbeta = Some None \/ reported (cv_out cv') Kgamma = Some None).
Proof.
  intros K a k x cv Hw HU Hg HC Hm Hp Hn. apply (call_rejects K a k x); auto.
  unfold accepted_value. intros [H|H]; [exact (Hp H)|]. apply Hn. destruct k; simpl; tauto.
Qed.
Print Assumptions C69_unphysical_partial.

Example C69_applies : exists cv, construct K0 (one_arg Kbeta 2 None UeV UeV UeV) = Ok cv /\ 0 < cv_mass cv /\
  exists cv', call K0 cv = Ok cv' /\ (reported (cv_out cv') Kbeta = Some None \/ reported (cv_out cv') Kgamma = Some None).
Proof.
  assert (HU : proper_units (one_arg Kbeta 2 None UeV UeV UeV)) by (repeat split; left; reflexivity).
  destruct (construct_ok K0 (one_arg Kbeta 2 None UeV UeV UeV) Kbeta 2 HU (one_arg_given _ _ _ _ _ _))
    as (cv & H1 & _ & H3 & _).
  assert (Hp : 0 < cv_mass cv) by (rewrite H3; simpl; lra).
  exists cv. split; [exact H1|]. split; [exact Hp|].
  destruct (C69_unphysical_partial K0 _ Kbeta 2 cv (proj1 K0_exact) HU (one_arg_given _ _ _ _ _ _) H1 Hp) as [E|E]; auto.
  - simpl. lra.
  - simpl. intros [E _]. discriminate.
  - exfalso. revert E. unfold call.
    rewrite (set_beta_gamma_given K0 cv Kbeta 2).
    + cbn. discriminate.
    + destruct (construct_ok K0 _ Kbeta 2 HU (one_arg_given _ _ _ _ _ _)) as (cw & W1 & W2 & _).
      rewrite H1 in W1. inversion W1; subst cw. rewrite W2. apply one_arg_given.
Qed.

Theorem C69_unphysical_refuted : exists a cv cv' b,
  given a Kgamma (-2) /\ construct K0 a = Ok cv /\ call K0 cv = Ok cv' /\
  reported (cv_out cv') Kbeta = Some (Some b) /\ reported (cv_out cv') Kgamma = Some (Some (-2)).
Proof.
  pose (a := one_arg Kgamma (-2) None UeV UeV UeV).
  assert (HU : proper_units a) by (repeat split; left; reflexivity).
  destruct (construct_ok K0 a Kgamma (-2) HU (one_arg_given _ _ _ _ _ _)) as (cv & H1 & H2 & _).
  assert (Hs : startup K0 (cv_mass cv) Kgamma (-2) = Ok (Some (sqrt (1 - 1 / (-2) ^ 2)), Some (-2))).
  { unfold startup, start_gamma. rewrite pdiv_ok by lra. cbn [rbind]. rewrite nsqrt_pos by lra. reflexivity. }
  exists a, cv. unfold call. rewrite (set_beta_gamma_given K0 cv Kgamma (-2)).
  - rewrite Hs, H2. cbn [rbind]. do 2 eexists. split; [apply one_arg_given|]. split; [exact H1|].
    split; [reflexivity|]. cbn. split; reflexivity.
  - rewrite H2. apply one_arg_given.
Qed.
Print Assumptions C69_unphysical_refuted.

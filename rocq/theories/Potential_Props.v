(** The nonlinear potential: vacuum field, scale, strength, axes (property C129). *)
From Coq Require Import List Reals Lra Lia Psatz Bool Arith ZArith String.
From Coquelicot Require Import Coquelicot.
From Verif Require Import PyBase Bunch_Model Bunch_Proofs Potential_Proofs.
Import ListNotations.
Open Scope R_scope.

(** The number that compute_potential returns. *)
Definition potential (b : bunch) (x y : R) : R := match compute_potential b x y with Ok (Some v) => v | _ => 0 end.

Lemma formula : forall b x y, b_kind b = Nonlinear -> 0 < b_c b -> (y <> 0 \/ - b_c b < x < b_c b) ->
  compute_potential b x y = Ok (Some (1/2 * (x ^ 2 + y ^ 2) - b_t b * b_c b ^ 2 * F1 (x / b_c b) (y / b_c b))).
Proof.
  intros b x y K C H. destruct (Req_dec (b_t b) 0) as [E|E].
  - unfold compute_potential. rewrite K. destruct (Req_EM_T (b_t b) 0); [|contradiction]. rewrite E. do 2 f_equal. ring.
  - rewrite potential_nl by (assumption || lra). rewrite elliptic_F.
    + cbn [fmap1]. do 2 f_equal. ring.
    + destruct H as [H|H]; [left|right].
      * apply Rmult_integral_contrapositive_currified; [exact H|apply Rinv_neq_0_compat; lra].
      * split; apply Rmult_lt_reg_r with (b_c b); try exact C; unfold Rdiv; rewrite Rmult_assoc, Rinv_l by lra; lra.
Qed.

Lemma near_x : forall c x y, (y <> 0 \/ - c < x < c) -> locally x (fun t => y <> 0 \/ - c < t < c).
Proof.
  intros c x y [H|H]; [apply filter_forall; intros t; now left|].
  apply filter_imp with (fun t => - c < t < c); [intros t Ht; now right|].
  apply (open_and (fun t => - c < t) (fun t => t < c)); [apply open_gt|apply open_lt|exact H].
Qed.
Lemma near_y : forall c x y, (y <> 0 \/ - c < x < c) -> locally y (fun t => t <> 0 \/ - c < x < c).
Proof.
  intros c x y [H|H]; [|apply filter_forall; intros t; now right].
  apply filter_imp with (fun t => t <> 0); [intros t Ht; now left|]. apply open_neq. exact H.
Qed.
Lemma off_scaled : forall c x y, 0 < c -> (y <> 0 \/ - c < x < c) -> off_rays (x / c) (y / c).
Proof.
  intros c x y C [H|H]; [left|right].
  - apply Rmult_integral_contrapositive_currified; [exact H|apply Rinv_neq_0_compat; lra].
  - split; apply Rmult_lt_reg_r with c; try exact C; unfold Rdiv; rewrite Rmult_assoc, Rinv_l by lra; lra.
Qed.
Lemma d_scale : forall (f : R -> R) c x l, c <> 0 -> is_derive f (x / c) l -> is_derive (fun t => f (t / c)) x (l / c).
Proof.
  intros f c x l C H. eapply is_derive_eq; [apply (d_comp f (fun t => t / c)); [|exact H]; apply (d_div (fun t => t) (fun _ => c)); [apply d_id|apply d_const|exact C]|].
  field. exact C.
Qed.
Lemma d_half_sq : forall x y, is_derive (fun t => 1/2 * (t ^ 2 + y ^ 2)) x x.
Proof. intros x y. auto_derive; [exact I|]. field. Qed.
Lemma d_half_sq' : forall x y, is_derive (fun t => 1/2 * (x ^ 2 + t ^ 2)) y y.
Proof. intros x y. auto_derive; [exact I|]. field. Qed.

(** The nonlinear part of the potential satisfies Laplace's equation: the second derivatives of the whole
    potential add up to 2, those of (x^2 + y^2)/2. This is so at every point off the two lines that go
    outwards from the singular points. *)
Theorem C129_vacuum_partial : forall b x y, b_kind b = Nonlinear -> 0 < b_c b -> (y <> 0 \/ - b_c b < x < b_c b) ->
  compute_potential b x y = Ok (Some (potential b x y)) /\
  exists vxx vyy, is_derive_n (fun a => potential b a y) 2 x vxx /\ is_derive_n (fun a => potential b x a) 2 y vyy /\ vxx + vyy = 2.
Proof.
  intros b x y K C H. split; [unfold potential; now rewrite formula|].
  set (c := b_c b) in *. set (t := b_t b).
  assert (V : forall x y, (y <> 0 \/ - c < x < c) -> potential b x y = 1/2 * (x ^ 2 + y ^ 2) - t * c ^ 2 * F1 (x / c) (y / c)).
  { intros x' y' H'. unfold potential. rewrite formula by assumption. reflexivity. }
  destruct harmonic as (P & Q & R1 & L). exists (1 - t * R1 (x / c) (y / c)), (1 + t * R1 (x / c) (y / c)).
  assert (DX : forall x y, (y <> 0 \/ - c < x < c) -> is_derive (fun a => potential b a y) x (x - t * c * P (x / c) (y / c))).
  { intros x' y' H'. eapply is_derive_ext_loc; [apply filter_imp with (2 := near_x c x' y' H'); intros a Ha; symmetry; apply V; exact Ha|].
    eapply is_derive_eq.
    - apply (d_minus (fun a => 1/2 * (a ^ 2 + y' ^ 2)) (fun a => t * c ^ 2 * F1 (a / c) (y' / c))); [apply d_half_sq|].
      apply (d_mult (fun _ => t * c ^ 2) (fun a => F1 (a / c) (y' / c))); [apply d_const|].
      apply (d_scale (fun a => F1 a (y' / c))); [lra|]. apply (proj1 (L (x' / c) (y' / c) (off_scaled c x' y' C H'))).
    - cbn beta. field. lra. }
  assert (DY : forall x y, (y <> 0 \/ - c < x < c) -> is_derive (fun a => potential b x a) y (y + t * c * Q (x / c) (y / c))).
  { intros x' y' H'. eapply is_derive_ext_loc; [apply filter_imp with (2 := near_y c x' y' H'); intros a Ha; symmetry; apply V; exact Ha|].
    eapply is_derive_eq.
    - apply (d_minus (fun a => 1/2 * (x' ^ 2 + a ^ 2)) (fun a => t * c ^ 2 * F1 (x' / c) (a / c))); [apply d_half_sq'|].
      apply (d_mult (fun _ => t * c ^ 2) (fun a => F1 (x' / c) (a / c))); [apply d_const|].
      apply (d_scale (fun a => F1 (x' / c) a)); [lra|]. apply (proj1 (proj2 (L (x' / c) (y' / c) (off_scaled c x' y' C H')))).
    - cbn beta. field. lra. }
  destruct (L (x / c) (y / c) (off_scaled c x y C H)) as (_ & _ & L3 & L4).
  split; [|split; [|ring]].
  - change (is_derive (fun a => Derive (fun a => potential b a y) a) x (1 - t * R1 (x / c) (y / c))).
    eapply is_derive_ext_loc; [apply filter_imp with (2 := near_x c x y H); intros a Ha; symmetry; apply is_derive_unique; apply DX; exact Ha|].
    eapply is_derive_eq.
    + apply (d_minus (fun a => a) (fun a => t * c * P (a / c) (y / c))); [apply d_id|].
      apply (d_mult (fun _ => t * c) (fun a => P (a / c) (y / c))); [apply d_const|]. apply (d_scale (fun a => P a (y / c))); [lra|exact L3].
    + cbn beta. field. lra.
  - change (is_derive (fun a => Derive (fun a => potential b x a) a) y (1 + t * R1 (x / c) (y / c))).
    eapply is_derive_ext_loc; [apply filter_imp with (2 := near_y c x y H); intros a Ha; symmetry; apply is_derive_unique; apply DY; exact Ha|].
    eapply is_derive_eq.
    + apply (d_plus (fun a => a) (fun a => t * c * Q (x / c) (a / c))); [apply d_id|].
      apply (d_mult (fun _ => t * c) (fun a => Q (x / c) (a / c))); [apply d_const|]. apply (d_scale (fun a => Q (x / c) a)); [lra|exact L4].
    + cbn beta. field. lra.
Qed.
Print Assumptions C129_vacuum_partial.

(** On these two lines there is no force across: the potential has a kink, for every strength but zero. *)
Theorem C129_lines_refuted : forall b x, b_kind b = Nonlinear -> 0 < b_c b -> b_t b <> 0 -> (x < - b_c b \/ b_c b < x) ->
  (exists v, compute_potential b x 0 = Ok (Some v)) /\ ~ ex_derive (fun a => potential b x a) 0.
Proof.
  intros b x K C T H.
  assert (G : forall x, b_c b < x -> forall a, compute_potential b x a = Ok (Some (1/2 * (x ^ 2 + a ^ 2) + -1 * b_t b * b_c b ^ 2 * (cut_A (x / b_c b) (a / b_c b) + cut_B (x / b_c b) (a / b_c b))))).
  { intros x' H' a. rewrite potential_nl by (assumption || lra). rewrite elliptic_cut; [reflexivity|].
    apply Rmult_lt_reg_r with (b_c b); [exact C|]. unfold Rdiv. rewrite Rmult_assoc, Rinv_l by lra. lra. }
  assert (N : forall x, b_c b < x -> ~ ex_derive (fun a => potential b x a) 0).
  { intros x' H' E. assert (X : 1 < x' / b_c b) by (apply Rmult_lt_reg_r with (b_c b); [exact C|]; unfold Rdiv; rewrite Rmult_assoc, Rinv_l by lra; lra).
    apply (cut_no_derivative (x' / b_c b) X). destruct E as [l E]. set (c := b_c b) in *. set (t := b_t b) in *.
    assert (E' : is_derive (fun a => potential b x' a) (c * 0) l) by (rewrite Rmult_0_r; exact E).
    assert (S : is_derive (fun y => potential b x' (c * y)) 0 (l * c)).
    { eapply is_derive_eq; [apply (d_comp (fun a => potential b x' a) (fun y => c * y)); [|exact E']; apply (d_mult (fun _ => c) (fun y => y)); [apply d_const|apply d_id]|]. ring. }
    assert (Qd : is_derive (fun y => 1/2 * (x' ^ 2 + (c * y) ^ 2)) 0 0) by (auto_derive; [exact I|ring]).
    eexists. eapply is_derive_ext; [|apply (d_div _ (fun _ => t * c ^ 2) 0 _ _ (d_minus _ _ 0 _ _ Qd S) (d_const (t * c ^ 2) 0))].
    - intros y. cbn beta. unfold potential. rewrite G by exact H'. fold c t. assert (RI : forall y : R, c * y / c = y) by (intros; field; apply Rgt_not_eq; exact C). rewrite RI.
      assert (ALG : forall q e k : R, k <> 0 -> (q - (q + -1 * k * e)) / k = e) by (intros; field; assumption).
      replace (-1 * t * c ^ 2) with (-1 * (t * c ^ 2)) by ring. apply ALG. apply Rmult_integral_contrapositive_currified; [exact T|apply pow_nonzero; lra].
    - apply Rmult_integral_contrapositive_currified; [exact T|apply pow_nonzero; lra]. }
  destruct H as [H|H].
  - split.
    + rewrite <- potential_even_x. rewrite G by lra. eexists. reflexivity.
    + intros E. apply (N (- x)); [lra|]. eapply ex_derive_ext; [|exact E]. intros a. cbn beta. unfold potential. now rewrite potential_even_x.
  - split; [rewrite G by lra; eexists; reflexivity|now apply N].
Qed.
Print Assumptions C129_lines_refuted.

(** Larger lengths: the potential goes with the square of the scale. *)
Theorem C129_scale : forall b k x y p, b_kind b = Nonlinear -> b_c b <> 0 -> k <> 0 -> compute_potential b x y = Ok p ->
  compute_potential (with_insert b (b_t b) (k * b_c b)) (k * x) (k * y) = Ok (fmap1 (Rmult (k ^ 2)) p).
Proof.
  intros b k x y p K C Hk E. destruct (Req_dec (b_t b) 0) as [T|T].
  - unfold compute_potential in *. cbn [with_insert b_kind b_t b_c]. rewrite K in *. destruct (Req_EM_T (b_t b) 0); [|contradiction].
    injection E as <-. cbn [fmap1]. do 2 f_equal. ring.
  - rewrite potential_nl in E by assumption. rewrite potential_nl by (cbn; first [assumption | now apply Rmult_integral_contrapositive_currified]). injection E as <-.
    cbn [with_insert b_t b_c]. replace (k * x / (k * b_c b)) with (x / b_c b) by (field; split; assumption).
    replace (k * y / (k * b_c b)) with (y / b_c b) by (field; split; assumption).
    destruct (elliptic_of (x / b_c b) (y / b_c b)) as [e|]; cbn [fmap1]; do 2 f_equal. ring.
Qed.
Print Assumptions C129_scale.

(** The strength: the nonlinear part is proportional to it. *)
Theorem C129_strength : forall b k x y v, b_kind b = Nonlinear -> b_c b <> 0 -> k <> 0 -> b_t b <> 0 -> compute_potential b x y = Ok (Some v) ->
  compute_potential (with_insert b (k * b_t b) (b_c b)) x y = Ok (Some (1/2 * (x ^ 2 + y ^ 2) + k * (v - 1/2 * (x ^ 2 + y ^ 2)))) /\
  compute_potential (with_insert b 0 (b_c b)) x y = Ok (Some (1/2 * (x ^ 2 + y ^ 2))).
Proof.
  intros b k x y v K C Hk T E. split.
  - rewrite potential_nl in E by assumption. rewrite potential_nl by (cbn; first [assumption | now apply Rmult_integral_contrapositive_currified]).
    cbn [with_insert b_t b_c]. destruct (elliptic_of (x / b_c b) (y / b_c b)) as [e|]; [|discriminate]. injection E as <-. cbn [fmap1]. do 2 f_equal. ring.
  - unfold compute_potential. cbn [with_insert b_kind b_t]. rewrite K. destruct (Req_EM_T 0 0); [|contradiction]. do 2 f_equal. ring.
Qed.
Print Assumptions C129_strength.

(** The axes: an inverse sine between the singular points, an inverse hyperbolic sine across. *)
Theorem C129_axes : forall b, b_kind b = Nonlinear -> 0 < b_c b ->
  (forall x, - b_c b < x < b_c b -> compute_potential b x 0 =
     Ok (Some (x ^ 2 / 2 + b_t b * b_c b * x * asin (x / b_c b) / sqrt (1 - (x / b_c b) ^ 2)))) /\
  (forall y, compute_potential b 0 y =
     Ok (Some (y ^ 2 / 2 - b_t b * b_c b * y * arcsinh (y / b_c b) / sqrt (1 + (y / b_c b) ^ 2)))).
Proof.
  intros b K C. split.
  - intros x Hx. rewrite formula by (assumption || now right). assert (O : off_rays (x / b_c b) (0 / b_c b)) by (apply off_scaled; [exact C|now right]).
    set (a := x / b_c b) in *. replace (0 / b_c b) with 0 in * by (field; lra).
    assert (R : -1 < a < 1) by (destruct O as [O|O]; [now contradiction O|exact O]).
    assert (V : ev a 0 = a /\ eu a 0 = 1).
    { unfold ev, eu, d1, d2. replace ((a + 1) ^ 2 + 0 ^ 2) with (Rsqr (1 + a)) by (unfold Rsqr; ring). replace ((a - 1) ^ 2 + 0 ^ 2) with (Rsqr (1 - a)) by (unfold Rsqr; ring).
      rewrite !sqrt_Rsqr by lra. split; field. }
    destruct V as [V U]. unfold F1, mul_re. destruct (T_val a 0 O) as [-> ->]. unfold W1, W2, eeta, exi. rewrite V, U.
    assert (S0 : es a 0 = 0) by (unfold es; unfold Rdiv; ring). rewrite S0, arcsinh_0. unfold eq_. rewrite V.
    assert (P : 0 < 1 - a ^ 2) by nra. assert (Q : 0 < sqrt (1 - a ^ 2)) by (now apply sqrt_lt_R0). rewrite acos_asin by lra.
    assert (SQ : sqrt (1 - a ^ 2) * sqrt (1 - a ^ 2) = 1 - a ^ 2) by (apply sqrt_sqrt; lra).
    set (r := sqrt (1 - a ^ 2)) in *. assert (X : x = b_c b * a) by (unfold a; field; lra). do 2 f_equal.
    replace (1 ^ 2 - a ^ 2) with (r * r) by (rewrite SQ; ring). rewrite X. field. lra.
  - intros y. rewrite formula by (assumption || (right; lra)). assert (O : off_rays (0 / b_c b) (y / b_c b)) by (apply off_scaled; [exact C|right; lra]).
    set (a := y / b_c b) in *. replace (0 / b_c b) with 0 in * by (field; lra).
    assert (V : ev 0 a = 0 /\ eu 0 a = sqrt (1 + a ^ 2)).
    { unfold ev, eu, d1, d2. replace ((0 + 1) ^ 2 + a ^ 2) with (1 + a ^ 2) by ring. replace ((0 - 1) ^ 2 + a ^ 2) with (1 + a ^ 2) by ring. split; field. }
    destruct V as [V U]. unfold F1, mul_re. destruct (T_val 0 a O) as [-> ->]. unfold W1, W2, eeta, exi. rewrite V, U.
    assert (Q1 : eq_ 0 a = 1) by (unfold eq_; rewrite V; replace (1 - 0 ^ 2) with 1 by ring; apply sqrt_1).
    assert (S0 : es 0 a = a) by (unfold es; rewrite Q1; field). rewrite S0, Q1. pose proof (pow2_ge_0 a).
    assert (Q : 0 < sqrt (1 + a ^ 2)) by (apply sqrt_lt_R0; lra). set (r := sqrt (1 + a ^ 2)) in *.
    assert (X : y = b_c b * a) by (unfold a; field; lra). do 2 f_equal. rewrite X. field. lra.
Qed.
Print Assumptions C129_axes.

(** A bunch that meets the hypotheses: strength 1/10, singular points at 1/100. *)
Definition bunch_t : bunch :=
  {| b_kind := Nonlinear; b_npart := 1; b_dist := "KV"; b_emitx := 1; b_emity := 1; b_emit := 2;
     b_tw := {| u_betax := 1; u_alphax := 0; u_betay := 1; u_alphay := 0; u_gammax := 1; u_gammay := 1 |};
     b_stdz := 1; b_dpop := 0; b_quiet := false; b_trans := [zero4]; b_long := [(0, 0)]; b_ids := [0%nat];
     b_t := 1/10; b_c := 1/100; b_cutoff := 4 |}.
Example C129_applies : b_kind bunch_t = Nonlinear /\ 0 < b_c bunch_t /\ b_t bunch_t <> 0 /\
  (exists vxx vyy, is_derive_n (fun a => potential bunch_t a 0) 2 (1/200) vxx /\ is_derive_n (fun a => potential bunch_t (1/200) a) 2 0 vyy /\ vxx + vyy = 2) /\
  ~ ex_derive (fun a => potential bunch_t (1/50) a) 0.
Proof.
  split; [reflexivity|]. split; [cbn; lra|]. split; [cbn; lra|]. split.
  - apply (C129_vacuum_partial bunch_t (1/200) 0); [reflexivity|cbn; lra|right; cbn; lra].
  - apply (C129_lines_refuted bunch_t (1/50)); [reflexivity|cbn; lra|cbn; lra|right; cbn; lra].
Qed.

(** The elliptic potential is the real part of an analytic function. *)
From Coq Require Import List Reals Lra Lia Psatz Bool Arith ZArith String.
From Coquelicot Require Import Coquelicot.
From Verif Require Import PyBase Bunch_Model Bunch_Proofs.
Import ListNotations.
Open Scope R_scope.

Lemma is_derive_eq : forall (f : R -> R) (x l l' : R), is_derive f x l -> l = l' -> is_derive f x l'.
Proof. intros f x l l' H <-. exact H. Qed.
Lemma d_plus : forall (f g : R -> R) x a b, is_derive f x a -> is_derive g x b -> is_derive (fun t => f t + g t) x (a + b).
Proof. intros f g x a b H K. apply (is_derive_plus (K := R_AbsRing) (V := R_NormedModule) f g x a b H K). Qed.
Lemma d_minus : forall (f g : R -> R) x a b, is_derive f x a -> is_derive g x b -> is_derive (fun t => f t - g t) x (a - b).
Proof. intros f g x a b H K. apply (is_derive_minus (K := R_AbsRing) (V := R_NormedModule) f g x a b H K). Qed.
Lemma d_mult : forall (f g : R -> R) x a b, is_derive f x a -> is_derive g x b -> is_derive (fun t => f t * g t) x (a * g x + f x * b).
Proof. intros f g x a b H K. apply (is_derive_mult f g x a b H K). intros. apply Rmult_comm. Qed.
Lemma d_div : forall (f g : R -> R) x a b, is_derive f x a -> is_derive g x b -> g x <> 0 ->
  is_derive (fun t => f t / g t) x ((a * g x - f x * b) / g x ^ 2).
Proof. intros f g x a b H K N. apply (is_derive_div f g x a b H K N). Qed.
Lemma d_comp : forall (h f : R -> R) x a b, is_derive f x a -> is_derive h (f x) b -> is_derive (fun t => h (f t)) x (b * a).
Proof.
  intros h f x a b H K. eapply is_derive_eq; [apply (is_derive_comp (K := R_AbsRing) (V := R_NormedModule) h f x b a K H)|].
  unfold scal; simpl; unfold mult; simpl. ring.
Qed.
Lemma d_const : forall c x, is_derive (fun _ : R => c) x 0.
Proof. intros c x. apply (is_derive_const (K := R_AbsRing) (V := R_NormedModule) c x). Qed.
Lemma d_id : forall x, is_derive (fun t : R => t) x 1.
Proof. intros x. apply (is_derive_id (K := R_AbsRing) x). Qed.
Lemma d_sqrt : forall (f : R -> R) x a, is_derive f x a -> 0 < f x -> is_derive (fun t => sqrt (f t)) x (a / (2 * sqrt (f x))).
Proof. intros f x a H P. apply (is_derive_sqrt f x a H P). Qed.

(** A pair of real functions of the plane that satisfies the Cauchy-Riemann equations at a point. *)
Ltac four := split; [|split; [|split]].
Definition CR (A B : R -> R -> R) (x y p q : R) : Prop :=
  is_derive (fun t => A t y) x p /\ is_derive (fun t => B t y) x q /\
  is_derive (fun t => A x t) y (- q) /\ is_derive (fun t => B x t) y p.

Lemma CR_eq : forall A B x y p q p' q', CR A B x y p q -> p = p' -> q = q' -> CR A B x y p' q'.
Proof. intros; subst; assumption. Qed.
Lemma CR_z : forall x y, CR (fun x _ => x) (fun _ y => y) x y 1 0.
Proof. intros. four; try apply d_id; [apply d_const|]. apply (is_derive_eq _ _ 0); [apply d_const|symmetry; apply Ropp_0]. Qed.
Lemma CR_plus : forall A B C D x y p q r s, CR A B x y p q -> CR C D x y r s ->
  CR (fun x y => A x y + C x y) (fun x y => B x y + D x y) x y (p + r) (q + s).
Proof.
  intros A B C D x y p q r s (H1 & H2 & H3 & H4) (K1 & K2 & K3 & K4). four.
  - apply (d_plus (fun t => A t y) (fun t => C t y)); assumption.
  - apply (d_plus (fun t => B t y) (fun t => D t y)); assumption.
  - eapply is_derive_eq; [apply (d_plus (fun t => A x t) (fun t => C x t)); eassumption|ring].
  - apply (d_plus (fun t => B x t) (fun t => D x t)); assumption.
Qed.
Lemma CR_mult : forall A B C D x y p q r s, CR A B x y p q -> CR C D x y r s ->
  CR (fun x y => A x y * C x y - B x y * D x y) (fun x y => A x y * D x y + B x y * C x y) x y
     (p * C x y + A x y * r - (q * D x y + B x y * s)) (p * D x y + A x y * s + (q * C x y + B x y * r)).
Proof.
  intros A B C D x y p q r s (H1 & H2 & H3 & H4) (K1 & K2 & K3 & K4). four.
  - apply (d_minus (fun t => A t y * C t y) (fun t => B t y * D t y)); [apply (d_mult (fun t => A t y) (fun t => C t y))|apply (d_mult (fun t => B t y) (fun t => D t y))]; assumption.
  - apply (d_plus (fun t => A t y * D t y) (fun t => B t y * C t y)); [apply (d_mult (fun t => A t y) (fun t => D t y))|apply (d_mult (fun t => B t y) (fun t => C t y))]; assumption.
  - eapply is_derive_eq; [apply (d_minus (fun t => A x t * C x t) (fun t => B x t * D x t)); [apply (d_mult (fun t => A x t) (fun t => C x t))|apply (d_mult (fun t => B x t) (fun t => D x t))]; eassumption|cbn; ring].
  - eapply is_derive_eq; [apply (d_plus (fun t => A x t * D x t) (fun t => B x t * C x t)); [apply (d_mult (fun t => A x t) (fun t => D x t))|apply (d_mult (fun t => B x t) (fun t => C x t))]; eassumption|cbn; ring].
Qed.
Definition inv_re (A B : R -> R -> R) (x y : R) : R := A x y / (A x y * A x y + B x y * B x y).
Definition inv_im (A B : R -> R -> R) (x y : R) : R := (0 - B x y) / (A x y * A x y + B x y * B x y).
Lemma CR_inv : forall A B x y p q, CR A B x y p q -> A x y * A x y + B x y * B x y <> 0 ->
  CR (inv_re A B) (inv_im A B) x y
     (- (p * (inv_re A B x y * inv_re A B x y - inv_im A B x y * inv_im A B x y) - q * (2 * inv_re A B x y * inv_im A B x y)))
     (- (p * (2 * inv_re A B x y * inv_im A B x y) + q * (inv_re A B x y * inv_re A B x y - inv_im A B x y * inv_im A B x y))).
Proof.
  intros A B x y p q (H1 & H2 & H3 & H4) N. unfold inv_re, inv_im.
  assert (Nx : is_derive (fun t => A t y * A t y + B t y * B t y) x (p * A x y + A x y * p + (q * B x y + B x y * q))).
  { apply (d_plus (fun t => A t y * A t y) (fun t => B t y * B t y)); [apply (d_mult (fun t => A t y) (fun t => A t y))|apply (d_mult (fun t => B t y) (fun t => B t y))]; assumption. }
  assert (Ny : is_derive (fun t => A x t * A x t + B x t * B x t) y (- q * A x y + A x y * - q + (p * B x y + B x y * p))).
  { apply (d_plus (fun t => A x t * A x t) (fun t => B x t * B x t)); [apply (d_mult (fun t => A x t) (fun t => A x t))|apply (d_mult (fun t => B x t) (fun t => B x t))]; assumption. }
  assert (Zx : is_derive (fun t => 0 - B t y) x (0 - q)) by (apply (d_minus (fun _ => 0) (fun t => B t y)); [apply d_const|assumption]).
  assert (Zy : is_derive (fun t => 0 - B x t) y (0 - p)) by (apply (d_minus (fun _ => 0) (fun t => B x t)); [apply d_const|assumption]).
  four.
  - eapply is_derive_eq; [apply (d_div (fun t => A t y) (fun t => A t y * A t y + B t y * B t y)); eassumption|cbn beta; field; exact N].
  - eapply is_derive_eq; [apply (d_div (fun t => 0 - B t y) (fun t => A t y * A t y + B t y * B t y)); eassumption|cbn beta; field; exact N].
  - eapply is_derive_eq; [apply (d_div (fun t => A x t) (fun t => A x t * A x t + B x t * B x t)); eassumption|cbn beta; field; exact N].
  - eapply is_derive_eq; [apply (d_div (fun t => 0 - B x t) (fun t => A x t * A x t + B x t * B x t)); eassumption|cbn beta; field; exact N].
Qed.

(** ---------- elliptic coordinates ---------- *)
(** Off the two rays that start at the foci. *)
Definition off_rays (x y : R) : Prop := y <> 0 \/ -1 < x < 1.

Definition eu (x y : R) : R := (d1 x y + d2 x y) / 2.
Definition ev (x y : R) : R := (d1 x y - d2 x y) / 2.
Definition eq_ (x y : R) : R := sqrt (1 - ev x y ^ 2).
Definition es (x y : R) : R := y / eq_ x y.
Definition exi (x y : R) : R := arcsinh (es x y).
Definition eeta (x y : R) : R := acos (ev x y).

Lemma base1 : forall x y, off_rays x y -> 0 < (x + 1) ^ 2 + y ^ 2.
Proof. intros x y [H|H]; pose proof (pow2_ge_0 (x + 1)); pose proof (pow2_ge_0 y); [pose proof (pow2_gt_0 y H); lra|]. assert (0 < (x + 1) ^ 2) by (apply pow_lt; lra). lra. Qed.
Lemma base2 : forall x y, off_rays x y -> 0 < (x - 1) ^ 2 + y ^ 2.
Proof. intros x y [H|H]; pose proof (pow2_ge_0 (x - 1)); pose proof (pow2_ge_0 y); [pose proof (pow2_gt_0 y H); lra|]. assert (0 < (x - 1) ^ 2) by (apply pow2_gt_0; lra). lra. Qed.
Lemma d1_pos : forall x y, off_rays x y -> 0 < d1 x y.
Proof. intros x y H. unfold d1. apply sqrt_lt_R0. now apply base1. Qed.
Lemma d2_pos : forall x y, off_rays x y -> 0 < d2 x y.
Proof. intros x y H. unfold d2. apply sqrt_lt_R0. now apply base2. Qed.
Lemma euv : forall x y, eu x y * ev x y = x.
Proof. intros x y. unfold eu, ev. pose proof (d1_sq x y). pose proof (d2_sq x y). nra. Qed.
Lemma eprod : forall x y, (eu x y ^ 2 - 1) * (1 - ev x y ^ 2) = y ^ 2.
Proof.
  intros x y. replace ((eu x y ^ 2 - 1) * (1 - ev x y ^ 2)) with (eu x y ^ 2 + ev x y ^ 2 - (eu x y * ev x y) ^ 2 - 1) by ring.
  rewrite euv. unfold eu, ev. pose proof (d1_sq x y). pose proof (d2_sq x y). nra.
Qed.
Lemma eu_ge : forall x y, 1 <= eu x y.
Proof. intros x y. unfold eu. pose proof (sum_ge x y). lra. Qed.
Lemma ev_range : forall x y, off_rays x y -> -1 < ev x y < 1.
Proof.
  intros x y H. assert (P : 0 < 1 - ev x y ^ 2).
  { destruct (Req_dec y 0) as [E|E].
    - destruct H as [H|H]; [contradiction|]. pose proof (euv x y). pose proof (eu_ge x y).
      set (u := eu x y) in *. set (v := ev x y) in *.
      assert (v ^ 2 <= (u * v) ^ 2) by (pose proof (pow2_ge_0 v); assert (1 <= u ^ 2) by nra; nra). rewrite H0 in H2. nra.
    - pose proof (eprod x y) as Q. pose proof (pow2_gt_0 y E). pose proof (eu_ge x y).
      assert (0 <= 1 - ev x y ^ 2) by (unfold ev; pose proof (diff_le x y); pose proof (diff_ge x y); nra).
      destruct (Req_dec (1 - ev x y ^ 2) 0) as [Z|Z]; [rewrite Z in Q; lra|lra]. }
  split; nra.
Qed.
Lemma eq_pos : forall x y, off_rays x y -> 0 < eq_ x y.
Proof. intros x y H. unfold eq_. apply sqrt_lt_R0. pose proof (ev_range x y H). nra. Qed.
Lemma eq_sq : forall x y, off_rays x y -> eq_ x y ^ 2 = 1 - ev x y ^ 2.
Proof. intros x y H. unfold eq_. rewrite <- Rsqr_pow2. apply Rsqr_sqrt. pose proof (ev_range x y H). nra. Qed.
Lemma es_eq : forall x y, off_rays x y -> es x y * eq_ x y = y.
Proof. intros x y H. unfold es. pose proof (eq_pos x y H). field. lra. Qed.
Lemma es_sq : forall x y, off_rays x y -> es x y ^ 2 = eu x y ^ 2 - 1.
Proof.
  intros x y H. pose proof (eprod x y) as P. rewrite <- (eq_sq x y H) in P. rewrite <- (es_eq x y H) in P at 3.
  pose proof (eq_pos x y H). apply Rmult_eq_reg_r with (eq_ x y ^ 2); [|apply pow_nonzero; lra]. rewrite P. ring.
Qed.
Lemma ed_pos : forall x y, off_rays x y -> 0 < eu x y ^ 2 - ev x y ^ 2.
Proof. intros x y H. pose proof (d1_pos x y H). pose proof (d2_pos x y H). unfold eu, ev. nra. Qed.

Lemma d1_x : forall x y, off_rays x y -> is_derive (fun t => d1 t y) x ((x + 1) / d1 x y).
Proof.
  intros x y H. pose proof (d1_pos x y H) as P. unfold d1 in *. eapply is_derive_eq.
  - apply (d_sqrt (fun t => (t + 1) ^ 2 + y ^ 2)). + auto_derive; [exact I|reflexivity]. + first [now apply base1 | now apply base2].
  - cbn beta. field. lra.
Qed.
Lemma d1_y : forall x y, off_rays x y -> is_derive (fun t => d1 x t) y (y / d1 x y).
Proof.
  intros x y H. pose proof (d1_pos x y H) as P. unfold d1 in *. eapply is_derive_eq.
  - apply (d_sqrt (fun t => (x + 1) ^ 2 + t ^ 2)). + auto_derive; [exact I|reflexivity]. + first [now apply base1 | now apply base2].
  - cbn beta. field. lra.
Qed.
Lemma d2_x : forall x y, off_rays x y -> is_derive (fun t => d2 t y) x ((x - 1) / d2 x y).
Proof.
  intros x y H. pose proof (d2_pos x y H) as P. unfold d2 in *. eapply is_derive_eq.
  - apply (d_sqrt (fun t => (t - 1) ^ 2 + y ^ 2)). + auto_derive; [exact I|reflexivity]. + first [now apply base1 | now apply base2].
  - cbn beta. field. lra.
Qed.
Lemma d2_y : forall x y, off_rays x y -> is_derive (fun t => d2 x t) y (y / d2 x y).
Proof.
  intros x y H. pose proof (d2_pos x y H) as P. unfold d2 in *. eapply is_derive_eq.
  - apply (d_sqrt (fun t => (x - 1) ^ 2 + t ^ 2)). + auto_derive; [exact I|reflexivity]. + first [now apply base1 | now apply base2].
  - cbn beta. field. lra.
Qed.

(** The coordinates at one point, as variables with their relations. *)
Lemma at_point : forall x y, off_rays x y ->
  d1 x y = eu x y + ev x y /\ d2 x y = eu x y - ev x y /\ x = eu x y * ev x y /\ y = es x y * eq_ x y /\
  es x y ^ 2 = eu x y ^ 2 - 1 /\ eq_ x y ^ 2 = 1 - ev x y ^ 2 /\ 0 < eu x y + ev x y /\ 0 < eu x y - ev x y /\ 0 < eq_ x y /\ 1 <= eu x y.
Proof.
  intros x y H. pose proof (d1_pos x y H). pose proof (d2_pos x y H). split; [unfold eu, ev; lra|]. split; [unfold eu, ev; lra|].
  split; [symmetry; apply euv|]. split; [symmetry; now apply es_eq|]. split; [now apply es_sq|]. split; [now apply eq_sq|].
  split; [unfold eu, ev; lra|]. split; [unfold eu, ev; lra|]. split; [now apply eq_pos|apply eu_ge].
Qed.

Section Derivatives.
  Variables x y : R.
  Hypothesis H : off_rays x y.
  Let u := eu x y. Let v := ev x y. Let q := eq_ x y. Let s := es x y. Let D := u ^ 2 - v ^ 2.

  Lemma eu_x : is_derive (fun t => eu t y) x (v * s ^ 2 / D).
  Proof.
    destruct (at_point x y H) as (E1 & E2 & Ex & Ey & Es & Eq & P1 & P2 & P3 & P4). unfold eu at 1.
    eapply is_derive_eq; [apply (d_mult (fun t => d1 t y + d2 t y) (fun _ => / 2)); [apply (d_plus (fun t => d1 t y) (fun t => d2 t y)); [now apply d1_x|now apply d2_x]|apply d_const]|].
    unfold D, s. rewrite Es, E1, E2. fold u v. rewrite Ex at 1 2. fold u v. fold u v in P1, P2. field. repeat split; try lra; nra.
  Qed.
  Lemma ev_x : is_derive (fun t => ev t y) x (u * q ^ 2 / D).
  Proof.
    destruct (at_point x y H) as (E1 & E2 & Ex & Ey & Es & Eq & P1 & P2 & P3 & P4). unfold ev at 1.
    eapply is_derive_eq; [apply (d_mult (fun t => d1 t y - d2 t y) (fun _ => / 2)); [apply (d_minus (fun t => d1 t y) (fun t => d2 t y)); [now apply d1_x|now apply d2_x]|apply d_const]|].
    unfold D, q. rewrite Eq, E1, E2. fold u v. rewrite Ex at 1 2. fold u v. fold u v in P1, P2. field. repeat split; try lra; nra.
  Qed.
  Lemma eu_y : is_derive (fun t => eu x t) y (u * s * q / D).
  Proof.
    destruct (at_point x y H) as (E1 & E2 & Ex & Ey & Es & Eq & P1 & P2 & P3 & P4). unfold eu at 1.
    eapply is_derive_eq; [apply (d_mult (fun t => d1 x t + d2 x t) (fun _ => / 2)); [apply (d_plus (fun t => d1 x t) (fun t => d2 x t)); [now apply d1_y|now apply d2_y]|apply d_const]|].
    unfold D. rewrite E1, E2. fold u v. rewrite Ey at 1 2. fold s q. fold u v in P1, P2. field. repeat split; try lra; nra.
  Qed.
  Lemma ev_y : is_derive (fun t => ev x t) y (- (v * s * q / D)).
  Proof.
    destruct (at_point x y H) as (E1 & E2 & Ex & Ey & Es & Eq & P1 & P2 & P3 & P4). unfold ev at 1.
    eapply is_derive_eq; [apply (d_mult (fun t => d1 x t - d2 x t) (fun _ => / 2)); [apply (d_minus (fun t => d1 x t) (fun t => d2 x t)); [now apply d1_y|now apply d2_y]|apply d_const]|].
    unfold D. rewrite E1, E2. fold u v. rewrite Ey at 1 2. fold s q. fold u v in P1, P2. field. repeat split; try lra; nra.
  Qed.
  Lemma Dpos : 0 < D. Proof. apply ed_pos; exact H. Qed.
  Lemma qpos : 0 < q. Proof. apply eq_pos; exact H. Qed.
  Lemma inner_pos : 0 < 1 - ev x y ^ 2.
  Proof. rewrite <- (eq_sq x y H). apply pow_lt. apply eq_pos; exact H. Qed.
  Lemma eq_x : is_derive (fun t => eq_ t y) x (- (u * v * q / D)).
  Proof.
    eapply is_derive_eq.
    - apply (d_sqrt (fun t => 1 - ev t y ^ 2)); [|exact inner_pos].
      apply (d_minus (fun _ => 1) (fun t => ev t y ^ 2)); [apply d_const|]. apply (d_comp (fun z => z ^ 2) (fun t => ev t y)); [exact ev_x|].
      auto_derive; [exact I|reflexivity].
    - cbn beta. fold (eq_ x y). fold v q. pose proof Dpos. pose proof qpos. field. split; lra.
  Qed.
  Lemma eq_y : is_derive (fun t => eq_ x t) y (v ^ 2 * s / D).
  Proof.
    eapply is_derive_eq.
    - apply (d_sqrt (fun t => 1 - ev x t ^ 2)); [|exact inner_pos].
      apply (d_minus (fun _ => 1) (fun t => ev x t ^ 2)); [apply d_const|]. apply (d_comp (fun z => z ^ 2) (fun t => ev x t)); [exact ev_y|].
      auto_derive; [exact I|reflexivity].
    - cbn beta. fold (eq_ x y). fold v q. pose proof Dpos. pose proof qpos. field. split; lra.
  Qed.
  Lemma es_x : is_derive (fun t => es t y) x (s * u * v / D).
  Proof.
    pose proof Dpos. pose proof qpos. eapply is_derive_eq.
    - apply (d_div (fun _ => y) (fun t => eq_ t y)); [apply d_const|exact eq_x|]. fold q. lra.
    - cbn beta. fold q. assert (Y : y = s * q) by (symmetry; apply es_eq; exact H).
      replace (0 * q - y * - (u * v * q / D)) with (s * u * v * q ^ 2 / D) by (rewrite Y at 1; field; lra). field. split; lra.
  Qed.
  Lemma es_y : is_derive (fun t => es x t) y (u ^ 2 * q / D).
  Proof.
    pose proof Dpos. pose proof qpos. eapply is_derive_eq.
    - apply (d_div (fun t => t) (fun t => eq_ x t)); [apply d_id|exact eq_y|]. fold q. lra.
    - cbn beta. fold q. assert (Y : y = s * q) by (symmetry; apply es_eq; exact H).
      assert (Es : s ^ 2 = u ^ 2 - 1) by (apply es_sq; exact H). assert (Eq : q ^ 2 = 1 - v ^ 2) by (apply eq_sq; exact H).
      replace (1 * q - y * (v ^ 2 * s / D)) with (q * (D - s ^ 2 * v ^ 2) / D) by (rewrite Y; field; lra).
      rewrite Es. replace (D - (u ^ 2 - 1) * v ^ 2) with (u ^ 2 * (1 - v ^ 2)) by (unfold D; ring). rewrite <- Eq. field. split; lra.
  Qed.
  Lemma root_u : sqrt (es x y ^ 2 + 1) = u.
  Proof. rewrite (es_sq x y H). fold u. replace (u ^ 2 - 1 + 1) with (u ^ 2) by ring. rewrite <- Rsqr_pow2. apply sqrt_Rsqr. unfold u. pose proof (eu_ge x y). lra. Qed.
  Lemma upos : 0 < u. Proof. unfold u. pose proof (eu_ge x y). lra. Qed.
  Lemma exi_x : is_derive (fun t => exi t y) x (s * v / D).
  Proof.
    pose proof Dpos. pose proof upos. eapply is_derive_eq.
    - apply (d_comp arcsinh (fun t => es t y)); [exact es_x|]. apply is_derive_Reals. apply derivable_pt_lim_arcsinh.
    - cbn beta. rewrite root_u. field. split; lra.
  Qed.
  Lemma exi_y : is_derive (fun t => exi x t) y (u * q / D).
  Proof.
    pose proof Dpos. pose proof upos. eapply is_derive_eq.
    - apply (d_comp arcsinh (fun t => es x t)); [exact es_y|]. apply is_derive_Reals. apply derivable_pt_lim_arcsinh.
    - cbn beta. rewrite root_u. field. split; lra.
  Qed.
  Lemma acos_v : is_derive acos (ev x y) (- / q).
  Proof.
    assert (R : -1 < ev x y < 1) by (apply ev_range; exact H). apply is_derive_Reals.
    pose proof (derive_pt_acos (ev x y) R) as E. pose proof (derivable_pt_acos (ev x y) R) as P0. unfold q, eq_.
    replace (- / sqrt (1 - ev x y ^ 2)) with (derive_pt acos (ev x y) (derivable_pt_acos (ev x y) R)).
    - unfold derive_pt. apply (proj2_sig (derivable_pt_acos (ev x y) R)).
    - rewrite E, Rsqr_pow2. unfold Rdiv. ring.
  Qed.
  Lemma eeta_x : is_derive (fun t => eeta t y) x (- (u * q / D)).
  Proof.
    pose proof Dpos. pose proof qpos. eapply is_derive_eq.
    - apply (d_comp acos (fun t => ev t y)); [exact ev_x|exact acos_v].
    - field. split; lra.
  Qed.
  Lemma eeta_y : is_derive (fun t => eeta x t) y (s * v / D).
  Proof.
    pose proof Dpos. pose proof qpos. eapply is_derive_eq.
    - apply (d_comp acos (fun t => ev x t)); [exact ev_y|exact acos_v].
    - field. split; lra.
  Qed.
End Derivatives.

(** w = xi + i (eta - pi/2), S = sinh (xi + i eta) *)
Definition W1 (x y : R) : R := exi x y + 0.
Definition W2 (x y : R) : R := eeta x y + - (PI / 2).
Definition S1 (x y : R) : R := es x y * ev x y.
Definition S2 (x y : R) : R := eu x y * eq_ x y.
Lemma S_norm : forall x y, off_rays x y -> S1 x y * S1 x y + S2 x y * S2 x y = eu x y ^ 2 - ev x y ^ 2.
Proof.
  intros x y H. unfold S1, S2. replace (es x y * ev x y * (es x y * ev x y) + eu x y * eq_ x y * (eu x y * eq_ x y)) with (es x y ^ 2 * ev x y ^ 2 + eu x y ^ 2 * eq_ x y ^ 2) by ring.
  rewrite (es_sq x y H), (eq_sq x y H). ring.
Qed.
Lemma S_nonzero : forall x y, off_rays x y -> S1 x y * S1 x y + S2 x y * S2 x y <> 0.
Proof. intros x y H. rewrite (S_norm x y H). pose proof (ed_pos x y H). lra. Qed.

Lemma CR_W : forall x y, off_rays x y -> CR W1 W2 x y (inv_re S1 S2 x y) (inv_im S1 S2 x y).
Proof.
  intros x y H. unfold inv_re, inv_im. rewrite (S_norm x y H). pose proof (ed_pos x y H). unfold W1, W2, S1, S2. four.
  - eapply is_derive_eq; [apply (d_plus (fun t => exi t y) (fun _ => 0)); [now apply exi_x|apply d_const]|]. ring.
  - eapply is_derive_eq; [apply (d_plus (fun t => eeta t y) (fun _ => - (PI / 2))); [now apply eeta_x|apply d_const]|]. field. lra.
  - eapply is_derive_eq; [apply (d_plus (fun t => exi x t) (fun _ => 0)); [now apply exi_y|apply d_const]|]. field. lra.
  - eapply is_derive_eq; [apply (d_plus (fun t => eeta x t) (fun _ => - (PI / 2))); [now apply eeta_y|apply d_const]|]. ring.
Qed.

(** S' = z / S *)
Definition T1 (x y : R) : R := x * inv_re S1 S2 x y - y * inv_im S1 S2 x y.
Definition T2 (x y : R) : R := x * inv_im S1 S2 x y + y * inv_re S1 S2 x y.
Lemma T_val : forall x y, off_rays x y ->
  T1 x y = eu x y * es x y / (eu x y ^ 2 - ev x y ^ 2) /\ T2 x y = - (ev x y * eq_ x y) / (eu x y ^ 2 - ev x y ^ 2).
Proof.
  intros x y H. pose proof (ed_pos x y H). destruct (at_point x y H) as (E1 & E2 & Ex & Ey & Es & Eq & P1 & P2 & P3 & P4).
  unfold T1, T2, inv_re, inv_im. rewrite (S_norm x y H). unfold S1, S2. set (u := eu x y) in *. set (v := ev x y) in *. set (s := es x y) in *. set (q := eq_ x y) in *.
  split.
  - rewrite Ex, Ey. replace (u * v * (s * v / (u ^ 2 - v ^ 2)) - s * q * ((0 - u * q) / (u ^ 2 - v ^ 2))) with (u * s * (v ^ 2 + q ^ 2) / (u ^ 2 - v ^ 2)) by (field; lra).
    rewrite Eq. field. lra.
  - rewrite Ex, Ey. replace (u * v * ((0 - u * q) / (u ^ 2 - v ^ 2)) + s * q * (s * v / (u ^ 2 - v ^ 2))) with (v * q * (s ^ 2 - u ^ 2) / (u ^ 2 - v ^ 2)) by (field; lra).
    rewrite Es. field. lra.
Qed.
Lemma CR_S : forall x y, off_rays x y -> CR S1 S2 x y (T1 x y) (T2 x y).
Proof.
  intros x y H. destruct (T_val x y H) as [-> ->]. pose proof (ed_pos x y H). destruct (at_point x y H) as (E1 & E2 & Ex & Ey & Es & Eq & P1 & P2 & P3 & P4).
  unfold S1, S2. four.
  - eapply is_derive_eq; [apply (d_mult (fun t => es t y) (fun t => ev t y)); [now apply es_x|now apply ev_x]|]. cbn beta. rewrite Eq. field. lra.
  - eapply is_derive_eq; [apply (d_mult (fun t => eu t y) (fun t => eq_ t y)); [now apply eu_x|now apply eq_x]|]. cbn beta. rewrite Es. field. lra.
  - eapply is_derive_eq; [apply (d_mult (fun t => es x t) (fun t => ev x t)); [now apply es_y|now apply ev_y]|]. cbn beta.
    replace (eu x y ^ 2 * eq_ x y / (eu x y ^ 2 - ev x y ^ 2) * ev x y + es x y * - (ev x y * es x y * eq_ x y / (eu x y ^ 2 - ev x y ^ 2)))
      with (ev x y * eq_ x y * (eu x y ^ 2 - es x y ^ 2) / (eu x y ^ 2 - ev x y ^ 2)) by (field; lra). rewrite Es. field. lra.
  - eapply is_derive_eq; [apply (d_mult (fun t => eu x t) (fun t => eq_ x t)); [now apply eu_y|now apply eq_y]|]. cbn beta.
    replace (eu x y * es x y * eq_ x y / (eu x y ^ 2 - ev x y ^ 2) * eq_ x y + eu x y * (ev x y ^ 2 * es x y / (eu x y ^ 2 - ev x y ^ 2)))
      with (eu x y * es x y * (eq_ x y ^ 2 + ev x y ^ 2) / (eu x y ^ 2 - ev x y ^ 2)) by (field; lra). rewrite Eq. field. lra.
Qed.

(** ---------- pairs that can be differentiated n times off the rays ---------- *)
Fixpoint smooth (n : nat) (A B : R -> R -> R) : Prop :=
  match n with
  | O => True
  | S n => exists P Q, (forall x y, off_rays x y -> CR A B x y (P x y) (Q x y)) /\ smooth n P Q
  end.
Definition mul_re (A B C D : R -> R -> R) (x y : R) : R := A x y * C x y - B x y * D x y.
Definition mul_im (A B C D : R -> R -> R) (x y : R) : R := A x y * D x y + B x y * C x y.
Definition add (A C : R -> R -> R) (x y : R) : R := A x y + C x y.

Lemma smooth_less : forall n A B, smooth (S n) A B -> smooth n A B.
Proof.
  induction n as [|n IH]; intros A B H; [exact I|]. destruct H as (P & Q & H & K). exists P, Q. split; [exact H|]. apply IH. exact K.
Qed.
Lemma smooth_zero : forall n, smooth n (fun _ _ => 0) (fun _ _ => 0).
Proof.
  induction n as [|n IH]; [exact I|]. exists (fun _ _ => 0), (fun _ _ => 0). split; [|exact IH]. intros x y _. four; try apply d_const.
  apply (is_derive_eq _ _ 0); [apply d_const|symmetry; apply Ropp_0].
Qed.
Lemma smooth_const : forall n a b, smooth n (fun _ _ => a) (fun _ _ => b).
Proof.
  intros [|n] a b; [exact I|]. exists (fun _ _ => 0), (fun _ _ => 0). split; [|apply smooth_zero]. intros x y _. four; try apply d_const.
  apply (is_derive_eq _ _ 0); [apply d_const|symmetry; apply Ropp_0].
Qed.
Lemma smooth_z : forall n, smooth n (fun x _ => x) (fun _ y => y).
Proof. intros [|n]; [exact I|]. exists (fun _ _ => 1), (fun _ _ => 0). split; [|apply smooth_const]. intros x y _. apply CR_z. Qed.
Lemma smooth_add : forall n A B C D, smooth n A B -> smooth n C D -> smooth n (add A C) (add B D).
Proof.
  induction n as [|n IH]; intros A B C D H K; [exact I|]. destruct H as (P & Q & H & H'). destruct K as (P' & Q' & K & K').
  exists (add P P'), (add Q Q'). split; [|now apply IH]. intros x y O. apply CR_plus; auto.
Qed.
Lemma smooth_mul : forall n A B C D, smooth n A B -> smooth n C D -> smooth n (mul_re A B C D) (mul_im A B C D).
Proof.
  induction n as [|n IH]; intros A B C D H K; [exact I|]. pose proof (smooth_less _ _ _ H) as H0. pose proof (smooth_less _ _ _ K) as K0.
  destruct H as (P & Q & H & H'). destruct K as (P' & Q' & K & K').
  exists (add (mul_re P Q C D) (mul_re A B P' Q')), (add (mul_im P Q C D) (mul_im A B P' Q')). split.
  - intros x y O. eapply CR_eq; [apply CR_mult; [apply H; exact O|apply K; exact O]| |]; unfold add, mul_re, mul_im; ring.
  - apply smooth_add; apply IH; assumption.
Qed.
Lemma smooth_inv : forall n A B, (forall x y, off_rays x y -> A x y * A x y + B x y * B x y <> 0) -> smooth n A B -> smooth n (inv_re A B) (inv_im A B).
Proof.
  induction n as [|n IH]; intros A B N H; [exact I|]. pose proof (smooth_less _ _ _ H) as H0. destruct H as (P & Q & H & H').
  set (I1 := inv_re A B). set (I2 := inv_im A B). specialize (IH A B N H0). fold I1 I2 in IH.
  pose proof (smooth_mul n _ _ _ _ IH IH) as SQ. pose proof (smooth_mul n _ _ _ _ H' SQ) as PR.
  pose proof (smooth_mul n _ _ _ _ (smooth_const n (-1) 0) PR) as NG.
  eexists. eexists. split; [|exact NG]. intros x y O.
  eapply CR_eq; [apply CR_inv; [apply H; exact O|apply N; exact O]| |]; unfold mul_re, mul_im; fold I1 I2; ring.
Qed.

(** T = z / S is the derivative of S, hence S, 1/S and w can be differentiated any number of times. *)
Lemma smooth_S : forall n, smooth n S1 S2.
Proof.
  induction n as [|n IH]; [exact I|]. exists T1, T2. split; [intros x y O; now apply CR_S|].
  apply (smooth_mul n _ _ _ _ (smooth_z n) (smooth_inv n S1 S2 S_nonzero IH)).
Qed.
Lemma smooth_W : forall n, smooth n W1 W2.
Proof.
  intros [|n]; [exact I|]. exists (inv_re S1 S2), (inv_im S1 S2). split; [intros x y O; now apply CR_W|].
  apply smooth_inv; [exact S_nonzero|apply smooth_S].
Qed.
Lemma smooth_T : forall n, smooth n T1 T2.
Proof. intros n. apply (smooth_mul n _ _ _ _ (smooth_z n) (smooth_inv n S1 S2 S_nonzero (smooth_S n))). Qed.
(** F = w z / S *)
Definition F1 : R -> R -> R := mul_re W1 W2 T1 T2.
Definition F2 : R -> R -> R := mul_im W1 W2 T1 T2.
Lemma smooth_F : forall n, smooth n F1 F2.
Proof. intros n. apply smooth_mul; [apply smooth_W|apply smooth_T]. Qed.

(** ---------- Laplace ---------- *)
Lemma rays_x : forall x y, off_rays x y -> locally x (fun t => off_rays t y).
Proof.
  intros x y [H|H]; [apply filter_forall; intros t; now left|].
  apply filter_imp with (fun t => -1 < t < 1); [intros t Ht; now right|].
  apply (open_and (fun t => -1 < t) (fun t => t < 1)); [apply open_gt|apply open_lt|exact H].
Qed.
Lemma rays_y : forall x y, off_rays x y -> locally y (fun t => off_rays x t).
Proof.
  intros x y [H|H]; [|apply filter_forall; intros t; now right].
  apply filter_imp with (fun t => t <> 0); [intros t Ht; now left|]. apply open_neq. exact H.
Qed.

Lemma harmonic : exists P Q R1 : R -> R -> R, forall x y, off_rays x y ->
  is_derive (fun t => F1 t y) x (P x y) /\ is_derive (fun t => F1 x t) y (- Q x y) /\
  is_derive (fun t => P t y) x (R1 x y) /\ is_derive (fun t => Q x t) y (R1 x y).
Proof.
  destruct (smooth_F 2) as (P & Q & H & P' & Q' & K & _). exists P, Q, P'. intros x y O.
  destruct (H x y O) as (H1 & _ & H3 & _). destruct (K x y O) as (K1 & _ & _ & K4). auto.
Qed.

(** ---------- the code's potential is the real part of F ---------- *)
Lemma arcsinh_opp : forall a, arcsinh (- a) = - arcsinh a.
Proof.
  intros a. rewrite <- (sinh_arcsinh a) at 1. replace (- sinh (arcsinh a)) with (sinh (- arcsinh a)); [apply arcsinh_sinh|].
  unfold sinh. rewrite Ropp_involutive. field.
Qed.
Lemma arcsinh_abs : forall a, Rabs a * ln (sqrt (a ^ 2 + 1) + Rabs a) = a * arcsinh a.
Proof.
  intros a. assert (E : forall z, ln (sqrt (z ^ 2 + 1) + z) = arcsinh z) by (intros z; unfold arcsinh; f_equal; ring).
  destruct (Rle_dec 0 a) as [P|P].
  - rewrite Rabs_right by lra. now rewrite E.
  - rewrite Rabs_left by lra. replace (a ^ 2) with ((- a) ^ 2) by ring. rewrite E, arcsinh_opp. ring.
Qed.

Lemma elliptic_F : forall x y, off_rays x y -> elliptic_of x y = Some (F1 x y).
Proof.
  intros x y H. pose proof (ed_pos x y H) as D. pose proof (ev_range x y H) as V. pose proof (eu_ge x y) as U.
  unfold elliptic_of. rewrite elliptic_u_eq, elliptic_v_eq. cbn [fbind]. fold (eu x y) (ev x y).
  rewrite f2u_ok, g2v_ok by lra. cbn [fmap2]. unfold ndiv. destruct (Req_EM_T (eu x y ^ 2 - ev x y ^ 2) 0); [lra|]. f_equal.
  unfold F1, mul_re. destruct (T_val x y H) as [-> ->]. unfold W1, W2, exi, eeta.
  assert (A : sqrt (eu x y ^ 2 - 1) = Rabs (es x y)) by (rewrite <- (es_sq x y H), <- Rsqr_pow2; apply sqrt_Rsqr_abs).
  assert (B : eu x y = sqrt (es x y ^ 2 + 1)) by (symmetry; now apply root_u).
  rewrite A. fold (eq_ x y). pose proof (arcsinh_abs (es x y)) as Q. rewrite <- B in Q.
  replace (eu x y * Rabs (es x y) * ln (eu x y + Rabs (es x y))) with (eu x y * (es x y * arcsinh (es x y))) by (rewrite <- Q; ring).
  field. lra.
Qed.

(** ---------- the cuts ---------- *)
Definition cut_s (x y : R) : R := sqrt (eu x y ^ 2 - 1).
Definition cut_A (x y : R) : R := eu x y * cut_s x y * ln (eu x y + cut_s x y) / (eu x y ^ 2 - ev x y ^ 2).
Definition cut_B (x y : R) : R := ev x y * eq_ x y * (- PI / 2 + acos (ev x y)) / (eu x y ^ 2 - ev x y ^ 2).
Lemma elliptic_cut : forall x y, 1 < x -> elliptic_of x y = Some (cut_A x y + cut_B x y).
Proof.
  intros x y Hx. unfold elliptic_of. rewrite elliptic_u_eq, elliptic_v_eq. cbn [fbind]. fold (eu x y) (ev x y).
  pose proof (eu_ge x y). pose proof (diff_le x y). pose proof (diff_ge x y). rewrite f2u_ok by lra. rewrite g2v_ok by (unfold ev; lra). cbn [fmap2]. unfold ndiv.
  destruct (Req_EM_T (eu x y ^ 2 - ev x y ^ 2) 0) as [E|E].
  - destruct (den_zero x y E) as [_ [F|F]]; lra.
  - unfold cut_A, cut_B, cut_s, eq_. f_equal. field. exact E.
Qed.
Lemma right_d : forall x y, 1 < x -> 0 < d1 x y /\ 0 < d2 x y.
Proof.
  intros x y H. pose proof (pow2_ge_0 y). split; unfold d1, d2; apply sqrt_lt_R0.
  - assert (0 < (x + 1) ^ 2) by (apply pow_lt; lra). lra.
  - assert (0 < (x - 1) ^ 2) by (apply pow_lt; lra). lra.
Qed.
Lemma right_eu : forall x y, 1 < x -> 1 < eu x y.
Proof.
  intros x y H. unfold eu. assert (x + 1 <= d1 x y).
  { unfold d1. rewrite <- (sqrt_Rsqr (x + 1)) at 1 by lra. apply sqrt_le_1_alt. unfold Rsqr. pose proof (pow2_ge_0 y). lra. }
  assert (x - 1 <= d2 x y).
  { unfold d2. rewrite <- (sqrt_Rsqr (x - 1)) at 1 by lra. apply sqrt_le_1_alt. unfold Rsqr. pose proof (pow2_ge_0 y). lra. }
  lra.
Qed.
Lemma right_ev0 : forall x, 1 < x -> ev x 0 = 1 /\ eu x 0 = x.
Proof.
  intros x H. unfold ev, eu, d1, d2. replace ((x + 1) ^ 2 + 0 ^ 2) with (Rsqr (x + 1)) by (unfold Rsqr; ring).
  replace ((x - 1) ^ 2 + 0 ^ 2) with (Rsqr (x - 1)) by (unfold Rsqr; ring). rewrite !sqrt_Rsqr by lra. split; field.
Qed.
Lemma right_derive : forall x y, 1 < x -> ex_derive (fun t => eu x t) y /\ ex_derive (fun t => ev x t) y.
Proof.
  intros x y H. pose proof (pow2_ge_0 y).
  assert (0 < (x + 1) ^ 2 + y ^ 2) by (assert (0 < (x + 1) ^ 2) by (apply pow_lt; lra); lra).
  assert (0 < (x - 1) ^ 2 + y ^ 2) by (assert (0 < (x - 1) ^ 2) by (apply pow_lt; lra); lra).
  split; unfold eu, ev, d1, d2; auto_derive; repeat split; assumption.
Qed.
Lemma right_D : forall x y, 1 < x -> 0 < eu x y ^ 2 - ev x y ^ 2.
Proof. intros x y H. destruct (right_d x y H). unfold eu, ev. nra. Qed.
Lemma right_s : forall x y, 1 < x -> 0 < cut_s x y.
Proof. intros x y H. unfold cut_s. apply sqrt_lt_R0. pose proof (right_eu x y H). nra. Qed.
Lemma cut_A_derive : forall x y, 1 < x -> ex_derive (fun t => cut_A x t) y.
Proof.
  intros x y H. destruct (right_derive x y H) as [[du U] [dv V]]. pose proof (right_eu x y H) as E. pose proof (right_D x y H) as D. pose proof (right_s x y H) as P. unfold cut_A, cut_s in *.
  assert (S : is_derive (fun t => sqrt (eu x t ^ 2 - 1)) y ((2 * eu x y * du) / (2 * sqrt (eu x y ^ 2 - 1)))).
  { apply (d_sqrt (fun t => eu x t ^ 2 - 1)); [|nra]. eapply is_derive_eq; [apply (d_minus (fun t => eu x t ^ 2) (fun _ => 1)); [apply (d_comp (fun z => z ^ 2) (fun t => eu x t)); [exact U|auto_derive; [exact I|reflexivity]]|apply d_const]|ring]. }
  eexists. apply (d_div (fun t => eu x t * sqrt (eu x t ^ 2 - 1) * ln (eu x t + sqrt (eu x t ^ 2 - 1))) (fun t => eu x t ^ 2 - ev x t ^ 2)).
  - apply (d_mult (fun t => eu x t * sqrt (eu x t ^ 2 - 1)) (fun t => ln (eu x t + sqrt (eu x t ^ 2 - 1)))).
    + apply (d_mult (fun t => eu x t) (fun t => sqrt (eu x t ^ 2 - 1))); [exact U|exact S].
    + apply (d_comp ln (fun t => eu x t + sqrt (eu x t ^ 2 - 1))); [apply (d_plus (fun t => eu x t) (fun t => sqrt (eu x t ^ 2 - 1))); [exact U|exact S]|].
      apply is_derive_Reals. apply derivable_pt_lim_ln. lra.
  - apply (d_minus (fun t => eu x t ^ 2) (fun t => ev x t ^ 2)); [apply (d_comp (fun z => z ^ 2) (fun t => eu x t)); [exact U|]|apply (d_comp (fun z => z ^ 2) (fun t => ev x t)); [exact V|]]; (auto_derive; [exact I|reflexivity]).
  - lra.
Qed.
Lemma cut_B_even : forall x y, cut_B x (- y) = cut_B x y.
Proof. intros x y. unfold cut_B, eq_, eu, ev. now rewrite !d1_negy, !d2_negy. Qed.
Lemma cut_B_zero : forall x, 1 < x -> cut_B x 0 = 0.
Proof. intros x H. unfold cut_B, eq_. destruct (right_ev0 x H) as [-> _]. replace (1 - 1 ^ 2) with 0 by ring. rewrite sqrt_0. unfold Rdiv. ring. Qed.
Lemma asin_ge : forall v, 0 <= v <= 1 -> v <= asin v.
Proof.
  intros v [H1 H2]. destruct (asin_bound v) as [L U]. rewrite <- (sin_asin v) at 1 by lra.
  assert (P : 0 <= asin v).
  { destruct (Rle_dec 0 (asin v)) as [G|G]; [exact G|]. exfalso. apply Rnot_le_lt in G. pose proof PI_RGT_0. pose proof (sin_lt_0_var (asin v) ltac:(lra) G) as Q. rewrite sin_asin in Q by lra. lra. }
  destruct (Req_dec (asin v) 0) as [->|N]; [rewrite sin_0; lra|]. left. apply sin_lt_x. lra.
Qed.
Lemma cut_B_low : forall x y, 1 < x -> 0 < y -> 0 < ev x y -> y * (ev x y ^ 2 / (cut_s x y * (eu x y ^ 2 - ev x y ^ 2))) <= - cut_B x y.
Proof.
  intros x y Hx Hy Hv. pose proof (right_D x y Hx) as D. pose proof (right_s x y Hx) as P. pose proof (diff_le x y). assert (V : ev x y <= 1) by (unfold ev; lra).
  assert (O : off_rays x y) by (left; lra). assert (Q : y = cut_s x y * eq_ x y).
  { unfold cut_s. rewrite <- (es_sq x y O), <- Rsqr_pow2, sqrt_Rsqr_abs, Rabs_right; [symmetry; now apply es_eq|]. unfold es. pose proof (eq_pos x y O).
    apply Rle_ge. apply Rmult_le_pos; [lra|]. left. now apply Rinv_0_lt_compat. }
  assert (ALG : forall y0 e s D q, y0 = s * q -> s <> 0 -> D <> 0 -> y0 * (e ^ 2 / (s * D)) = q * e * e * / D) by (intros; subst; field; split; assumption).
  pose proof (eq_pos x y O) as Z. unfold cut_B. rewrite acos_asin by lra.
  replace (- PI / 2 + (PI / 2 - asin (ev x y))) with (- asin (ev x y)) by field.
  replace (y * (ev x y ^ 2 / (cut_s x y * (eu x y ^ 2 - ev x y ^ 2)))) with (eq_ x y * ev x y * ev x y * / (eu x y ^ 2 - ev x y ^ 2)) by (symmetry; apply ALG; [exact Q|lra|lra]).
  replace (- (ev x y * eq_ x y * - asin (ev x y) / (eu x y ^ 2 - ev x y ^ 2))) with (eq_ x y * ev x y * asin (ev x y) * / (eu x y ^ 2 - ev x y ^ 2)) by (field; lra).
  apply Rmult_le_compat_r; [left; now apply Rinv_0_lt_compat|]. apply Rmult_le_compat_l; [apply Rmult_le_pos; lra|]. apply asin_ge. lra.
Qed.
Lemma cut_no_derivative : forall x, 1 < x -> ~ ex_derive (fun t => cut_A x t + cut_B x t) 0.
Proof.
  intros x Hx E. assert (B : ex_derive (fun t => cut_B x t) 0).
  { destruct E as [l E]. destruct (cut_A_derive x 0 Hx) as [a A]. exists (l - a). eapply is_derive_ext; [|apply (d_minus _ _ 0 l a E A)]. intros t. cbn beta. assert (RI : forall p q : R, p + q - p = q) by (intros; ring). apply RI. }
  destruct B as [l B]. apply is_derive_Reals in B. destruct (right_ev0 x Hx) as [V0 U0].
  set (K := fun y => ev x y ^ 2 / (cut_s x y * (eu x y ^ 2 - ev x y ^ 2))).
  destruct (right_derive x 0 Hx) as [U V]. pose proof (ex_derive_continuous _ _ U) as CU. pose proof (ex_derive_continuous _ _ V) as CV.
  assert (P0 : 0 < K 0).
  { unfold K. rewrite V0. pose proof (right_s x 0 Hx). pose proof (right_D x 0 Hx) as D. rewrite V0 in D. apply Rmult_lt_0_compat; [lra|]. apply Rinv_0_lt_compat. now apply Rmult_lt_0_compat. }
  assert (CK : continuous K 0).
  { unfold K. apply (continuous_mult (fun t => ev x t ^ 2) (fun t => / (cut_s x t * (eu x t ^ 2 - ev x t ^ 2)))).
    - apply (continuous_comp (fun t => ev x t) (fun z => z ^ 2)); [exact CV|]. apply (ex_derive_continuous (fun z => z ^ 2)). auto_derive; exact I.
    - apply (continuous_comp (fun t => cut_s x t * (eu x t ^ 2 - ev x t ^ 2)) Rinv).
      + apply (continuous_mult (fun t => cut_s x t) (fun t => eu x t ^ 2 - ev x t ^ 2)).
        * unfold cut_s. apply (continuous_comp (fun t => eu x t ^ 2 - 1) sqrt).
          -- apply (continuous_comp (fun t => eu x t) (fun z => z ^ 2 - 1)); [exact CU|]. apply (ex_derive_continuous (fun z => z ^ 2 - 1)). auto_derive; exact I.
          -- apply continuous_sqrt.
        * apply (continuous_minus (fun t => eu x t ^ 2) (fun t => ev x t ^ 2)).
          -- apply (continuous_comp (fun t => eu x t) (fun z => z ^ 2)); [exact CU|]. apply (ex_derive_continuous (fun z => z ^ 2)). auto_derive; exact I.
          -- apply (continuous_comp (fun t => ev x t) (fun z => z ^ 2)); [exact CV|]. apply (ex_derive_continuous (fun z => z ^ 2)). auto_derive; exact I.
      + apply continuous_Rinv. pose proof (right_s x 0 Hx). pose proof (right_D x 0 Hx). apply Rgt_not_eq. now apply Rmult_lt_0_compat. }
  assert (L1 : locally 0 (fun y => K 0 / 2 < K y)) by (apply CK; apply open_gt; lra).
  assert (L2 : locally 0 (fun y => 0 < ev x y)) by (apply CV; apply open_gt; rewrite V0; lra).
  destruct L1 as [e1 L1]. destruct L2 as [e2 L2]. destruct (B (K 0 / 2) ltac:(lra)) as [d Hd].
  set (h := Rmin (Rmin e1 e2) d / 2). pose proof (cond_pos e1). pose proof (cond_pos e2). pose proof (cond_pos d).
  assert (Hh : 0 < h /\ h < e1 /\ h < e2 /\ h < d).
  { unfold h. pose proof (Rmin_l (Rmin e1 e2) d). pose proof (Rmin_r (Rmin e1 e2) d). pose proof (Rmin_l e1 e2). pose proof (Rmin_r e1 e2).
    assert (0 < Rmin (Rmin e1 e2) d) by (apply Rmin_pos; [apply Rmin_pos; lra|lra]). lra. }
  destruct Hh as (Hh & M1 & M2 & M3).
  assert (BA : forall e : posreal, h < e -> ball 0 e h).
  { intros e He. unfold ball; simpl; unfold AbsRing_ball; simpl; unfold abs, minus, plus, opp; simpl. rewrite Ropp_0, Rplus_0_r, Rabs_right by lra. exact He. }
  specialize (L1 h (BA e1 M1)). specialize (L2 h (BA e2 M2)).
  pose proof (Hd h ltac:(lra) ltac:(rewrite Rabs_right by lra; exact M3)) as D1.
  pose proof (Hd (- h) ltac:(lra) ltac:(rewrite Rabs_left by lra; lra)) as D2.
  rewrite Rplus_0_l, cut_B_zero in D1, D2 by exact Hx. rewrite cut_B_even in D2.
  pose proof (cut_B_low x h Hx Hh L2) as LB. fold (K h) in LB.
  assert (Q : K 0 / 2 < - (cut_B x h / h)).
  { eapply Rlt_le_trans; [exact L1|]. apply Rmult_le_reg_l with h; [exact Hh|]. eapply Rle_trans; [exact LB|]. right. field. lra. }
  replace ((cut_B x h - 0) / h) with (cut_B x h / h) in D1 by (field; lra).
  replace ((cut_B x h - 0) / - h) with (- (cut_B x h / h)) in D2 by (field; lra).
  apply Rabs_def2 in D1. apply Rabs_def2 in D2. lra.
Qed.

(** Theorems about phase advance and tune (properties C30, C31, C76). *)
From Coq Require Import List Reals Lra Lia Psatz Bool Arith ZArith.
From Verif Require Import PyBase Phase_Model Phase_Spec Phase_Proofs.
Import ListNotations.
Open Scope R_scope.

(** ---------------- C30 ---------------- *)
Theorem C30_phase_advance : forall p s th, p <> (0, 0) -> 0 < s ->
  (0 <= th < 2 * PI -> phase_advance p (turned s th p) true = th) /\
  (0 < th <= 2 * PI -> phase_advance p (turned s (- th) p) false = th).
Proof.
  intros p s th Hp Hs. split; intros Ht; [apply advance_clockwise; assumption|].
  assert (E : turned s (- th) p = turned s (2 * PI - th) p).
  { unfold turned. replace (2 * PI - th) with (- th + 2 * INR 1 * PI) by (simpl; ring).
    rewrite cos_period, sin_period. reflexivity. }
  rewrite E. transitivity (2 * PI - phase_advance p (turned s (2 * PI - th) p) true); [reflexivity|].
  rewrite advance_clockwise by (assumption || lra). ring.
Qed.
Print Assumptions C30_phase_advance.

Theorem C30_range : forall p q,
  0 <= phase_advance p q true < 2 * PI /\ 0 < phase_advance p q false <= 2 * PI.
Proof.
  intros p q. pose proof (advance_range p q) as H. split; [exact H|].
  assert (E : phase_advance p q false = 2 * PI - phase_advance p q true) by reflexivity. lra.
Qed.
Print Assumptions C30_range.

Example C30_applies : phase_advance (1, 0) (0, -3) true = PI / 2 /\ phase_advance (1, 0) (0, 3) false = PI / 2.
Proof.
  pose proof PI_RGT_0.
  assert (E1 : turned 3 (PI / 2) (1, 0) = (0, -3)) by (unfold turned; cbn [fst snd]; rewrite cos_PI2, sin_PI2; f_equal; ring).
  assert (E2 : turned 3 (- (PI / 2)) (1, 0) = (0, 3))
    by (unfold turned; cbn [fst snd]; rewrite cos_neg, sin_neg, cos_PI2, sin_PI2; f_equal; ring).
  assert (Hne : (1, 0) <> (0, 0)) by (intro E; injection E; lra).
  split.
  - rewrite <- E1. apply C30_phase_advance; [exact Hne|lra|lra].
  - rewrite <- E2. apply C30_phase_advance; [exact Hne|lra|lra].
Qed.

(** ---------------- C31 ---------------- *)
Theorem C31_tune_range : forall x t_i t_f,
  match tune_fft x t_i t_f with
  | Ok q => 0 <= q <= 1 / 2
  | Err e => e = ValueError /\
      py_slice x t_i (match t_f with None | Some 0%Z => Z.of_nat (List.length x) | Some z => z end) = []
  | Diverges => False
  end.
Proof.
  intros x t_i t_f. unfold tune_fft.
  set (f := match t_f with None => _ | Some _ => _ end).
  set (u := py_slice x t_i f). destruct (Nat.eqb_spec (List.length u) 0) as [E|E].
  - split; [reflexivity|]. destruct u; [reflexivity|discriminate].
  - assert (Hne : spectrum u <> []) by (intro C; apply E; rewrite <- spectrum_len, C; reflexivity).
    destruct (argmax_spec _ Hne) as (H1 & _). rewrite spectrum_len in H1.
    assert (Hn : 0 < INR (List.length u)) by (apply lt_0_INR; lia).
    assert (H0 : 0 <= INR (argmax (spectrum u)) / INR (List.length u)).
    { apply Rmult_le_pos; [apply pos_INR|left; apply Rinv_0_lt_compat; exact Hn]. }
    assert (H2 : INR (argmax (spectrum u)) / INR (List.length u) < 1).
    { apply Rmult_lt_reg_r with (INR (List.length u)); [exact Hn|]. unfold Rdiv. rewrite Rmult_assoc, Rinv_l by lra.
      rewrite Rmult_1_r, Rmult_1_l. apply lt_INR. exact H1. }
    destruct (Rlt_dec _ _); lra.
Qed.
Print Assumptions C31_tune_range.

(** ---------------- C76 ---------------- *)
(** One oscillation with m whole periods in the n turns analysed: its tune m/n is found
    exactly as long as the orbit offset stays below half the amplitude. *)
Lemma tone_shift : forall off amp ph m n, (0 < n)%nat ->
  map (tone off amp ph m n) (seq 1 n) = map (tone off amp (ph + 2 * PI * INR m / INR n) m n) (seq 0 n).
Proof.
  intros. rewrite <- seq_shift, map_map. apply map_ext. intros k. unfold tone. f_equal. f_equal. f_equal.
  rewrite S_INR. assert (0 < INR n) by (apply lt_0_INR; assumption). field. lra.
Qed.

Lemma slice_rest : forall off amp ph m n,
  py_slice (map (tone off amp ph m n) (seq 0 (S n))) 1 (Z.of_nat (List.length (map (tone off amp ph m n) (seq 0 (S n)))))
  = map (tone off amp ph m n) (seq 1 n).
Proof.
  intros. unfold py_slice. rewrite map_length, seq_length.
  assert (E1 : slice_bound (S n) 1 = 1%nat).
  { unfold slice_bound. destruct (Z.ltb_spec 1 0); lia. }
  assert (E2 : slice_bound (S n) (Z.of_nat (S n)) = S n).
  { unfold slice_bound. destruct (Z.ltb_spec (Z.of_nat (S n)) 0); lia. }
  rewrite E1, E2. cbn [seq map skipn]. replace (S n - 1)%nat with (List.length (map (tone off amp ph m n) (seq 1 n))).
  - apply firstn_all.
  - rewrite map_length, seq_length. lia.
Qed.

Theorem C76_tone_tune_partial : forall off amp ph m n, (0 < m)%nat -> (2 * m < n)%nat ->
  let x := map (tone off amp ph m n) (seq 0 (S n)) in
  (Rabs off < Rabs amp / 2 -> tune_fft x 1 None = Ok (INR m / INR n)) /\
  (Rabs amp / 2 <= Rabs off -> tune_fft x 1 None = Ok 0).
Proof.
  intros off amp ph m n Hm H2 x. unfold tune_fft, x. rewrite slice_rest, tone_shift by lia.
  set (l := map _ (seq 0 n)). assert (Hlen : List.length l = n) by (unfold l; rewrite map_length, seq_length; reflexivity).
  rewrite Hlen. destruct (Nat.eqb_spec n 0); [lia|].
  destruct (argmax_tone off amp (ph + 2 * PI * INR m / INR n) m n Hm H2) as [A1 A2].
  assert (Hn : 0 < INR n) by (apply lt_0_INR; lia).
  split; intros Ho.
  - unfold l. rewrite (A1 Ho). f_equal. destruct (Rlt_dec _ _) as [H|]; [exfalso|reflexivity].
    assert (H3 : INR (2 * m) < INR n) by (apply lt_INR; lia). rewrite mult_INR in H3. simpl (INR 2) in H3.
    apply (Rmult_lt_compat_r (INR n) _ _ Hn) in H. unfold Rdiv in H. rewrite (Rmult_assoc (INR m)), Rinv_l in H by lra. lra.
  - unfold l. rewrite (A2 Ho). f_equal. simpl (INR 0). unfold Rdiv. rewrite Rmult_0_l.
    destruct (Rlt_dec (1 * / 2) 0); [lra|reflexivity].
Qed.
Print Assumptions C76_tone_tune_partial.

Example C76_applies : tune_fft (map (tone 0 1 0 2 7) (seq 0 8)) 1 None = Ok (2 / 7).
Proof.
  destruct (C76_tone_tune_partial 0 1 0 2 7 ltac:(lia) ltac:(lia)) as [H _]. rewrite H.
  - f_equal. simpl. field.
  - rewrite Rabs_R0, Rabs_R1. lra.
Qed.

(** An oscillation about a closed orbit at least half its amplitude away from the axis is
    reported with tune 0. *)
Theorem C76_offset_refuted : tune_fft (map (tone 1 1 0 2 7) (seq 0 8)) 1 None = Ok 0.
Proof. apply (C76_tone_tune_partial 1 1 0 2 7); [lia|lia|]. rewrite Rabs_R1. lra. Qed.
Print Assumptions C76_offset_refuted.

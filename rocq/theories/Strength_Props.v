(** C123: strengths of the lenses of the nonlinear insert (rsbeams/rslattice/nonlinear.py). *)
From Coq Require Import List Reals Lra Lia Psatz Bool Arith ZArith String.
From Coquelicot Require Import Coquelicot.
From Verif Require Import PyBase Sample_Model Insert_Model Insert_Spec Insert_Props.
Import ListNotations.
Open Scope R_scope.

Fixpoint total (l : list R) : R := match l with [] => 0 | x :: r => x + total r end.

Section midpoint.
Variables (L w : R).
Hypothesis HL : 0 < L.
Hypothesis Hw : 0 < w.
Let f (s : R) := 1 / drift_beta L w s.

Lemma beta_ge : forall s, w <= drift_beta L w s.
Proof. intros s. unfold drift_beta. assert (0 <= (s - L / 2) ^ 2 / w); [|lra]. apply Rmult_le_pos; [apply pow2_ge_0|apply Rlt_le, Rinv_0_lt_compat; exact Hw]. Qed.
Lemma f_cont : forall s, continuous f s.
Proof.
  intros s. apply (ex_derive_continuous f s). unfold f, drift_beta. auto_derive. pose proof (beta_ge s) as B. unfold drift_beta in B. repeat split; lra.
Qed.
Lemma f_lip : forall a b, 0 <= a <= L -> 0 <= b <= L -> Rabs (f a - f b) <= Rabs (a - b) * (L / w ^ 3).
Proof.
  intros a b Ha Hb. pose proof (beta_ge a) as A. pose proof (beta_ge b) as B.
  assert (E : f a - f b = (b - a) * ((a + b - L) / w) * (/ drift_beta L w a * / drift_beta L w b)).
  { unfold f. replace ((b - a) * ((a + b - L) / w)) with (drift_beta L w b - drift_beta L w a) by (unfold drift_beta; field; lra). field. lra. }
  rewrite E, !Rabs_mult. rewrite (Rabs_minus_sym b a). rewrite Rmult_assoc. apply Rmult_le_compat_l; [apply Rabs_pos|].
  assert (I : forall x, w <= x -> Rabs (/ x) <= / w). { intros x X. rewrite Rabs_right by (apply Rle_ge, Rlt_le, Rinv_0_lt_compat; lra). apply Rinv_le_contravar; lra. }
  replace (L / w ^ 3) with ((L / w) * (/ w * / w)) by (field; lra).
  apply Rmult_le_compat; [apply Rabs_pos|rewrite <- Rabs_mult; apply Rabs_pos| |].
  - unfold Rdiv. rewrite Rabs_mult. apply Rmult_le_compat; [apply Rabs_pos|apply Rabs_pos|apply Rabs_le; lra|apply I; lra].
  - apply Rmult_le_compat; [apply Rabs_pos|apply Rabs_pos|apply I; exact A|apply I; exact B].
Qed.
Lemma slice_error : forall a h, 0 <= a -> 0 < h -> a + h <= L -> Rabs (RInt f a (a + h) - h * f (a + h / 2)) <= h * (h / 2 * (L / w ^ 3)).
Proof.
  intros a h Ha Hh Hb. set (E := h / 2 * (L / w ^ 3)). set (c := f (a + h / 2)).
  assert (Ex : ex_RInt f a (a + h)) by (apply (ex_RInt_continuous (V := R_CompleteNormedModule)); intros; apply f_cont).
  assert (P : forall x, a < x < a + h -> c - E <= f x <= c + E).
  { intros x X. assert (Q : Rabs (f x - c) <= E).
    { eapply Rle_trans; [apply f_lip; lra|]. unfold E. apply Rmult_le_compat_r; [|apply Rabs_le; lra]. apply Rmult_le_pos; [lra|apply Rlt_le, Rinv_0_lt_compat; apply pow_lt; exact Hw]. }
    apply Rabs_le_between in Q. lra. }
  assert (H1 : RInt (fun _ => c - E) a (a + h) <= RInt f a (a + h)) by (apply RInt_le; [lra|apply ex_RInt_const|exact Ex|intros x X; apply P; exact X]).
  assert (H2 : RInt f a (a + h) <= RInt (fun _ => c + E) a (a + h)) by (apply RInt_le; [lra|exact Ex|apply ex_RInt_const|intros x X; apply P; exact X]).
  rewrite RInt_const in H1, H2. set (J := RInt f a (a + h)) in *. clearbody J. unfold scal in H1, H2. cbn in H1, H2. unfold mult in H1, H2. cbn in H1, H2. apply Rabs_le. replace (a + h - a) with h in H1, H2 by ring. split; lra.
Qed.
Lemma midpoints : forall n k, (0 < n)%nat -> (k <= n)%nat ->
  Rabs (RInt f 0 (INR k * (L / INR n)) - total (map (fun i => L / INR n * f (slice_centre L n i)) (seq 0 k))) <= INR k * (L / INR n * (L / INR n / 2 * (L / w ^ 3))).
Proof.
  intros n k Hn. assert (N : 0 < INR n) by (apply lt_0_INR; exact Hn). assert (Hh : 0 < L / INR n) by (apply Rdiv_lt_0_compat; assumption).
  set (h := L / INR n) in *. induction k as [|k IH]; intros Hk.
  - cbn [seq map total INR]. rewrite Rmult_0_l, RInt_point. unfold zero. cbn. rewrite Rminus_0_r, Rabs_R0. lra.
  - assert (T : forall g a, total (g ++ [a]) = total g + a) by (induction g; intros; cbn; [ring|rewrite IHg; ring]).
    rewrite seq_S, map_app. cbn [map plus]. rewrite T. specialize (IH ltac:(lia)).
    assert (Ch : RInt f 0 (INR (S k) * h) = RInt f 0 (INR k * h) + RInt f (INR k * h) (INR k * h + h)).
    { replace (INR (S k) * h) with (INR k * h + h) by (rewrite S_INR; ring). rewrite <- (RInt_Chasles f 0 (INR k * h)); [reflexivity| |];
      apply (ex_RInt_continuous (V := R_CompleteNormedModule)); intros; apply f_cont. }
    rewrite Ch. assert (M : slice_centre L n k = INR k * h + h / 2) by (unfold slice_centre; fold h; field).
    assert (B : INR k * h + h <= L).
    { replace L with (INR n * h) by (unfold h; field; lra). replace (INR k * h + h) with (INR (S k) * h) by (rewrite S_INR; ring). apply Rmult_le_compat_r; [lra|apply le_INR; exact Hk]. }
    pose proof (slice_error (INR k * h) h ltac:(apply Rmult_le_pos; [apply pos_INR|lra]) Hh B) as Q. rewrite <- M in Q.
    rewrite S_INR. change (0 + k)%nat with k. apply Rabs_le_between in Q. apply Rabs_le_between in IH. apply Rabs_le. lra.
Qed.
End midpoint.

Lemma list_by_nth : forall (l : list (option R)) n (g : nat -> R), List.length l = n -> (forall k, (k < n)%nat -> nth k l None = Some (g k)) -> l = map (fun k => Some (g k)) (seq 0 n).
Proof.
  intros l n g H P. apply (nth_ext _ _ None None); [rewrite map_length, seq_length; exact H|]. intros k Hk. assert (Hk' : (k < n)%nat) by (rewrite <- H; exact Hk). clear Hk. rename Hk' into Hk. rewrite (P k Hk).
  rewrite (nth_indep _ None (Some (g 0%nat))) by (rewrite map_length, seq_length; exact Hk). rewrite (map_nth (fun k => Some (g k))). rewrite seq_nth by exact Hk. reflexivity.
Qed.

(** Summed over the slices the strengths approximate t c^2 times the phase advance of the insert,
    2 pi phase, and the error goes to zero like one over the number of slices. *)
Theorem C123_total : forall L phase t c n, 0 < L -> 0 < phase < 1 / 2 -> (0 < n)%nat ->
  exists q ks, generate_sequence (new_insert L phase t c (Z.of_nat n)) = Ok q /\ q_knll q = map Some ks /\
    Rabs (total ks - t * c ^ 2 * (2 * PI * phase)) <= Rabs t * c ^ 2 * (L / waist L phase) ^ 3 / (2 * INR n).
Proof.
  intros L phase t c n HL Hp Hn. destruct (C77_phase_advance_partial L phase HL Hp) as [Hs I].
  destruct (C26_insert L phase t c n HL Hn Hs) as (q & G & Hw & _ & _ & _ & Lk & _ & _ & P). set (w := waist L phase) in *.
  exists q, (map (fun k => t * c ^ 2 * (L / INR n * (1 / drift_beta L w (slice_centre L n k)))) (seq 0 n)). split; [exact G|].
  assert (N : 0 < INR n) by (apply lt_0_INR; exact Hn). split.
  - rewrite map_map. apply list_by_nth; [exact Lk|]. intros k Hk. destruct (P k Hk) as (_ & _ & Hb & _ & _ & K). etransitivity; [exact K|]. f_equal. field. lra.
  - pose proof (midpoints L w HL Hw n n Hn (le_n n)) as M. cbv beta in M. replace (INR n * (L / INR n)) with L in M by (field; lra). rewrite (is_RInt_unique _ _ _ _ I) in M.
    assert (T : forall (g : nat -> R) a l, total (map (fun k => a * g k) l) = a * total (map g l)) by (intros g a l; induction l; cbn; [ring|rewrite IHl; ring]).
    rewrite T. set (S := total _) in *. replace (t * c ^ 2 * S - t * c ^ 2 * (2 * PI * phase)) with (- (t * c ^ 2 * (2 * PI * phase - S))) by ring.
    rewrite Rabs_Ropp, !Rabs_mult. rewrite (Rabs_right (c ^ 2)) by (apply Rle_ge, pow2_ge_0).
    replace (Rabs t * c ^ 2 * (L / w) ^ 3 / (2 * INR n)) with (Rabs t * c ^ 2 * (INR n * (L / INR n * (L / INR n / 2 * (L / w ^ 3))))) by (field; split; lra).
    apply Rmult_le_compat_l; [|exact M]. apply Rmult_le_pos; [apply Rabs_pos|apply pow2_ge_0].
Qed.
Print Assumptions C123_total.

(** ** scales *)
Definition f_times (a : R) : fl -> fl := option_map (Rmult a).

Lemma rlist_by_nth : forall (l : list R) n (g : nat -> R), List.length l = n -> (forall k, (k < n)%nat -> nth k l 0 = g k) -> l = map g (seq 0 n).
Proof.
  intros l n g H P. apply (nth_ext _ _ 0 0); [rewrite map_length, seq_length; exact H|]. intros k Hk. rewrite H in Hk. rewrite (P k Hk).
  rewrite (nth_indep _ 0 (g 0%nat)) by (rewrite map_length, seq_length; exact Hk). rewrite (map_nth g). rewrite seq_nth by exact Hk. reflexivity.
Qed.
Lemma lists : forall L phase t c n, 0 < L -> (0 < n)%nat -> sin (2 * PI * phase) <> 0 -> let w := waist L phase in let b k := drift_beta L w (slice_centre L n k) in
  exists q, generate_sequence (new_insert L phase t c (Z.of_nat n)) = Ok q /\ 0 < w /\ q_s q = map (slice_centre L n) (seq 0 n) /\ q_betas q = map (fun k => Some (b k)) (seq 0 n) /\
    q_cnll q = map (fun k => Some (c * sqrt (b k))) (seq 0 n) /\ q_knll q = map (fun k => Some (t * c ^ 2 * L / (INR n * b k))) (seq 0 n) /\ (forall k, (k < n)%nat -> 0 < b k).
Proof.
  intros L phase t c n HL Hn Hs w b. destruct (C26_insert L phase t c n HL Hn Hs) as (q & G & Hw & _ & L1 & L2 & L3 & L4 & _ & P). exists q. split; [exact G|]. split; [exact Hw|].
  split; [apply rlist_by_nth; [exact L1|apply P]|]. split; [apply list_by_nth; [exact L2|apply P]|]. split; [apply list_by_nth; [exact L4|intros k Hk; apply P; exact Hk]|]. split; [apply list_by_nth; [exact L3|intros k Hk; apply P; exact Hk]|]. intros k Hk. apply P. exact Hk.
Qed.

(** Strength parameter, aperture parameter and length: the strengths are proportional to t and to
    the square of c and do not depend on the length; the apertures are proportional to c and to the
    square root of the length; centres of slices and beta functions are proportional to the length. *)
Theorem C123_scales : forall L phase t c n a, 0 < L -> (0 < n)%nat -> sin (2 * PI * phase) <> 0 ->
  exists q, generate_sequence (new_insert L phase t c (Z.of_nat n)) = Ok q /\
    (exists r, generate_sequence (new_insert L phase (a * t) c (Z.of_nat n)) = Ok r /\
       q_s r = q_s q /\ q_betas r = q_betas q /\ q_cnll r = q_cnll q /\ q_knll r = map (f_times a) (q_knll q)) /\
    (exists r, generate_sequence (new_insert L phase t (a * c) (Z.of_nat n)) = Ok r /\
       q_s r = q_s q /\ q_betas r = q_betas q /\ q_cnll r = map (f_times a) (q_cnll q) /\ q_knll r = map (f_times (a ^ 2)) (q_knll q)) /\
    (0 < a -> exists r, generate_sequence (new_insert (a * L) phase t c (Z.of_nat n)) = Ok r /\
       q_s r = map (Rmult a) (q_s q) /\ q_betas r = map (f_times a) (q_betas q) /\ q_cnll r = map (f_times (sqrt a)) (q_cnll q) /\ q_knll r = q_knll q).
Proof.
  intros L phase t c n a HL Hn Hs. assert (N : 0 < INR n) by (apply lt_0_INR; exact Hn). destruct (lists L phase t c n HL Hn Hs) as (q & G & Hw & Q1 & Q2 & Q3 & Q4 & B). exists q. split; [exact G|].
  rewrite Q1, Q2, Q3, Q4, !map_map. cbn [f_times option_map] in *. split; [|split].
  - destruct (lists L phase (a * t) c n HL Hn Hs) as (r & H & _ & R1 & R2 & R3 & R4 & _). exists r. rewrite R1, R2, R3, R4. repeat (split; [try reflexivity; assumption|]).
    apply map_ext_in. intros k K. apply in_seq in K. cbn [f_times option_map]. f_equal. field. split; [apply Rgt_not_eq, B; lia|lra].
  - destruct (lists L phase t (a * c) n HL Hn Hs) as (r & H & _ & R1 & R2 & R3 & R4 & _). exists r. rewrite R1, R2, R3, R4. split; [exact H|]. split; [reflexivity|]. split; [reflexivity|].
    split; apply map_ext_in; intros k K; apply in_seq in K; unfold f_times; cbn [option_map]; f_equal; [ring|field; split; [apply Rgt_not_eq, B; lia|lra]].
  - intros Ha. assert (HaL : 0 < a * L) by (apply Rmult_lt_0_compat; assumption). destruct (lists (a * L) phase t c n HaL Hn Hs) as (r & H & _ & R1 & R2 & R3 & R4 & _). exists r. rewrite R1, R2, R3, R4. split; [exact H|].
    assert (W : waist (a * L) phase = a * waist L phase) by (unfold waist, Rdiv; ring).
    assert (C : forall k, slice_centre (a * L) n k = a * slice_centre L n k) by (intros k; unfold slice_centre; field; lra).
    assert (D : forall k, drift_beta (a * L) (waist (a * L) phase) (slice_centre (a * L) n k) = a * drift_beta L (waist L phase) (slice_centre L n k)) by (intros k; rewrite W, C; unfold drift_beta; field; lra).
    split; [apply map_ext; exact C|]. split; [apply map_ext; intros k; rewrite D; reflexivity|]. split; apply map_ext_in; intros k K; apply in_seq in K; assert (Bk : 0 < drift_beta L (waist L phase) (slice_centre L n k)) by (apply B; lia); rewrite D; unfold f_times; cbn [option_map]; f_equal.
    + rewrite sqrt_mult by lra. ring.
    + field. repeat split; lra.
Qed.
Print Assumptions C123_scales.

(** The lens of a slice nearer to the centre of the insert is at least as strong and has at most the
    aperture; the same distance on both sides gives the same lens. *)
Theorem C123_shape : forall L phase t c n, 0 < L -> (0 < n)%nat -> sin (2 * PI * phase) <> 0 -> 0 <= t -> 0 <= c ->
  exists q ks cs, generate_sequence (new_insert L phase t c (Z.of_nat n)) = Ok q /\ q_knll q = map Some ks /\ q_cnll q = map Some cs /\ List.length ks = n /\ List.length cs = n /\ rev ks = ks /\ rev cs = cs /\
    forall j k, (j < n)%nat -> (k < n)%nat -> Rabs (nth j (q_s q) 0 - L / 2) <= Rabs (nth k (q_s q) 0 - L / 2) ->
      nth k ks 0 <= nth j ks 0 /\ nth j cs 0 <= nth k cs 0.
Proof.
  intros L phase t c n HL Hn Hs Ht Hc. assert (N : 0 < INR n) by (apply lt_0_INR; exact Hn). destruct (lists L phase t c n HL Hn Hs) as (q & G & Hw & Q1 & Q2 & Q3 & Q4 & B). set (w := waist L phase) in *.
  exists q, (map (fun k => t * c ^ 2 * L / (INR n * drift_beta L w (slice_centre L n k))) (seq 0 n)), (map (fun k => c * sqrt (drift_beta L w (slice_centre L n k))) (seq 0 n)).
  split; [exact G|]. split; [rewrite map_map; exact Q4|]. split; [rewrite map_map; exact Q3|]. rewrite !map_length, seq_length. split; [reflexivity|]. split; [reflexivity|].
  assert (Sy : forall k, (k < n)%nat -> drift_beta L w (slice_centre L n (n - 1 - k)) = drift_beta L w (slice_centre L n k)).
  { intros k K. unfold drift_beta. do 2 f_equal. unfold slice_centre. rewrite !minus_INR by lia. cbn [INR]. field. lra. }
  assert (Rv : forall g : R -> R, rev (map (fun k => g (drift_beta L w (slice_centre L n k))) (seq 0 n)) = map (fun k => g (drift_beta L w (slice_centre L n k))) (seq 0 n)).
  { intros g. apply (nth_ext _ _ (g (drift_beta L w (slice_centre L n 0))) (g (drift_beta L w (slice_centre L n 0)))); [apply rev_length|]. intros k K. rewrite rev_length, map_length, seq_length in K.
    rewrite rev_nth by (rewrite map_length, seq_length; exact K). rewrite map_length, seq_length. rewrite !(map_nth (fun k => g (drift_beta L w (slice_centre L n k)))), !seq_nth by lia. cbn [plus]. cbv beta. replace (n - S k)%nat with (n - 1 - k)%nat by lia. change (0 + (n - 1 - k))%nat with (n - 1 - k)%nat. rewrite Sy by exact K. reflexivity. }
  split; [apply (Rv (fun b => t * c ^ 2 * L / (INR n * b)))|]. split; [apply (Rv (fun b => c * sqrt b))|].
  intros j k Hj Hk. rewrite Q1.
  assert (Nt : forall (g : nat -> R) i, (i < n)%nat -> nth i (map g (seq 0 n)) 0 = g i).
  { intros g i Hi. rewrite (nth_indep _ 0 (g 0%nat)) by (rewrite map_length, seq_length; exact Hi). rewrite (map_nth g), seq_nth by exact Hi. reflexivity. }
  rewrite !Nt by assumption. intros D. pose proof (B j Hj) as Bj. pose proof (B k Hk) as Bk.
  assert (Le : drift_beta L w (slice_centre L n j) <= drift_beta L w (slice_centre L n k)).
  { unfold drift_beta. apply Rplus_le_compat_l, Rmult_le_compat_r; [apply Rlt_le, Rinv_0_lt_compat; exact Hw|]. rewrite <- !(pow2_abs (_ - _)). apply pow_incr. split; [apply Rabs_pos|exact D]. }
  split.
  - unfold Rdiv. apply Rmult_le_compat_l; [apply Rmult_le_pos; [apply Rmult_le_pos; [exact Ht|apply pow2_ge_0]|lra]|]. apply Rinv_le_contravar; [apply Rmult_lt_0_compat; assumption|apply Rmult_le_compat_l; lra].
  - apply Rmult_le_compat_l; [exact Hc|apply sqrt_le_1; lra].
Qed.
Print Assumptions C123_shape.

(** 0 < phase < 1/2 is the range of one insert; for instance length 2, phase 0.3 and 20 slices. *)
Example C123_applies : 0 < 2 /\ 0 < 3 / 10 < 1 / 2 /\ (0 < 20)%nat /\ sin (2 * PI * (3 / 10)) <> 0 /\ exists q, generate_sequence (new_insert 2 (3 / 10) (1 / 10) (1 / 100) 20) = Ok q /\ List.length (q_knll q) = 20%nat.
Proof.
  split; [lra|]. split; [lra|]. split; [lia|]. destruct (C77_phase_advance_partial 2 (3 / 10) ltac:(lra) ltac:(lra)) as [S _]. split; [exact S|].
  destruct (C26_insert 2 (3 / 10) (1 / 10) (1 / 100) 20 ltac:(lra) ltac:(lia) S) as (q & G & _ & _ & _ & _ & K & _). exists q. split; [exact G|exact K].
Qed.

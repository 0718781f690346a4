From Coq Require Import List Reals Lra Lia Psatz Bool Arith ZArith.
From Verif Require Import PyBase Stats_Model Stats_Spec Stats_Proofs Jacobi_Proofs.
Import ListNotations.
Open Scope R_scope.

Definition tot (N : nat) (f : nat -> R) : R := total (map f (seq 0 N)).

Lemma tot_ext : forall N f g, (forall k, (k < N)%nat -> f k = g k) -> tot N f = tot N g.
Proof. intros N f g H. unfold tot. apply total_ext. intros k Hk. apply in_seq in Hk. apply H. lia. Qed.

Lemma tot_lin : forall N a b f g, tot N (fun k => a * f k + b * g k) = a * tot N f + b * tot N g.
Proof. intros. unfold tot. rewrite (total_map_plus (fun k => a * f k) (fun k => b * g k)), !total_map_scal. reflexivity. Qed.

Lemma tot_scal : forall N a f, tot N (fun k => a * f k) = a * tot N f.
Proof. intros. unfold tot. apply total_map_scal. Qed.

Lemma tot_plus : forall N f g, tot N (fun k => f k + g k) = tot N f + tot N g.
Proof. intros. unfold tot. apply total_map_plus. Qed.

Lemma tot_sum6 : forall N (F : nat -> nat -> R),
  tot N (fun k => sum6 (fun j => F j k)) = sum6 (fun j => tot N (F j)).
Proof. intros. unfold sum6. rewrite !tot_plus. reflexivity. Qed.

Lemma list_as_map : forall l : list R, l = map (fun k => nth k l 0) (seq 0 (length l)).
Proof.
  intros l. apply (nth_ext _ _ 0 0).
  - rewrite map_length, seq_length. reflexivity.
  - intros n Hn.
    rewrite (nth_indep (map _ _) 0 ((fun k => nth k l 0) 0%nat)) by (rewrite map_length, seq_length; exact Hn).
    rewrite (map_nth (fun k => nth k l 0)), seq_nth by exact Hn. reflexivity.
Qed.

Definition mu (N : nat) (f : nat -> R) : R := tot N f / INR N.

Lemma mean_fun : forall N f, mean (map f (seq 0 N)) = mu N f.
Proof. intros. unfold mean, mu, tot. rewrite map_length, seq_length. reflexivity. Qed.

Lemma combine_map : forall (f g : nat -> R) l, combine (map f l) (map g l) = map (fun k => (f k, g k)) l.
Proof. induction l as [|x l IH]; [reflexivity|]. simpl. rewrite IH. reflexivity. Qed.

Definition cv (N : nat) (f g : nat -> R) : R := tot N (fun k => (f k - mu N f) * (g k - mu N g)) / INR N.

Lemma covariance_fun : forall N f g,
  covariance (map f (seq 0 N)) (map g (seq 0 N)) = cv N f g.
Proof.
  intros. unfold covariance, cv, tot. rewrite combine_map, map_map, !mean_fun, map_length, seq_length. reflexivity.
Qed.

Lemma variance_covariance : forall l, variance l = covariance l l.
Proof.
  intros l. unfold variance, covariance. f_equal. f_equal.
  set (m := mean l). clearbody m. induction l as [|x l IH]; [reflexivity|].
  cbn [combine map fst snd]. rewrite IH. f_equal. ring.
Qed.

Lemma covariance_sym : forall a b, length a = length b -> covariance a b = covariance b a.
Proof.
  intros a b H. unfold covariance. rewrite H. f_equal. f_equal.
  set (ma := mean a). set (mb := mean b). clearbody ma mb. revert b H.
  induction a as [|x a IH]; intros [|y b] H; try discriminate; [reflexivity|].
  cbn [combine map fst snd]. rewrite IH by (simpl in H; lia). f_equal. ring.
Qed.

Lemma mu_sum6 : forall N (w : nat -> R) (F : nat -> nat -> R),
  mu N (fun k => sum6 (fun j => w j * F j k)) = sum6 (fun j => w j * mu N (F j)).
Proof.
  intros. unfold mu. rewrite (tot_sum6 N (fun j k => w j * F j k)).
  unfold sum6. rewrite !tot_scal. unfold Rdiv. ring.
Qed.

Lemma cv_sum6 : forall N (w z : nat -> R) (F : nat -> nat -> R),
  cv N (fun k => sum6 (fun j => w j * F j k)) (fun k => sum6 (fun j => z j * F j k)) =
  sum6 (fun a => sum6 (fun b => w a * z b * cv N (F a) (F b))).
Proof.
  intros. unfold cv. rewrite !mu_sum6.
  rewrite (tot_ext N _ (fun k => sum6 (fun a => sum6 (fun b =>
     (w a * z b) * ((F a k - mu N (F a)) * (F b k - mu N (F b))))))).
  2:{ intros k _. unfold sum6. ring. }
  rewrite (tot_sum6 N (fun a k => sum6 (fun b => (w a * z b) * ((F a k - mu N (F a)) * (F b k - mu N (F b)))))).
  rewrite (sum6_ext _ (fun a => sum6 (fun b => (w a * z b) * tot N (fun k => (F a k - mu N (F a)) * (F b k - mu N (F b)))))).
  2:{ intros a _. rewrite (tot_sum6 N (fun b k => (w a * z b) * ((F a k - mu N (F a)) * (F b k - mu N (F b))))).
      apply sum6_ext. intros b _. apply tot_scal. }
  unfold sum6. unfold Rdiv. ring.
Qed.

(* ---------- the correlation matrix is symmetric and positive semidefinite ---------- *)

Lemma tot_nonneg : forall N f, (forall k, (k < N)%nat -> 0 <= f k) -> 0 <= tot N f.
Proof. intros N f H. unfold tot. apply total_nonneg. intros k Hk. apply in_seq in Hk. apply H. lia. Qed.

Definition cell (b : beam) (i k : nat) : R := nth k (row b i) 0.

Lemma row_as_map : forall N b i, is_beam N b -> (i < 6)%nat -> row b i = map (cell b i) (seq 0 N).
Proof.
  intros N b i Hb Hi. rewrite (list_as_map (row b i)) at 1. rewrite (is_beam_row_len N b i Hb Hi). reflexivity.
Qed.

Lemma cov_cell : forall N b i j, is_beam N b -> (i < 6)%nat -> (j < 6)%nat ->
  covariance (row b i) (row b j) = cv N (cell b i) (cell b j).
Proof.
  intros N b i j Hb Hi Hj. rewrite (row_as_map N b i), (row_as_map N b j) by assumption. apply covariance_fun.
Qed.

Lemma mean_cell : forall N b i, is_beam N b -> (i < 6)%nat -> mean (row b i) = mu N (cell b i).
Proof. intros N b i Hb Hi. rewrite (row_as_map N b i) by assumption. apply mean_fun. Qed.

Lemma hd_cell : forall b i, hd 0 (row b i) = cell b i 0.
Proof. intros. unfold cell. destruct (row b i); reflexivity. Qed.

Lemma corr_matrix_psd : forall N b bm m, is_beam N b -> (0 < N)%nat ->
  calc_correlations6d b = Ok (bm, m) -> symmetric6 m /\ psd6 m.
Proof.
  intros N b bm m Hb HN H.
  destruct (correlations_spec N b Hb HN) as (m' & E & Hd & Ho).
  rewrite H in E. inversion E; subst m' bm. clear E.
  assert (HNp : 0 < INR N) by (apply lt_0_INR; lia).
  set (d := fun i k => cell b i k - mu N (cell b i)).
  assert (Hm : forall i j, (i < 6)%nat -> (j < 6)%nat ->
    m i j = (tot N (fun k => d i k * d j k) - (if Nat.eqb i j then 0 else d i 0%nat * d j 0%nat)) / INR N).
  { intros i j Hi Hj. destruct (Nat.eqb_spec i j) as [->|Hij].
    - rewrite Hd by exact Hj. rewrite variance_covariance, (cov_cell N) by assumption.
      unfold cv, d, Rdiv. ring.
    - rewrite Ho by assumption. rewrite (cov_cell N), !(mean_cell N), !hd_cell by assumption.
      unfold cv, d. field. lra. }
  split.
  - intros i j Hi Hj. rewrite !Hm by assumption. rewrite (Nat.eqb_sym j i). f_equal. f_equal.
    + apply tot_ext. intros. ring.
    + destruct (Nat.eqb i j); ring.
  - intros x.
    assert (Hq : sum6 (fun i => sum6 (fun j => x i * m i j * x j)) =
      (tot N (fun k => (sum6 (fun i => x i * d i k)) ^ 2)
       - (sum6 (fun i => x i * d i 0%nat)) ^ 2 + sum6 (fun i => (x i * d i 0%nat) ^ 2)) / INR N).
    { assert (Ht : tot N (fun k => (sum6 (fun i => x i * d i k)) ^ 2) =
         sum6 (fun i => sum6 (fun j => x i * x j * tot N (fun k => d i k * d j k)))).
      { rewrite (tot_ext N _ (fun k => sum6 (fun i => sum6 (fun j => (x i * x j) * (d i k * d j k))))).
        2:{ intros k _. unfold sum6. ring. }
        rewrite (tot_sum6 N (fun i k => sum6 (fun j => (x i * x j) * (d i k * d j k)))).
        apply sum6_ext. intros i _.
        rewrite (tot_sum6 N (fun j k => (x i * x j) * (d i k * d j k))).
        apply sum6_ext. intros j _. apply tot_scal. }
      rewrite Ht.
      rewrite (sum6_ext _ (fun i => sum6 (fun j => x i * ((tot N (fun k => d i k * d j k)
         - (if Nat.eqb i j then 0 else d i 0%nat * d j 0%nat)) / INR N) * x j))).
      2:{ intros i Hi. apply sum6_ext. intros j Hj. rewrite Hm by assumption. reflexivity. }
      unfold sum6. cbn [Nat.eqb]. field. lra. }
    rewrite Hq. apply Rmult_le_pos; [|left; apply Rinv_0_lt_compat; exact HNp].
    destruct N as [|N']; [lia|].
    assert (Hsplit : tot (S N') (fun k => (sum6 (fun i => x i * d i k)) ^ 2) =
      (sum6 (fun i => x i * d i 0%nat)) ^ 2 + total (map (fun k => (sum6 (fun i => x i * d i k)) ^ 2) (seq 1 N'))).
    { unfold tot. reflexivity. }
    rewrite Hsplit.
    assert (0 <= total (map (fun k => (sum6 (fun i => x i * d i k)) ^ 2) (seq 1 N'))).
    { apply total_nonneg. intros. apply pow2_ge_0. }
    assert (0 <= sum6 (fun i => (x i * d i 0%nat) ^ 2)).
    { unfold sum6. pose proof (fun i => pow2_ge_0 (x i * d i 0%nat)) as P.
      pose proof (P 0%nat). pose proof (P 1%nat). pose proof (P 2%nat). pose proof (P 3%nat).
      pose proof (P 4%nat). pose proof (P 5%nat). lra. }
    lra.
Qed.

(* ---------- mixing ---------- *)

Lemma add_rows_nth : forall a b k, length a = length b ->
  nth k (add_rows a b) 0 = nth k a 0 + nth k b 0 /\ length (add_rows a b) = length a.
Proof.
  induction a as [|x a IH]; intros [|y b] k H; try discriminate.
  - split; [destruct k; simpl; ring|reflexivity].
  - destruct (IH b (pred k)) as [H1 H2]; [simpl in H; lia|]. split.
    + destruct k as [|k]; [reflexivity|]. exact H1.
    + simpl. rewrite H2. reflexivity.
Qed.

Lemma mix_row_spec : forall N v b i k, is_beam N b ->
  length (mix_row v b N i) = N /\
  nth k (mix_row v b N i) 0 = sum6 (fun j => v j i * cell b j k).
Proof.
  intros N v b i k Hb. unfold mix_row.
  assert (Hgen : forall l acc, (forall j, In j l -> (j < 6)%nat) -> length acc = N ->
    length (fold_left (fun acc j => add_rows acc (map (fun x => v j i * x) (nth j b []))) l acc) = N /\
    nth k (fold_left (fun acc j => add_rows acc (map (fun x => v j i * x) (nth j b []))) l acc) 0 =
    nth k acc 0 + fold_right Rplus 0 (map (fun j => v j i * cell b j k) l)).
  { induction l as [|j l IH]; intros acc Hl Ha.
    - simpl. split; [exact Ha|]. ring.
    - cbn [fold_left].
      assert (Hlen : length acc = length (map (fun x => v j i * x) (nth j b []))).
      { rewrite map_length. rewrite Ha. symmetry. apply (is_beam_row_len N b j Hb). apply Hl. left. reflexivity. }
      destruct (add_rows_nth acc _ k Hlen) as [A1 A2].
      destruct (IH (add_rows acc (map (fun x => v j i * x) (nth j b [])))) as [B1 B2].
      + intros j' Hj'. apply Hl. right. exact Hj'.
      + rewrite A2. exact Ha.
      + split; [exact B1|]. rewrite B2, A1.
        replace (nth k (map (fun x => v j i * x) (nth j b [])) 0) with (v j i * cell b j k).
        * simpl. ring.
        * unfold cell, row. transitivity (nth k (map (fun x => v j i * x) (nth j b [])) (v j i * 0)).
          { rewrite (map_nth (fun x => v j i * x)). reflexivity. }
          rewrite Rmult_0_r. reflexivity. }
  destruct (Hgen (seq 0 6) (repeat 0 N)) as [H1 H2].
  - intros j Hj. apply in_seq in Hj. lia.
  - apply repeat_length.
  - split; [exact H1|]. rewrite H2, nth_repeat. unfold sum6. cbn [seq map fold_right]. ring.
Qed.

Lemma rm_result : forall N b new, is_beam N b -> (0 < N)%nat -> rm_correlations6d b = Ok new ->
  exists m l v, calc_correlations6d b = Ok (recentre_first b, m) /\
    eigen_decomposition m l v /\ in_basis N v (recentre_first b) new.
Proof.
  intros N b new Hb HN H. unfold rm_correlations6d in H.
  destruct (correlations_spec N b Hb HN) as (m & E & _).
  rewrite E in H. cbn [rbind fst snd] in H.
  destruct (jacobi_eigen_solver6d m) as [[l v]| |] eqn:EJ; cbn [rbind snd] in H; try discriminate.
  destruct (corr_matrix_psd N b _ m Hb HN E) as [Hs Hp].
  exists m, l, v. split; [exact E|]. split; [apply jacobi_correct; assumption|].
  assert (Hnew : map (mix_row v (recentre_first b) (length (nth 0 b []))) (seq 0 6) = new) by congruence.
  clear H. subst new.
  assert (L0 : length (nth 0 b []) = N) by (apply (is_beam_row_len N b 0 Hb); lia). rewrite L0.
  assert (Hrb : is_beam N (recentre_first b)).
  { destruct Hb as [H1 H2]. split; [unfold recentre_first; rewrite map_length; exact H1|].
    unfold recentre_first. apply Forall_map. eapply Forall_impl; [|exact H2]. intros [|x r]; auto. }
  assert (Hrow : forall i, (i < 6)%nat ->
     row (map (mix_row v (recentre_first b) N) (seq 0 6)) i = mix_row v (recentre_first b) N i).
  { intros i Hi. unfold row.
    rewrite (nth_indep (map (mix_row v (recentre_first b) N) (seq 0 6)) [] (mix_row v (recentre_first b) N 0))
      by (rewrite map_length, seq_length; exact Hi).
    rewrite map_nth, seq_nth by exact Hi. reflexivity. }
  split.
  - split; [rewrite map_length, seq_length; reflexivity|].
    apply Forall_map. rewrite Forall_forall. intros i _. apply (mix_row_spec N v _ i 0 Hrb).
  - intros i k Hi Hk. rewrite Hrow by exact Hi. apply (mix_row_spec N v _ i k Hrb).
Qed.

Lemma recentre_id : forall b, Forall (fun r => r <> []) b -> first_on_centroid b -> recentre_first b = b.
Proof.
  intros b Hb Hf. unfold recentre_first. rewrite <- (map_id b) at 2. apply map_ext_in.
  intros [|x r] Hr; [reflexivity|]. specialize (Hf (x :: r) Hr). simpl in Hf. rewrite <- Hf. reflexivity.
Qed.

Lemma rm_decorrelates : forall N b new, is_beam N b -> (0 < N)%nat -> first_on_centroid b ->
  rm_correlations6d b = Ok new ->
  exists v l, orthonormal_columns v /\ in_basis N v b new /\
    forall i j, (i < 6)%nat -> (j < 6)%nat ->
      covariance (row new i) (row new j) = (if Nat.eqb i j then l i else 0).
Proof.
  intros N b new Hb HN Hf H.
  destruct (rm_result N b new Hb HN H) as (m & l & v & E & (Ho & Hv & _) & Hn).
  pose proof (is_beam_nonempty N b Hb HN) as Hne.
  rewrite (recentre_id b Hne Hf) in Hn.
  exists v, l. split; [exact Ho|]. split; [exact Hn|].
  intros i j Hi Hj. destruct Hn as [Hnb Hc].
  destruct (correlations_spec N b Hb HN) as (m' & E' & Hd & Hoff).
  rewrite E in E'. inversion E'; subst m'. clear E'.
  assert (Hm : forall a c, (a < 6)%nat -> (c < 6)%nat -> m a c = cv N (cell b a) (cell b c)).
  { intros a c Ha Hc'. destruct (Nat.eq_dec a c) as [->|Hac].
    - rewrite Hd, variance_covariance by assumption. apply cov_cell; assumption.
    - rewrite Hoff by assumption.
      replace (hd 0 (row b a) - mean (row b a)) with 0.
      + rewrite (cov_cell N) by assumption. unfold Rdiv. ring.
      + assert (HIn : In (row b a) b) by (apply nth_In; destruct Hb as [Hl _]; lia).
        specialize (Hf _ HIn). pose proof (is_beam_row_len N b a Hb Ha) as Ll.
        destruct (row b a) as [|x r]; [simpl in Ll; lia|]. simpl hd. rewrite <- Hf. ring. }
  rewrite (cov_cell N) by assumption.
  assert (Hcell : forall a k, (a < 6)%nat -> (k < N)%nat -> cell new a k = sum6 (fun c => v c a * cell b c k)).
  { intros a k Ha Hk. apply Hc; assumption. }
  assert (Hcv : cv N (cell new i) (cell new j) =
     cv N (fun k => sum6 (fun c => v c i * cell b c k)) (fun k => sum6 (fun c => v c j * cell b c k))).
  { unfold cv, mu. rewrite (tot_ext N (cell new i) _ (fun k Hk => Hcell i k Hi Hk)).
    rewrite (tot_ext N (cell new j) _ (fun k Hk => Hcell j k Hj Hk)). f_equal.
    apply tot_ext. intros k Hk. rewrite !Hcell by assumption. reflexivity. }
  rewrite Hcv, (cv_sum6 N (fun c => v c i) (fun c => v c j) (cell b)).
  rewrite (sum6_ext _ (fun a => v a i * (l j * v a j))).
  2:{ intros a Ha. rewrite <- Hv by assumption.
      transitivity (sum6 (fun c => v a i * (m a c * v c j))).
      - apply sum6_ext. intros c Hc'. rewrite Hm by assumption. ring.
      - unfold sum6. ring. }
  transitivity (l j * sum6 (fun a => v a i * v a j)).
  - unfold sum6. ring.
  - rewrite Ho by assumption. destruct (Nat.eqb_spec i j) as [->|]; ring.
Qed.

(* ---------- a solvable case, used in examples ---------- *)

Definition one_corr (m : mat) (a x : R) : Prop :=
  m 0%nat 1%nat = x /\ m 0%nat 0%nat = a /\ m 1%nat 1%nat = a /\
  forall p q, is_pair p q -> ~ (p = 0%nat /\ q = 1%nat) -> m p q = 0.

Lemma pair_skip : forall thr st p q, 0 <= thr -> j_sig st p q = 0 -> jacobi_pair 0 thr st (p, q) = st.
Proof.
  intros thr st p q Ht Hz. unfold jacobi_pair. cbn [Nat.ltb Nat.leb andb].
  rewrite Hz, Rabs_R0. destruct (Rlt_dec thr 0); [lra|reflexivity].
Qed.

Lemma fold_skip : forall thr l st, 0 <= thr ->
  (forall p q, In (p, q) l -> j_sig st p q = 0) -> fold_left (jacobi_pair 0 thr) l st = st.
Proof.
  intros thr l st Ht. induction l as [|[p q] l IH]; intros H; [reflexivity|].
  cbn [fold_left]. rewrite pair_skip by (try assumption; apply H; left; reflexivity).
  apply IH. intros p' q' H'. apply H. right. exact H'.
Qed.

Lemma off_sum_of_zero : forall s, (forall p q, is_pair p q -> s p q = 0) -> off_sum s = 0.
Proof.
  intros s H. unfold off_sum. rewrite off_sum_fold.
  assert (E : forall l : list (nat * nat), (forall pq, In pq l -> In pq pairs6) ->
     fold_right Rplus 0 (map (fun pq : nat * nat => Rabs (s (fst pq) (snd pq))) l) = 0).
  { induction l as [|[p q] l IH]; intros Hl; [reflexivity|]. cbn [map fold_right fst snd].
    rewrite H by (apply pairs6_is_pair, Hl; left; reflexivity). rewrite Rabs_R0, IH; [ring|].
    intros pq Hpq. apply Hl. right. exact Hpq. }
  rewrite (E pairs6 (fun _ H => H)). ring.
Qed.

Transparent jacobi_sweep.
Lemma jacobi_step : forall k n st, jacobi_loop (S k) n st =
     if Req_EM_T (off_sum (j_sig st)) 0 then Ok (j_val st, j_vec st)
     else jacobi_loop k (S n) (jacobi_sweep n (off_sum (j_sig st)) st).
Proof. reflexivity. Qed.

Definition quarter_turn : mat := fun i j =>
      let r := 1 / sqrt 2 in
      if Nat.eqb j 0 then (if Nat.eqb i 0 then r else if Nat.eqb i 1 then - r else 0)
      else if Nat.eqb j 1 then (if Nat.eqb i 0 then r else if Nat.eqb i 1 then r else 0)
      else if Nat.eqb i j then 1 else 0.

Lemma fold_cons {A B} : forall (f : A -> B -> A) x l a, fold_left f (x :: l) a = fold_left f l (f a x).
Proof. reflexivity. Qed.

Lemma pairs6_cons : exists l, pairs6 = (0, 1)%nat :: l.
Proof. eexists. reflexivity. Qed.

Lemma jacobi_sweep_eq : forall n sm st, jacobi_sweep n sm st =
  let st1 := fold_left (jacobi_pair n (if Nat.ltb n 3 then 2 / 10 * sm / 36 else 0)) pairs6 st in
     {| j_sig := j_sig st1; j_vec := j_vec st1; j_val := fun i => j_b st1 i + j_z st1 i;
        j_b := fun i => j_b st1 i + j_z st1 i; j_z := fun _ => 0 |}.
Proof. reflexivity. Qed.

Lemma jacobi_one_corr_gen : forall k m a x, one_corr m a x -> x <> 0 ->
  exists l v, jacobi_loop (S (S k)) 0 (jacobi_init m) = Ok (l, v) /\
    forall i j, (i < 6)%nat -> (j < 6)%nat -> v i j = quarter_turn i j.
Proof.
  intros k m a x (M1 & M2 & M3 & M4) Hx.
  assert (Hax : 0 < Rabs x) by (apply Rabs_pos_lt; exact Hx).
  assert (Hoff : off_sum m = Rabs x).
  { unfold off_sum. rewrite off_sum_fold. unfold pairs6. cbn -[Rabs].
    rewrite M1. rewrite !M4 by (unfold is_pair; lia). rewrite Rabs_R0. ring. }
  rewrite jacobi_step. cbn [jacobi_init j_sig]. rewrite Hoff. destruct (Req_EM_T (Rabs x) 0) as [|_]; [lra|].
  set (thr := 2 / 10 * Rabs x / 36).
  assert (Hthr : 0 <= thr < Rabs x) by (unfold thr; lra).
  destruct pairs6_cons as [tlp Hpairs].
  set (st1 := jacobi_rotate 1 0 1 (jacobi_init m)).
  assert (Hr1 : jacobi_pair 0 thr (jacobi_init m) (0, 1)%nat = st1).
  { unfold jacobi_pair. cbn [Nat.ltb Nat.leb andb jacobi_init j_sig j_val]. rewrite M1.
    destruct (Rlt_dec thr (Rabs x)); [|lra].
    replace (jacobi_t (fun i => m i i) x (100 * Rabs x) 0 1) with 1; [reflexivity|].
    unfold jacobi_t. rewrite M2, M3, Rminus_diag_eq by reflexivity. rewrite Rabs_R0.
    destruct (Req_EM_T (0 + 100 * Rabs x) 0); [lra|].
    replace (1 / 2 * 0 / x) with 0 by (field; exact Hx).
    destruct (Rlt_dec 0 0); [lra|]. rewrite Rabs_R0.
    replace (1 + 0 ^ 2) with 1 by ring. rewrite sqrt_1. field. }
  assert (Hz1 : forall p q, is_pair p q -> j_sig st1 p q = 0).
  { intros p q Hpq. pose proof Hpq as [Hp Hq].
    unfold st1. cbn [jacobi_rotate j_sig].
    destruct (Nat.eq_dec p 0) as [->|P0]; [destruct (Nat.eq_dec q 1) as [->|Q1]|].
    - rewrite rotate_sigma_pq by (unfold is_pair; lia). reflexivity.
    - pose proof (rotate_sigma_spec (1 * (1 / sqrt (1 + 1 ^ 2))) (1 * (1 / sqrt (1 + 1 ^ 2)) / (1 + 1 / sqrt (1 + 1 ^ 2)))
        (1 - 1 * (1 / sqrt (1 + 1 ^ 2)) * (1 * (1 / sqrt (1 + 1 ^ 2)) / (1 + 1 / sqrt (1 + 1 ^ 2)))) 0 1
        (upd2 (j_sig (jacobi_init m)) 0 1 0) 0 q eq_refl) as RS.
      rewrite Nat.min_l, Nat.max_r in RS by lia. rewrite RS by (unfold is_pair; lia).
      unfold rot_spec, offM, upd2. cbn [jacobi_init j_sig].
      rewrite (proj2 (Nat.eqb_neq q 0)), (proj2 (Nat.eqb_neq q 1)) by lia. cbn [Nat.eqb].
      rewrite !Nat.min_l, !Nat.max_r by lia. rewrite (proj2 (Nat.eqb_neq q 1)) by lia. cbn [Nat.eqb andb].
      rewrite !M4 by (unfold is_pair; lia). ring.
    - pose proof (rotate_sigma_spec (1 * (1 / sqrt (1 + 1 ^ 2))) (1 * (1 / sqrt (1 + 1 ^ 2)) / (1 + 1 / sqrt (1 + 1 ^ 2)))
        (1 - 1 * (1 / sqrt (1 + 1 ^ 2)) * (1 * (1 / sqrt (1 + 1 ^ 2)) / (1 + 1 / sqrt (1 + 1 ^ 2)))) 0 1
        (upd2 (j_sig (jacobi_init m)) 0 1 0) p q eq_refl) as RS.
      rewrite Nat.min_l, Nat.max_r in RS by lia. rewrite RS by (unfold is_pair; lia).
      unfold rot_spec, offM, upd2. cbn [jacobi_init j_sig].
      rewrite (proj2 (Nat.eqb_neq q 0)), (proj2 (Nat.eqb_neq q 1)) by lia.
      rewrite (proj2 (Nat.eqb_neq p 0)) by lia.
      destruct (Nat.eqb_spec p 1) as [->|P1].
      + rewrite !Nat.min_l, !Nat.max_r by lia. rewrite (proj2 (Nat.eqb_neq q 1)) by lia. cbn [Nat.eqb andb].
        rewrite !M4 by (unfold is_pair; lia). ring.
      + rewrite Nat.min_l, Nat.max_r by lia. rewrite (proj2 (Nat.eqb_neq p 0)) by lia. cbn [andb].
        apply M4; [exact Hpq|lia]. }
  assert (Hsweep : jacobi_sweep 0 (Rabs x) (jacobi_init m) =
     {| j_sig := j_sig st1; j_vec := j_vec st1; j_val := fun i => j_b st1 i + j_z st1 i;
        j_b := fun i => j_b st1 i + j_z st1 i; j_z := fun _ => 0 |}).
  { rewrite jacobi_sweep_eq. change (Nat.ltb 0 3) with true. cbv beta iota. fold thr.
    rewrite Hpairs, fold_cons, Hr1.
    rewrite fold_skip; [reflexivity|lra|]. intros p q Hin. apply Hz1. apply pairs6_is_pair.
    rewrite Hpairs. right. exact Hin. }
  rewrite Hsweep. rewrite jacobi_step. cbn [j_sig].
  rewrite (off_sum_of_zero (j_sig st1) Hz1). destruct (Req_EM_T 0 0) as [_|]; [|lra].
  eexists. eexists. split; [reflexivity|]. intros i j Hi Hj. unfold quarter_turn. set (r := 1 / sqrt 2).
  unfold st1. cbn [jacobi_rotate j_vec].
  destruct (cs_facts 1) as [_ Htau].
  rewrite (rotate_vecs_spec _ _ (1 / sqrt (1 + 1 ^ 2))) by (try assumption; unfold is_pair; lia).
  replace (1 + 1 ^ 2) with 2 by ring. fold r.
  cbn [jacobi_init j_vec]. clearbody r.
  six j Hj; six i Hi; cbn [Nat.eqb]; ring.
Qed.

Lemma jacobi_one_corr : forall m a x, one_corr m a x -> x <> 0 ->
  exists l v, jacobi_eigen_solver6d m = Ok (l, v) /\
    forall i j, (i < 6)%nat -> (j < 6)%nat -> v i j = quarter_turn i j.
Proof. exact (jacobi_one_corr_gen 48). Qed.

Lemma rm_one_corr : forall N b m a x, is_beam N b -> (0 < N)%nat ->
  calc_correlations6d b = Ok (recentre_first b, m) -> one_corr m a x -> x <> 0 ->
  exists new, rm_correlations6d b = Ok new /\ in_basis N quarter_turn (recentre_first b) new.
Proof.
  intros N b m a x Hb HN E H1 Hx.
  destruct (jacobi_one_corr m a x H1 Hx) as (l & v & EJ & Hv).
  assert (HR : exists new, rm_correlations6d b = Ok new).
  { unfold rm_correlations6d. rewrite E. cbn [rbind fst snd]. rewrite EJ. cbn [rbind]. eexists. reflexivity. }
  destruct HR as [new HR]. exists new. split; [exact HR|].
  destruct (rm_result N b new Hb HN HR) as (m' & l' & v' & E' & Hed & Hn).
  unfold rm_correlations6d in HR. rewrite E in HR. cbn [rbind fst snd] in HR. rewrite EJ in HR. cbn [rbind fst snd] in HR.
  assert (Hnew : map (mix_row v (recentre_first b) (length (nth 0 b []))) (seq 0 6) = new) by congruence.
  split; [apply Hn|]. intros i k Hi Hk.
  assert (L0 : length (nth 0 b []) = N) by (apply (is_beam_row_len N b 0 Hb); lia). rewrite L0 in Hnew.
  assert (Hrb : is_beam N (recentre_first b)).
  { destruct Hb as [K1 K2]. split; [unfold recentre_first; rewrite map_length; exact K1|].
    unfold recentre_first. apply Forall_map. eapply Forall_impl; [|exact K2]. intros [|y r]; auto. }
  rewrite <- Hnew. unfold row at 1.
  rewrite (nth_indep (map (mix_row v (recentre_first b) N) (seq 0 6)) [] (mix_row v (recentre_first b) N 0))
      by (rewrite map_length, seq_length; exact Hi).
  rewrite map_nth, seq_nth by exact Hi.
  change (0 + i)%nat with i. destruct (mix_row_spec N v (recentre_first b) i k Hrb) as [_ Hm]. rewrite Hm.
  apply sum6_ext. intros j Hj. rewrite (Hv j i Hj Hi). reflexivity.
Qed.

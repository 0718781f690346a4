(** Lemmas about the sampling model. *)
From Coq Require Import List Reals Lra Lia Psatz Bool Arith String.
From Verif Require Import PyBase Stats_Spec Stats_Proofs Sample_Model Sample_Spec.
Import ListNotations.
Open Scope R_scope.

Lemma np_sum_total : forall l, np_sum l = total l.
Proof. induction l as [|x l IH]; [reflexivity|]. cbn [np_sum]. rewrite total_cons, IH. reflexivity. Qed.

Lemma partial_S : forall x w k, partial_sum (x :: w) (S k) = x + partial_sum w k.
Proof. reflexivity. Qed.

Lemma cdf_loop_spec : forall w t c, t <> 0 ->
  cdf_loop t c w = map (fun k => Some ((c + partial_sum w (S k)) / t)) (seq 0 (List.length w)).
Proof.
  induction w as [|x w IH]; intros t c Ht; [reflexivity|].
  cbn [cdf_loop List.length seq map]. f_equal.
  - unfold ndiv. destruct (Req_EM_T t 0); [contradiction|]. f_equal. f_equal. rewrite partial_S.
    unfold partial_sum. simpl. ring.
  - rewrite IH by exact Ht. rewrite <- seq_shift, map_map. apply map_ext. intros k.
    rewrite (partial_S x w (S k)). f_equal. f_equal. ring.
Qed.

Lemma calculate_cdf_spec : forall w, total w <> 0 ->
  calculate_cdf w = map (fun k => Some (partial_sum w (S k) / total w)) (seq 0 (List.length w)).
Proof.
  intros w H. unfold calculate_cdf. rewrite np_sum_total, cdf_loop_spec by exact H.
  apply map_ext. intros k. f_equal. f_equal. ring.
Qed.

Lemma partial_step : forall w k, (k < List.length w)%nat -> partial_sum w (S k) = partial_sum w k + nth k w 0.
Proof.
  induction w as [|x w IH]; intros [|k] H; simpl in H; try lia.
  - unfold partial_sum. simpl. ring.
  - rewrite (partial_S x w (S k)), (partial_S x w k), IH by lia. cbn [nth]. ring.
Qed.

Lemma partial_nonneg : forall w k, (forall x, In x w -> 0 <= x) -> 0 <= partial_sum w k.
Proof.
  induction w as [|x w IH]; intros [|k] H; try (unfold partial_sum; simpl; lra).
  rewrite partial_S. specialize (IH k (fun y Hy => H y (or_intror Hy))). pose proof (H x (or_introl eq_refl)). lra.
Qed.

Lemma partial_all : forall w, partial_sum w (List.length w) = total w.
Proof. intros. unfold partial_sum. rewrite firstn_all. reflexivity. Qed.

Lemma partial_mono : forall w j k, (forall x, In x w -> 0 <= x) -> (j <= k)%nat -> (k <= List.length w)%nat ->
  partial_sum w j <= partial_sum w k.
Proof.
  intros w j k H Hjk. induction Hjk as [|k Hjk IH]; intros Hk; [lra|].
  rewrite partial_step by lia. assert (0 <= nth k w 0) by (apply H, nth_In; lia). specialize (IH ltac:(lia)). lra.
Qed.

(** Bisection finds the first entry not below the key in a sorted array. *)
Lemma bisect_spec : forall fuel arr key min max, (max - min <= fuel)%nat -> (min <= max)%nat ->
  (forall j k, (j <= k)%nat -> (k < max)%nat -> np_lt (nth k arr None) key = true -> np_lt (nth j arr None) key = true) ->
  (forall j, (j < min)%nat -> np_lt (nth j arr None) key = true) ->
  let i := bisect fuel arr key min max in
  (min <= i <= max)%nat /\ (forall j, (j < i)%nat -> np_lt (nth j arr None) key = true) /\
  ((i < max)%nat -> np_lt (nth i arr None) key = false).
Proof.
  induction fuel as [|fuel IH]; intros arr key min max Hf Hle Hs Hb; cbn [bisect]; unfold fl in *.
  - split; [lia|]. split; [exact Hb|]. intros; lia.
  - destruct (Nat.ltb_spec min max) as [Hlt|Hge].
    + set (mid := (min + (max - min) / 2)%nat).
      assert (Hmid : (min <= mid < max)%nat).
      { assert (Hd : ((max - min) / 2 < max - min)%nat) by (apply Nat.div_lt; lia).
        unfold mid. split; [apply Nat.le_add_r|]. lia. }
      clearbody mid.
      destruct (np_lt (nth mid arr None) key) eqn:E.
      * destruct (IH arr key (mid + 1)%nat max) as (H1 & H2 & H3); [lia|lia|exact Hs| |].
        { intros j Hj. apply (Hs j mid); [lia|lia|exact E]. }
        rewrite ?E. split; [lia|]. split; assumption.
      * destruct (IH arr key min mid) as (H1 & H2 & H3); [lia|lia| |exact Hb|].
        { intros j k Hj Hk. apply Hs; lia. }
        rewrite ?E. split; [lia|]. split; [exact H2|]. intros Hi.
        destruct (Nat.eq_dec (bisect fuel arr key min mid) mid) as [Em|Em]; [rewrite Em; exact E|apply H3; lia].
    + split; [lia|]. split; [exact Hb|]. intros; lia.
Qed.

Lemma cdf_nth : forall w k, total w <> 0 -> (k < List.length w)%nat ->
  nth k (calculate_cdf w) None = Some (partial_sum w (S k) / total w).
Proof.
  intros w k Ht Hk. rewrite calculate_cdf_spec by exact Ht. 
  set (f := fun k => Some (partial_sum w (S k) / total w)).
  rewrite (nth_indep (map f _) None (f 0%nat)) by (rewrite map_length, seq_length; exact Hk).
  rewrite map_nth, seq_nth by exact Hk. reflexivity.
Qed.

Lemma cdf_length : forall w, List.length (calculate_cdf w) = List.length w.
Proof.
  intros w. unfold calculate_cdf. generalize (np_sum w) 0. induction w as [|x w IH]; intros t c; [reflexivity|].
  cbn [cdf_loop List.length]. f_equal. apply IH.
Qed.

Lemma cdf_lt : forall w key k, 0 < total w -> (k < List.length w)%nat ->
  np_lt (nth k (calculate_cdf w) None) key = true <-> partial_sum w (S k) / total w < key.
Proof.
  intros w key k Ht Hk. rewrite cdf_nth by (lra || exact Hk). cbn [np_lt].
  destruct (Rlt_dec _ _); split; auto; discriminate || contradiction.
Qed.

Lemma search_cdf : forall w y, weights_ok w -> y <= 1 -> first_reaching w y (searchsorted (calculate_cdf w) y).
Proof.
  intros w y [Hw Ht] Hy. unfold searchsorted. rewrite cdf_length.
  set (n := List.length w).
  destruct (bisect_spec n (calculate_cdf w) y 0 n ltac:(lia) ltac:(lia)) as (H1 & H2 & H3); [|intros; lia|].
  - intros j k Hjk Hk H. apply cdf_lt in H; [|exact Ht|exact Hk]. apply cdf_lt; [exact Ht|lia|].
    eapply Rle_lt_trans; [|exact H]. unfold Rdiv. apply Rmult_le_compat_r; [left; apply Rinv_0_lt_compat; exact Ht|].
    apply partial_mono; [exact Hw|lia|fold n; lia].
  - set (i := bisect n (calculate_cdf w) y 0 n) in *.
    assert (Hi : (i < n)%nat).
    { destruct (Nat.eq_dec i n) as [E|]; [|lia]. exfalso.
      destruct w as [|x w']; [unfold total in Ht; simpl in Ht; lra|].
      assert (Hn : n = S (n - 1)) by (unfold n; simpl; lia).
      specialize (H2 (n - 1)%nat ltac:(lia)). apply cdf_lt in H2; [|exact Ht|fold n; lia].
      rewrite <- Hn in H2. unfold n in H2. rewrite partial_all in H2. 
      unfold Rdiv in H2. rewrite Rinv_r in H2 by lra. lra. }
    split; [exact Hi|]. split.
    + specialize (H3 Hi). destruct (Rle_lt_dec y (partial_sum w (S i) / total w)) as [|Hc]; [assumption|].
      apply (cdf_lt w y i Ht Hi) in Hc. exfalso. exact (eq_true_false_abs _ Hc H3).
    + intros j Hj. apply cdf_lt; [exact Ht|lia|apply H2; exact Hj].
Qed.

Lemma linspace_len : forall a b n, List.length (linspace a b n) = n.
Proof. intros a b [|[|n]]; cbn [linspace]; [reflexivity|reflexivity|]. rewrite map_length, seq_length. reflexivity. Qed.

Lemma linspace_nth : forall a b n k, (k < n)%nat -> nth_error (linspace a b n) k = Some (grid_point a b n k).
Proof.
  intros a b n k Hk. destruct n as [|[|n]]; [lia| |].
  - destruct k; [|lia]. cbn. unfold grid_point. cbn [INR]. f_equal. ring.
  - cbn [linspace]. rewrite (nth_error_nth' _ (grid_point a b (S (S n)) 0)) by (rewrite map_length, seq_length; exact Hk).
    f_equal. etransitivity; [exact (map_nth (grid_point a b (S (S n))) (seq 0 (S (S n))) 0%nat k)|].
    rewrite seq_nth by exact Hk. reflexivity.
Qed.

Lemma fancy_spec : forall x idx, (forall i, In i idx -> (i < List.length x)%nat) ->
  exists v, fancy x idx = Ok v /\ Forall2 (fun i t => nth_error x i = Some t) idx v.
Proof.
  induction idx as [|i idx IH]; intros H; [exists []; split; [reflexivity|constructor]|].
  cbn [fancy]. destruct (nth_error x i) as [t|] eqn:E.
  - destruct IH as (v & Ev & F); [intros j Hj; apply H; right; exact Hj|]. rewrite Ev. cbn [rbind].
    exists (t :: v). split; [reflexivity|constructor; assumption].
  - apply nth_error_None in E. specialize (H i (or_introl eq_refl)). lia.
Qed.

Lemma grid_point_in : forall a b n k, a <= b -> (k < n)%nat -> a <= grid_point a b n k <= b.
Proof.
  intros a b n k Hab Hk. unfold grid_point. destruct n as [|[|n]]; [lia| |].
  - assert (k = 0)%nat by lia. subst. cbn [INR]. lra.
  - replace (S (S n) - 1)%nat with (S n) by lia.
    assert (Hn : 0 < INR (S n)) by (apply lt_0_INR; lia).
    assert (H0 : 0 <= INR k) by apply pos_INR. assert (H1 : INR k <= INR (S n)) by (apply le_INR; lia).
    replace (INR k * ((b - a) / INR (S n))) with ((b - a) * (INR k / INR (S n))) by (field; lra).
    assert (0 <= INR k / INR (S n) <= 1).
    { split; [apply Rmult_le_pos; [exact H0|left; apply Rinv_0_lt_compat; exact Hn]|].
      apply Rmult_le_reg_r with (INR (S n)); [exact Hn|]. unfold Rdiv. rewrite Rmult_assoc, Rinv_l by lra. lra. }
    nra.
Qed.

Lemma fancy_nth : forall (x : list R) (f : R -> nat) y v k,
  Forall2 (fun i t => nth_error x i = Some t) (map f y) v -> (k < List.length y)%nat ->
  nth_error x (f (nth k y 0)) = Some (nth k v 0).
Proof.
  induction y as [|u y IH]; intros v k F Hk; [simpl in Hk; lia|].
  inversion F as [|? t ? v' Ht F']; subst. destruct k as [|k]; cbn [nth]; [exact Ht|].
  apply IH; [exact F'|simpl in Hk; lia].
Qed.

Lemma fancy_len : forall (P : nat -> R -> Prop) l v, Forall2 P l v -> List.length v = List.length l.
Proof. intros P l v F. induction F; simpl; auto. Qed.

(** Termination of the eigenvalue solver for matrices in which no coordinate is coupled with
    more than one other. *)
From Coq Require Import List Reals Lra Lia Bool Arith.
From Verif Require Import PyBase Stats_Model Stats_Spec Solver_Spec Jacobi_Proofs.
Import ListNotations.
Open Scope R_scope.

Definition pairedU (m : mat) : Prop := paired6 (from_upper m).

(** Every cell above the diagonal is kept or cleared. *)
Definition fewer (m m' : mat) : Prop :=
  forall a b, is_pair a b -> m' a b = m a b \/ m' a b = 0.

Lemma fewer_refl : forall m, fewer m m.
Proof. intros m a b _. left. reflexivity. Qed.

Lemma fewer_trans : forall m m' m'', fewer m m' -> fewer m' m'' -> fewer m m''.
Proof.
  intros m m' m'' H1 H2 a b Hp. destruct (H2 a b Hp) as [E|E]; [|right; exact E].
  destruct (H1 a b Hp) as [E'|E']; [left|right]; congruence.
Qed.

Lemma fewer_zero : forall m m' a b, fewer m m' -> is_pair a b -> m a b = 0 -> m' a b = 0.
Proof. intros m m' a b H Hp E. destruct (H a b Hp); congruence. Qed.

Lemma fewer_upper : forall m m' i j, fewer m m' -> (i < 6)%nat -> (j < 6)%nat -> i <> j ->
  from_upper m' i j <> 0 -> from_upper m i j <> 0.
Proof.
  intros m m' i j H Hi Hj Hn E Z. apply E. unfold from_upper in *.
  apply (fewer_zero m m' _ _ H); [split; lia|exact Z].
Qed.

Lemma fewer_paired : forall m m', fewer m m' -> pairedU m -> pairedU m'.
Proof.
  intros m m' H HP i j k Hi Hj Hk Hij Hik E1 E2.
  apply (HP i j k Hi Hj Hk Hij Hik); apply (fewer_upper m m'); auto.
Qed.

Lemma paired_other : forall m p q j, pairedU m -> is_pair p q -> m p q <> 0 -> (j < 6)%nat -> j <> p -> j <> q ->
  offM m p j = 0 /\ offM m q j = 0.
Proof.
  intros m p q j HP [Hp Hq] E Hj Hjp Hjq. unfold offM.
  assert (Epq : from_upper m p q <> 0).
  { unfold from_upper. rewrite Nat.min_l, Nat.max_r by lia. exact E. }
  assert (Eqp : from_upper m q p <> 0).
  { unfold from_upper. rewrite Nat.min_r, Nat.max_l by lia. exact E. }
  split.
  - destruct (Req_EM_T (m (Nat.min p j) (Nat.max p j)) 0) as [Z|Z]; [exact Z|].
    exfalso. apply Hjq. symmetry. apply (HP p q j); try lia; assumption.
  - destruct (Req_EM_T (m (Nat.min q j) (Nat.max q j)) 0) as [Z|Z]; [exact Z|].
    exfalso. apply Hjp. symmetry. apply (HP q p j); try lia; assumption.
Qed.

Lemma offM_clear : forall m p q i j, is_pair p q -> (i < 6)%nat -> (j < 6)%nat -> i <> j ->
  ~ (i = p /\ j = q) -> ~ (i = q /\ j = p) -> offM (upd2 m p q 0) i j = offM m i j.
Proof.
  intros m p q i j [Hp Hq] Hi Hj Hn H1 H2. unfold offM, upd2.
  destruct (Nat.eqb_spec (Nat.min i j) p) as [E1|E1]; [|reflexivity].
  destruct (Nat.eqb_spec (Nat.max i j) q) as [E2|E2]; [|reflexivity]. exfalso. lia.
Qed.

Lemma rotate_upper : forall s tau p q m a b, is_pair p q -> is_pair a b -> ~ (a = p /\ b = q) ->
  rotate_sigma s tau p q m a b = rot_spec (1 - s * tau) s p q m a b.
Proof.
  intros s tau p q m a b Hpq [Ha Hb] Hn.
  assert (E : rotate_sigma s tau p q m (Nat.min a b) (Nat.max a b) = rot_spec (1 - s * tau) s p q m a b).
  { destruct Hpq. apply rotate_sigma_spec; try reflexivity; try lia. split; assumption. }
  rewrite Nat.min_l, Nat.max_r in E by lia. exact E.
Qed.

Lemma rotate_fewer : forall t p q st, pairedU (j_sig st) -> is_pair p q -> j_sig st p q <> 0 ->
  fewer (j_sig st) (j_sig (jacobi_rotate t p q st)) /\ j_sig (jacobi_rotate t p q st) p q = 0.
Proof.
  intros t p q st HP Hpq E. pose proof Hpq as [Hp Hq]. cbn [jacobi_rotate j_sig].
  set (c := 1 / sqrt (1 + t ^ 2)). set (s := t * c). set (tau := s / (1 + c)). clearbody c s tau.
  assert (Z : rotate_sigma s tau p q (upd2 (j_sig st) p q 0) p q = 0).
  { rewrite rotate_sigma_pq by exact Hpq. unfold upd2. rewrite !Nat.eqb_refl. reflexivity. }
  split; [|exact Z].
  intros a b Hab. pose proof Hab as [Ha Hb].
  destruct (Nat.eq_dec a p) as [->|Nap].
  - destruct (Nat.eq_dec b q) as [->|Nbq]; [right; exact Z|]. left.
    rewrite rotate_upper by (auto; lia).
    unfold rot_spec. replace (Nat.eqb b p) with false by (symmetry; apply Nat.eqb_neq; lia).
    replace (Nat.eqb b q) with false by (symmetry; apply Nat.eqb_neq; lia). rewrite Nat.eqb_refl.
    rewrite !offM_clear by (auto; lia).
    destruct (paired_other (j_sig st) p q b HP Hpq E) as [Z1 Z2]; try lia. rewrite Z1, Z2.
    unfold offM in Z1. rewrite Nat.min_l, Nat.max_r in Z1 by lia. rewrite Z1. ring.
  - left.
    rewrite rotate_upper by (auto; lia).
    unfold rot_spec.
    replace (Nat.eqb a p) with false by (symmetry; apply Nat.eqb_neq; lia).
    destruct (Nat.eqb_spec b p) as [->|Nbp].
    { rewrite !offM_clear by (auto; lia).
      destruct (paired_other (j_sig st) p q a HP Hpq E) as [Z1 Z2]; try lia.
      try rewrite Z1; try rewrite Z2.
      unfold offM in *. rewrite (Nat.min_r p a), (Nat.max_l p a) in Z1 by lia.
      rewrite ?(Nat.min_l a p), ?(Nat.max_r a p) by lia.
      rewrite ?(Nat.min_r p a), ?(Nat.max_l p a) by lia.
      rewrite ?(Nat.min_comm a q), ?(Nat.max_comm a q). rewrite ?Z1, ?Z2. ring. }
    destruct (Nat.eqb_spec b q) as [->|Nbq].
    { rewrite !offM_clear by (auto; lia).
      destruct (paired_other (j_sig st) p q a HP Hpq E) as [Z1 Z2]; try lia.
      unfold offM in *. 
      rewrite (Nat.min_comm a p), (Nat.max_comm a p), (Nat.min_comm a q), (Nat.max_comm a q).
      rewrite Z1, Z2.
      destruct (Nat.lt_ge_cases a q); [|lia].
      rewrite (Nat.min_r q a), (Nat.max_l q a) in Z2 by lia. rewrite Z2. ring. }
    destruct (Nat.eqb_spec a q) as [->|Naq].
    { rewrite !offM_clear by (auto; lia).
      destruct (paired_other (j_sig st) p q b HP Hpq E) as [Z1 Z2]; try lia.
      rewrite Z1, Z2. unfold offM in Z2. rewrite (Nat.min_l q b), (Nat.max_r q b) in Z2 by lia.
      rewrite Z2. ring. }
    rewrite offM_clear by (auto; lia). unfold offM.
    rewrite Nat.min_l, Nat.max_r by lia. reflexivity.
Qed.

Lemma pair_fewer : forall n thr st p q, pairedU (j_sig st) -> is_pair p q -> 0 <= thr ->
  fewer (j_sig st) (j_sig (jacobi_pair n thr st (p, q))) /\
  (thr = 0 -> j_sig (jacobi_pair n thr st (p, q)) p q = 0).
Proof.
  intros n thr st p q HP Hpq Ht. unfold jacobi_pair.
  destruct (Nat.ltb 3 n && _ && _).
  - cbn [j_sig]. split.
    + intros a b _. unfold upd2. destruct (Nat.eqb a p && Nat.eqb b q); [right|left]; reflexivity.
    + intros _. unfold upd2. rewrite !Nat.eqb_refl. reflexivity.
  - destruct (Rlt_dec _ _) as [L|L].
    + assert (E : j_sig st p q <> 0) by (intros Z; rewrite Z, Rabs_R0 in L; lra).
      destruct (rotate_fewer (jacobi_t (j_val st) (j_sig st p q) (100 * Rabs (j_sig st p q)) p q) p q st HP Hpq E).
      split; [assumption|intros _; assumption].
    + split; [apply fewer_refl|]. intros ->. pose proof (Rabs_pos (j_sig st p q)).
      destruct (Req_EM_T (j_sig st p q) 0) as [Z|Z]; [exact Z|]. apply Rabs_no_R0 in Z. lra.
Qed.

Lemma fold_fewer : forall n thr l st, pairedU (j_sig st) -> 0 <= thr ->
  (forall pq, In pq l -> In pq pairs6) ->
  fewer (j_sig st) (j_sig (fold_left (jacobi_pair n thr) l st)) /\
  (thr = 0 -> forall p q, In (p, q) l -> j_sig (fold_left (jacobi_pair n thr) l st) p q = 0).
Proof.
  intros n thr l. induction l as [|[p q] l IH]; intros st HP Ht Hl.
  - split; [apply fewer_refl|intros _ p q []].
  - cbn [fold_left].
    assert (Hpq : is_pair p q) by (apply pairs6_is_pair, Hl; left; reflexivity).
    destruct (pair_fewer n thr st p q HP Hpq Ht) as [F Z].
    destruct (IH (jacobi_pair n thr st (p, q)) (fewer_paired _ _ F HP) Ht) as [F2 Z2].
    { intros pq H. apply Hl. right. exact H. }
    split; [eapply fewer_trans; [exact F|exact F2]|].
    intros E a b [H|H].
    + injection H as <- <-. apply (fewer_zero _ _ _ _ F2 Hpq). apply Z, E.
    + apply Z2; assumption.
Qed.

Lemma off_sum_of_zero : forall s, (forall p q, In (p, q) pairs6 -> s p q = 0) -> off_sum s = 0.
Proof.
  intros s H. unfold off_sum. rewrite off_sum_fold.
  assert (G : forall l, (forall x, In x l -> In x pairs6) ->
    fold_right Rplus 0 (map (fun pq : nat * nat => Rabs (s (fst pq) (snd pq))) l) = 0).
  { intros l. induction l as [|[p q] l IH]; intros Hl; cbn [map fold_right fst snd]; [reflexivity|].
    rewrite IH by (intros; apply Hl; right; assumption).
    rewrite H by (apply Hl; left; reflexivity). rewrite Rabs_R0. ring. }
  rewrite G by auto. ring.
Qed.

Transparent jacobi_sweep.
Lemma sweep_fewer : forall n sm st, pairedU (j_sig st) -> 0 <= sm ->
  fewer (j_sig st) (j_sig (jacobi_sweep n sm st)) /\
  ((3 <= n)%nat -> off_sum (j_sig (jacobi_sweep n sm st)) = 0).
Proof.
  intros n sm st HP Hs. unfold jacobi_sweep.
  set (thr := if Nat.ltb n 3 then 2 / 10 * sm / 36 else 0).
  assert (Ht : 0 <= thr) by (unfold thr; destruct (Nat.ltb n 3); lra).
  pose proof (fold_fewer n thr pairs6 st HP Ht (fun _ H => H)) as [F Z].
  set (st1 := fold_left (jacobi_pair n thr) pairs6 st) in *. clearbody st1. cbn [j_sig].
  split; [exact F|]. intros Hn. apply off_sum_of_zero. apply Z. unfold thr.
  destruct (Nat.ltb_spec n 3); [lia|reflexivity].
Qed.
Opaque jacobi_sweep.

Lemma loop_returns : forall left n st, pairedU (j_sig st) -> (3 <= n + left)%nat -> 
  exists l v, jacobi_loop (S (S left)) n st = Ok (l, v).
Proof.
  induction left as [|left IH]; intros n st HP Hn.
  - cbn [jacobi_loop]. destruct (Req_EM_T (off_sum (j_sig st)) 0); [eauto|].
    destruct (sweep_fewer n (off_sum (j_sig st)) st HP (off_sum_nonneg _)) as [_ Z].
    rewrite Z by lia. destruct (Req_EM_T 0 0); [eauto|lra].
  - cbn [jacobi_loop]. destruct (Req_EM_T (off_sum (j_sig st)) 0); [eauto|].
    destruct (sweep_fewer n (off_sum (j_sig st)) st HP (off_sum_nonneg _)) as [F _].
    apply (IH (S n)); [|lia]. exact (fewer_paired _ _ F HP).
Qed.

Lemma loop_extra : forall left extra n st l v, jacobi_loop left n st = Ok (l, v) ->
  jacobi_loop (left + extra) n st = Ok (l, v).
Proof.
  induction left as [|left IH]; intros extra n st l v H; [discriminate|].
  cbn [Nat.add jacobi_loop] in *. destruct (Req_EM_T _ _); [exact H|]. apply IH, H.
Qed.

Lemma solver_returns : forall s, paired6 (from_upper s) ->
  exists l v, jacobi_loop 5 0 (jacobi_init s) = Ok (l, v) /\ jacobi_eigen_solver6d s = Ok (l, v).
Proof.
  intros s HP. destruct (loop_returns 3 0 (jacobi_init s)) as (l & v & E); [exact HP|lia|].
  exists l, v. split; [exact E|]. exact (loop_extra 5 45 0 (jacobi_init s) l v E).
Qed.

(** The solver reads the diagonal and the cells above it. *)
Lemma jinv_init_upper : forall s, jinv (from_upper s) (jacobi_init s).
Proof.
  intros s.
  assert (Hm : forall i j, jmat (jacobi_init s) i j = from_upper s i j).
  { intros i j. unfold jmat, symm, from_upper. cbn [jacobi_init j_sig j_val].
    destruct (Nat.eqb_spec i j) as [->|]; [rewrite Nat.min_id, Nat.max_id|]; reflexivity. }
  assert (Hs : symmetric6 (from_upper s)).
  { intros i j _ _. unfold from_upper. rewrite Nat.min_comm, Nat.max_comm. reflexivity. }
  destruct (jinv_init (from_upper s) Hs) as [I1 I2 I3 I4]. split.
  - intros i j Hi Hj. etransitivity; [exact (I1 i j Hi Hj)|]. apply sum6_ext. intros k _.
    rewrite (Hm k j). unfold jmat, symm, from_upper. cbn [jacobi_init j_sig j_val j_vec].
    destruct (Nat.eqb_spec k j) as [->|]; [rewrite Nat.min_id, Nat.max_id|]; [reflexivity|].
    rewrite (Nat.min_l (Nat.min k j)), (Nat.max_r (Nat.min k j)) by lia. reflexivity.
  - exact I2.
  - rewrite <- I3. apply sum6_ext. intros k _. unfold from_upper. cbn [jacobi_init j_val].
    rewrite Nat.min_id, Nat.max_id. reflexivity.
  - intros i Hi. cbn [jacobi_init j_val j_b j_z]. ring.
Qed.

Lemma solver_upper : forall s l v, psd6 (from_upper s) ->
  jacobi_eigen_solver6d s = Ok (l, v) -> eigen_decomposition (from_upper s) l v.
Proof.
  intros s l v Hp H.
  exact (jacobi_loop_correct (from_upper s) 50 0 (jacobi_init s) l v Hp (jinv_init_upper s) H).
Qed.

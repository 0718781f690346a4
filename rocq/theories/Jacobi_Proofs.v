From Coq Require Import List Reals Lra Lia Psatz Bool Arith ZArith.
From Verif Require Import PyBase Stats_Model Stats_Spec.
Import ListNotations.
Open Scope R_scope.

(** The symmetric matrix held in the upper triangle of sigma and in eVals. *)
Definition symm (sg : mat) (d : vec) : mat :=
  fun i j => if Nat.eqb i j then d i else sg (Nat.min i j) (Nat.max i j).

Definition is_pair (p q : nat) : Prop := (p < q)%nat /\ (q < 6)%nat.

Lemma pairs6_is_pair : forall p q, In (p, q) pairs6 -> is_pair p q.
Proof.
  intros p q H. unfold pairs6 in H. cbn in H. unfold is_pair.
  repeat (destruct H as [H|H]; [inversion H; subst; lia|]). destruct H.
Qed.

Ltac six i H := destruct i as [|[|[|[|[|[|i]]]]]]; [clear H|clear H|clear H|clear H|clear H|clear H|exfalso; lia].

Definition offM (m : mat) (i j : nat) : R := m (Nat.min i j) (Nat.max i j).

Definition rot_spec (c s : R) (p q : nat) (m : mat) (i j : nat) : R :=
  if Nat.eqb j p then c * offM m i p - s * offM m i q
  else if Nat.eqb j q then s * offM m i p + c * offM m i q
  else if Nat.eqb i p then c * offM m p j - s * offM m q j
  else if Nat.eqb i q then s * offM m p j + c * offM m q j
  else offM m i j.

Lemma rotate_sigma_spec : forall s tau c p q m i j,
  c = 1 - s * tau -> is_pair p q -> (i < 6)%nat -> (j < 6)%nat -> i <> j ->
  ~ (i = p /\ j = q) -> ~ (i = q /\ j = p) ->
  rotate_sigma s tau p q m (Nat.min i j) (Nat.max i j) = rot_spec c s p q m i j.
Proof.
  intros s tau c p q m i j Hc [Hp Hq] Hi Hj Hij H1 H2. subst c.
  assert (Hp6 : (p < 6)%nat) by lia.
  six q Hq; six p Hp6; try (exfalso; lia); six i Hi; six j Hj; try (exfalso; lia);
  unfold rot_spec, offM, rotate_sigma, rot2, upd2; cbn; ring.
Qed.

Lemma rotate_sigma_pq : forall s tau p q m,
  is_pair p q -> rotate_sigma s tau p q m p q = m p q.
Proof.
  intros s tau p q m [Hp Hq]. assert (Hp6 : (p < 6)%nat) by lia.
  six q Hq; six p Hp6; try (exfalso; lia); reflexivity.
Qed.

Lemma rotate_vecs_spec : forall s tau c p q m i j,
  c = 1 - s * tau -> is_pair p q -> (i < 6)%nat -> (j < 6)%nat ->
  rotate_vecs s tau p q m i j =
    if Nat.eqb j p then c * m i p - s * m i q
    else if Nat.eqb j q then s * m i p + c * m i q
    else m i j.
Proof.
  intros s tau c p q m i j Hc [Hp Hq] Hi Hj. subst c.
  assert (Hp6 : (p < 6)%nat) by lia.
  six q Hq; six p Hp6; try (exfalso; lia); six i Hi; six j Hj;
  unfold rotate_vecs, rot2, upd2; cbn; ring.
Qed.

(* ---------- sums over six indices ---------- *)

Lemma sum6_ext : forall f g, (forall k, (k < 6)%nat -> f k = g k) -> sum6 f = sum6 g.
Proof. intros f g H. unfold sum6. rewrite !H by lia. reflexivity. Qed.

Lemma sum6_lin : forall a b f g, sum6 (fun k => a * f k + b * g k) = a * sum6 f + b * sum6 g.
Proof. intros. unfold sum6. ring. Qed.

Definition rest (p q : nat) (f : nat -> R) : R :=
  sum6 (fun k => if Nat.eqb k p || Nat.eqb k q then 0 else f k).

Lemma sum6_split : forall p q f, is_pair p q -> sum6 f = f p + f q + rest p q f.
Proof.
  intros p q f [Hp Hq]. assert (Hp6 : (p < 6)%nat) by lia.
  six q Hq; six p Hp6; try (exfalso; lia); unfold rest, sum6; cbn; ring.
Qed.

Lemma rest_ext : forall p q f g,
  (forall k, (k < 6)%nat -> k <> p -> k <> q -> f k = g k) -> rest p q f = rest p q g.
Proof.
  intros p q f g H. unfold rest. apply sum6_ext. intros k Hk.
  destruct (Nat.eqb k p) eqn:E1; [reflexivity|]. destruct (Nat.eqb k q) eqn:E2; [reflexivity|].
  cbn. apply H; [exact Hk| |]; apply Nat.eqb_neq; assumption.
Qed.

Lemma rest_lin : forall p q a b f g, rest p q (fun k => a * f k + b * g k) = a * rest p q f + b * rest p q g.
Proof.
  intros. unfold rest. rewrite <- sum6_lin. apply sum6_ext. intros k _.
  destruct (Nat.eqb k p || Nat.eqb k q); ring.
Qed.

Lemma sum6_delta : forall i f, (i < 6)%nat -> sum6 (fun k => (if Nat.eqb i k then 1 else 0) * f k) = f i.
Proof. intros i f Hi. six i Hi; unfold sum6; cbn; ring. Qed.

(* ---------- the rotation angle ---------- *)

Lemma jacobi_t_eq : forall d spq p q,
  spq <> 0 ->
  let t := jacobi_t d spq (100 * Rabs spq) p q in
  t * (d q - d p) = spq * (1 - t ^ 2).
Proof.
  intros d spq p q Hs t.
  assert (Ha : 0 < Rabs spq) by (apply Rabs_pos_lt; exact Hs).
  unfold t, jacobi_t. clear t. set (h := d q - d p).
  destruct (Req_EM_T _ _) as [E|_]; [lra|].
  set (th := 1 / 2 * h / spq).
  assert (Hth : h = 2 * th * spq) by (unfold th; field; exact Hs).
  assert (Hr : 0 < sqrt (1 + th ^ 2)) by (apply sqrt_lt_R0; pose proof (pow2_ge_0 th); lra).
  assert (Hr2 : sqrt (1 + th ^ 2) ^ 2 = 1 + th ^ 2) by (apply pow2_sqrt; pose proof (pow2_ge_0 th); lra).
  pose proof (Rabs_pos th) as Hp.
  set (r := sqrt (1 + th ^ 2)) in *.
  assert (Hd : Rabs th + r <> 0) by lra.
  rewrite Hth.
  destruct (Rlt_dec th 0) as [Hn|Hn].
  - rewrite (Rabs_left th Hn) in *. set (t := 1 / (- th + r)).
    assert (Ht : t * (r - th) = 1) by (unfold t; field; lra).
    assert (Ht2 : t ^ 2 - 2 * th * t = 1).
    { assert (E : (t * (r - th)) ^ 2 = 1) by (rewrite Ht; ring).
      assert (E2 : t * t * (r ^ 2 - th ^ 2) = t * (r - th) * (t * (r + th))) by ring.
      rewrite Hr2, Ht in E2. assert (E3 : t * r = 1 + t * th) by lra.
      replace (t * (r + th)) with (t * r + t * th) in E2 by ring. rewrite E3 in E2. lra. }
    replace (t * -1 * (2 * th * spq)) with (spq * (- (2 * th * t))) by ring.
    f_equal. replace ((t * -1) ^ 2) with (t ^ 2) by ring. lra.
  - rewrite (Rabs_right th) in * by lra. set (t := 1 / (th + r)).
    assert (Ht : t * (r + th) = 1) by (unfold t; field; lra).
    assert (Ht2 : t ^ 2 + 2 * th * t = 1).
    { assert (E2 : t * t * (r ^ 2 - th ^ 2) = t * (r + th) * (t * (r - th))) by ring.
      rewrite Hr2, Ht in E2. assert (E3 : t * r = 1 - t * th) by lra.
      replace (t * (r - th)) with (t * r - t * th) in E2 by ring. rewrite E3 in E2. lra. }
    replace (t * (2 * th * spq)) with (spq * (2 * th * t)) by ring. f_equal. lra.
Qed.

Lemma cs_facts : forall t,
  let c := 1 / sqrt (1 + t ^ 2) in let s := t * c in let tau := s / (1 + c) in
  c ^ 2 + s ^ 2 = 1 /\ c = 1 - s * tau.
Proof.
  intros t c s tau.
  assert (Hr : 0 < sqrt (1 + t ^ 2)) by (apply sqrt_lt_R0; pose proof (pow2_ge_0 t); lra).
  assert (Hr2 : sqrt (1 + t ^ 2) ^ 2 = 1 + t ^ 2) by (apply pow2_sqrt; pose proof (pow2_ge_0 t); lra).
  assert (Hc : 0 < c) by (apply Rdiv_lt_0_compat; lra).
  assert (Hc2 : c ^ 2 * (1 + t ^ 2) = 1).
  { rewrite <- Hr2. unfold c. field. lra. }
  assert (H1 : c ^ 2 + s ^ 2 = 1) by (unfold s; replace (c ^ 2 + (t * c) ^ 2) with (c ^ 2 * (1 + t ^ 2)) by ring; exact Hc2).
  split; [exact H1|].
  unfold tau. apply Rmult_eq_reg_r with (1 + c); [|lra].
  replace ((1 - s * (s / (1 + c))) * (1 + c)) with (1 + c - s ^ 2) by (field; lra).
  replace (s ^ 2) with (1 - c ^ 2) by lra. ring.
Qed.

(* ---------- invariant ---------- *)

Definition jmat (st : jst) : mat := symm (j_sig st) (j_val st).

Record jinv (S : mat) (st : jst) : Prop := {
  ji_sim : forall i j, (i < 6)%nat -> (j < 6)%nat ->
     sum6 (fun k => S i k * j_vec st k j) = sum6 (fun k => j_vec st i k * jmat st k j);
  ji_orth : orthonormal_columns (j_vec st);
  ji_trace : sum6 (j_val st) = sum6 (fun i => S i i);
  ji_bz : forall i, (i < 6)%nat -> j_val st i = j_b st i + j_z st i
}.

Lemma jmat_sym : forall st i j, jmat st i j = jmat st j i.
Proof.
  intros st i j. unfold jmat, symm. rewrite (Nat.eqb_sym j i).
  destruct (Nat.eqb i j) eqn:E; [apply Nat.eqb_eq in E; subst; reflexivity|].
  rewrite Nat.min_comm, Nat.max_comm. reflexivity.
Qed.

Lemma jinv_init : forall S, symmetric6 S -> jinv S (jacobi_init S).
Proof.
  intros S Hs. split.
  - intros i j Hi Hj. cbn [jacobi_init j_vec]. 
    rewrite (sum6_delta i (fun k => jmat (jacobi_init S) k j)) by exact Hi.
    rewrite (sum6_ext _ (fun k => (if Nat.eqb j k then 1 else 0) * S i k)).
    2:{ intros k _. rewrite (Nat.eqb_sym k j). ring. }
    rewrite (sum6_delta j (fun k => S i k)) by exact Hj.
    unfold jmat, symm. cbn [jacobi_init j_sig j_val].
    destruct (Nat.eqb i j) eqn:E; [apply Nat.eqb_eq in E; subst; reflexivity|].
    destruct (le_lt_dec i j).
    + rewrite Nat.min_l, Nat.max_r by lia. reflexivity.
    + rewrite Nat.min_r, Nat.max_l by lia. apply Hs; assumption.
  - intros i j Hi Hj. cbn [jacobi_init j_vec].
    rewrite (sum6_ext _ (fun k => (if Nat.eqb i k then 1 else 0) * (if Nat.eqb k j then 1 else 0))).
    2:{ intros k _. rewrite (Nat.eqb_sym k i). ring. }
    rewrite (sum6_delta i (fun k => if Nat.eqb k j then 1 else 0)) by exact Hi. reflexivity.
  - reflexivity.
  - intros i _. cbn. ring.
Qed.

(** Entries of the matrix after a rotation. *)
Lemma jmat_rotate : forall t p q st, is_pair p q ->
  let c := 1 / sqrt (1 + t ^ 2) in let s := t * c in
  let st' := jacobi_rotate t p q st in
  (forall k l, (k < 6)%nat -> (l < 6)%nat -> k <> p -> k <> q -> l <> p -> l <> q -> jmat st' k l = jmat st k l) /\
  (forall k, (k < 6)%nat -> k <> p -> k <> q -> jmat st' k p = c * jmat st k p - s * jmat st k q) /\
  (forall k, (k < 6)%nat -> k <> p -> k <> q -> jmat st' k q = s * jmat st k p + c * jmat st k q) /\
  jmat st' p q = 0 /\ jmat st' p p = jmat st p p - t * jmat st p q /\
  jmat st' q q = jmat st q q + t * jmat st p q.
Proof.
  intros t p q st Hpq c s st'. pose proof Hpq as [Hp Hq].
  destruct (cs_facts t) as [_ Htau]. fold c in Htau. fold s in Htau.
  assert (Hsig : j_sig st' = rotate_sigma s (s / (1 + c)) p q (upd2 (j_sig st) p q 0)) by reflexivity.
  assert (Hoff : forall a b, a <> b -> ~ (a = p /\ b = q) -> ~ (a = q /\ b = p) ->
     offM (upd2 (j_sig st) p q 0) a b = jmat st a b).
  { intros a b Hab H1 H2. unfold offM, upd2, jmat, symm.
    apply Nat.eqb_neq in Hab as Hab'. rewrite Hab'.
    destruct (Nat.eqb (Nat.min a b) p) eqn:E1; [|reflexivity].
    destruct (Nat.eqb (Nat.max a b) q) eqn:E2; [|reflexivity].
    apply Nat.eqb_eq in E1, E2. exfalso. lia. }
  assert (Hpqv : jmat st p q = j_sig st p q).
  { unfold jmat, symm. destruct (Nat.eqb_spec p q); [lia|]. rewrite Nat.min_l, Nat.max_r by lia. reflexivity. }
  assert (Hgen : forall a b, (a < 6)%nat -> (b < 6)%nat -> a <> b -> ~ (a = p /\ b = q) -> ~ (a = q /\ b = p) ->
     jmat st' a b = rot_spec c s p q (upd2 (j_sig st) p q 0) a b).
  { intros a b Ha Hb Hab H1 H2. unfold jmat, symm. apply Nat.eqb_neq in Hab as Hab'. rewrite Hab', Hsig.
    apply rotate_sigma_spec; assumption. }
  split; [|split; [|split; [|split; [|split]]]].
  - intros k l Hk Hl K1 K2 L1 L2.
    destruct (Nat.eq_dec k l) as [->|Hkl].
    + unfold jmat, symm. rewrite Nat.eqb_refl. cbn [st' jacobi_rotate j_val]. unfold upd1.
      apply Nat.eqb_neq in L1, L2. rewrite L2, L1. reflexivity.
    + rewrite Hgen by (try assumption; lia). unfold rot_spec.
      apply Nat.eqb_neq in L1 as L1', L2 as L2', K1 as K1', K2 as K2'. rewrite L1', L2', K1', K2'.
      apply Hoff; lia.
  - intros k Hk K1 K2. rewrite Hgen by (try assumption; lia). unfold rot_spec.
    rewrite Nat.eqb_refl. rewrite !Hoff by lia. reflexivity.
  - intros k Hk K1 K2. rewrite Hgen by (try assumption; lia). unfold rot_spec.
    destruct (Nat.eqb_spec q p); [lia|]. rewrite Nat.eqb_refl. rewrite !Hoff by lia. reflexivity.
  - unfold jmat, symm. destruct (Nat.eqb_spec p q); [lia|]. rewrite Hsig.
    rewrite Nat.min_l, Nat.max_r by lia. rewrite rotate_sigma_pq by exact Hpq.
    unfold upd2. rewrite !Nat.eqb_refl. reflexivity.
  - rewrite Hpqv. unfold jmat, symm. rewrite Nat.eqb_refl. cbn [st' jacobi_rotate j_val]. unfold upd1.
    destruct (Nat.eqb_spec p q); [lia|]. rewrite Nat.eqb_refl. reflexivity.
  - rewrite Hpqv. unfold jmat, symm. rewrite !Nat.eqb_refl. cbn [st' jacobi_rotate j_val]. unfold upd1.
    rewrite Nat.eqb_refl. destruct (Nat.eqb_spec q p); [lia|]. reflexivity.
Qed.

Lemma jinv_rotate : forall S st p q t, jinv S st -> is_pair p q ->
  t * (j_val st q - j_val st p) = j_sig st p q * (1 - t ^ 2) ->
  jinv S (jacobi_rotate t p q st).
Proof.
  intros S st p q t HI Hpq Ht. pose proof Hpq as [Hp Hq].
  destruct (jmat_rotate t p q st Hpq) as (R1 & R2 & R3 & R4 & R5 & R6).
  destruct (cs_facts t) as [Hcs Htau].
  set (c := 1 / sqrt (1 + t ^ 2)) in *. set (s := t * c) in *.
  set (st' := jacobi_rotate t p q st) in *.
  assert (Hpqv : jmat st p q = j_sig st p q).
  { unfold jmat, symm. destruct (Nat.eqb_spec p q); [lia|]. rewrite Nat.min_l, Nat.max_r by lia. reflexivity. }
  assert (Hppv : jmat st p p = j_val st p) by (unfold jmat, symm; rewrite Nat.eqb_refl; reflexivity).
  assert (Hqqv : jmat st q q = j_val st q) by (unfold jmat, symm; rewrite Nat.eqb_refl; reflexivity).
  rewrite <- Hppv, <- Hqqv, <- Hpqv in Ht.
  assert (Vp : forall i, (i < 6)%nat -> j_vec st' i p = c * j_vec st i p - s * j_vec st i q).
  { intros i Hi. cbn [st' jacobi_rotate j_vec]. fold c s.
    rewrite (rotate_vecs_spec s _ c) by (try assumption; lia). rewrite Nat.eqb_refl. reflexivity. }
  assert (Vq : forall i, (i < 6)%nat -> j_vec st' i q = s * j_vec st i p + c * j_vec st i q).
  { intros i Hi. cbn [st' jacobi_rotate j_vec]. fold c s.
    rewrite (rotate_vecs_spec s _ c) by (try assumption; lia).
    destruct (Nat.eqb_spec q p); [lia|]. rewrite Nat.eqb_refl. reflexivity. }
  assert (Vo : forall i k, (i < 6)%nat -> (k < 6)%nat -> k <> p -> k <> q -> j_vec st' i k = j_vec st i k).
  { intros i k Hi Hk K1 K2. cbn [st' jacobi_rotate j_vec]. fold c s.
    rewrite (rotate_vecs_spec s _ c) by (try assumption; lia).
    apply Nat.eqb_neq in K1, K2. rewrite K1, K2. reflexivity. }
  destruct HI as [I1 I2 I3 I4].
  split.
  - intros i j Hi Hj.
    destruct (Nat.eq_dec j p) as [->|Jp]; [|destruct (Nat.eq_dec j q) as [->|Jq]].
    + rewrite (sum6_ext _ (fun k => c * (S i k * j_vec st k p) + (- s) * (S i k * j_vec st k q))).
      2:{ intros k Hk. rewrite Vp by exact Hk. ring. }
      rewrite sum6_lin, !I1 by lia.
      rewrite (sum6_split p q (fun k => j_vec st' i k * jmat st' k p)) by exact Hpq.
      rewrite (sum6_split p q (fun k => j_vec st i k * jmat st k p)) by exact Hpq.
      rewrite (sum6_split p q (fun k => j_vec st i k * jmat st k q)) by exact Hpq.
      rewrite (rest_ext p q (fun k => j_vec st' i k * jmat st' k p)
                 (fun k => c * (j_vec st i k * jmat st k p) + (- s) * (j_vec st i k * jmat st k q))).
      2:{ intros k Hk K1 K2. rewrite Vo, R2 by assumption. ring. }
      rewrite rest_lin, Vp, Vq, R5 by exact Hi. rewrite (jmat_sym st' q p), R4.
      rewrite (jmat_sym st q p).
      set (a := j_vec st i p). set (b := j_vec st i q).
      set (mpp := jmat st p p) in *. set (mqq := jmat st q q) in *. set (m := jmat st p q) in *.
      assert (E : c * (a * mpp + b * m) + - s * (a * m + b * mqq) =
                  (c * a - s * b) * (mpp - t * m)).
      { assert (E1 : c * m - s * mqq + s * mpp - t * s * m = 0).
        { replace (c * m - s * mqq + s * mpp - t * s * m)
            with (c * (m * (1 - t ^ 2) - t * (mqq - mpp))) by (unfold s; ring).
          rewrite Ht. ring. }
        assert (E2 : s * m = t * c * m) by (unfold s; ring).
        replace (c * (a * mpp + b * m) + - s * (a * m + b * mqq)) with
           (c * a * mpp - a * (s * m) + b * (c * m - s * mqq)) by ring.
        replace (c * m - s * mqq) with (t * s * m - s * mpp) by lra.
        rewrite E2. ring. }
      replace ((s * a + c * b) * 0) with 0 by ring. lra.
    + rewrite (sum6_ext _ (fun k => s * (S i k * j_vec st k p) + c * (S i k * j_vec st k q))).
      2:{ intros k Hk. rewrite Vq by exact Hk. ring. }
      rewrite sum6_lin, !I1 by lia.
      rewrite (sum6_split p q (fun k => j_vec st' i k * jmat st' k q)) by exact Hpq.
      rewrite (sum6_split p q (fun k => j_vec st i k * jmat st k p)) by exact Hpq.
      rewrite (sum6_split p q (fun k => j_vec st i k * jmat st k q)) by exact Hpq.
      rewrite (rest_ext p q (fun k => j_vec st' i k * jmat st' k q)
                 (fun k => s * (j_vec st i k * jmat st k p) + c * (j_vec st i k * jmat st k q))).
      2:{ intros k Hk K1 K2. rewrite Vo, R3 by assumption. ring. }
      rewrite rest_lin, Vp, Vq, R6, R4 by exact Hi.
      rewrite (jmat_sym st q p).
      set (a := j_vec st i p). set (b := j_vec st i q).
      set (mpp := jmat st p p) in *. set (mqq := jmat st q q) in *. set (m := jmat st p q) in *.
      assert (E : s * (a * mpp + b * m) + c * (a * m + b * mqq) =
                  (s * a + c * b) * (mqq + t * m)).
      { assert (E1 : c * m - s * mqq + s * mpp - t * s * m = 0).
        { replace (c * m - s * mqq + s * mpp - t * s * m)
            with (c * (m * (1 - t ^ 2) - t * (mqq - mpp))) by (unfold s; ring).
          rewrite Ht. ring. }
        assert (E2 : s * m = t * c * m) by (unfold s; ring).
        replace (s * (a * mpp + b * m) + c * (a * m + b * mqq)) with
           (a * (s * mpp + c * m) + b * (s * m) + c * b * mqq) by ring.
        replace (s * mpp + c * m) with (s * mqq + t * s * m) by lra.
        rewrite E2. ring. }
      replace ((c * a - s * b) * 0) with 0 by ring. lra.
    + rewrite (sum6_ext _ (fun k => S i k * j_vec st k j)).
      2:{ intros k Hk. rewrite Vo by assumption. reflexivity. }
      rewrite I1 by assumption.
      rewrite (sum6_split p q (fun k => j_vec st' i k * jmat st' k j)) by exact Hpq.
      rewrite (sum6_split p q (fun k => j_vec st i k * jmat st k j)) by exact Hpq.
      rewrite (rest_ext p q (fun k => j_vec st' i k * jmat st' k j) (fun k => j_vec st i k * jmat st k j)).
      2:{ intros k Hk K1 K2. rewrite Vo, R1 by assumption. reflexivity. }
      rewrite Vp, Vq by exact Hi. rewrite (jmat_sym st' p j), (jmat_sym st' q j), R2, R3 by assumption.
      rewrite (jmat_sym st p j), (jmat_sym st q j).
      set (a := j_vec st i p). set (b := j_vec st i q).
      set (x := jmat st j p). set (y := jmat st j q).
      replace ((c * a - s * b) * (c * x - s * y) + (s * a + c * b) * (s * x + c * y))
        with ((c ^ 2 + s ^ 2) * (a * x + b * y)) by ring.
      rewrite Hcs. ring.
  - intros i j Hi Hj.
    assert (D : forall a b, (a < 6)%nat -> (b < 6)%nat -> sum6 (fun k => j_vec st k a * j_vec st k b) = (if Nat.eqb a b then 1 else 0)) by exact I2.
    assert (Bil : forall a1 b1 a2 b2 f1 g1 f2 g2,
      sum6 (fun k => (a1 * f1 k + b1 * g1 k) * (a2 * f2 k + b2 * g2 k)) =
      a1 * a2 * sum6 (fun k => f1 k * f2 k) + a1 * b2 * sum6 (fun k => f1 k * g2 k) +
      b1 * a2 * sum6 (fun k => g1 k * f2 k) + b1 * b2 * sum6 (fun k => g1 k * g2 k)).
    { intros. unfold sum6. ring. }
    assert (Hcol : forall a, (a < 6)%nat -> exists ca cb k1 k2, (k1 < 6)%nat /\ (k2 < 6)%nat /\
       (forall k, (k < 6)%nat -> j_vec st' k a = ca * j_vec st k k1 + cb * j_vec st k k2) /\
       ((a = p /\ ca = c /\ cb = - s /\ k1 = p /\ k2 = q) \/
        (a = q /\ ca = s /\ cb = c /\ k1 = p /\ k2 = q) \/
        (a <> p /\ a <> q /\ ca = 1 /\ cb = 0 /\ k1 = a /\ k2 = a))).
    { intros a Ha. destruct (Nat.eq_dec a p) as [->|Ap]; [|destruct (Nat.eq_dec a q) as [->|Aq]].
      - exists c, (- s), p, q. repeat split; try lia; [|left; auto]. intros k Hk. rewrite Vp by exact Hk. ring.
      - exists s, c, p, q. repeat split; try lia; [|right; left; auto]. intros k Hk. rewrite Vq by exact Hk. ring.
      - exists 1, 0, a, a. repeat split; try lia; [|right; right; auto 10]. intros k Hk. rewrite Vo by assumption. ring. }
    destruct (Hcol i Hi) as (a1 & b1 & k1 & k2 & Hk1 & Hk2 & HV1 & Hc1).
    destruct (Hcol j Hj) as (a2 & b2 & l1 & l2 & Hl1 & Hl2 & HV2 & Hc2).
    rewrite (sum6_ext _ (fun k => (a1 * j_vec st k k1 + b1 * j_vec st k k2) * (a2 * j_vec st k l1 + b2 * j_vec st k l2))).
    2:{ intros k Hk. rewrite HV1, HV2 by exact Hk. reflexivity. }
    rewrite Bil, !D by assumption.
    assert (Hpq' : Nat.eqb p q = false) by (apply Nat.eqb_neq; lia).
    assert (Hqp' : Nat.eqb q p = false) by (apply Nat.eqb_neq; lia).
    destruct Hc1 as [(-> & -> & -> & -> & ->)|[(-> & -> & -> & -> & ->)|(N1 & N2 & -> & -> & -> & ->)]];
    destruct Hc2 as [(-> & -> & -> & -> & ->)|[(-> & -> & -> & -> & ->)|(N3 & N4 & -> & -> & -> & ->)]];
    rewrite ?Nat.eqb_refl, ?Hpq', ?Hqp';
    repeat match goal with
    | H : ?a <> ?b |- context[Nat.eqb ?a ?b] => rewrite (proj2 (Nat.eqb_neq a b) H)
    | H : ?a <> ?b |- context[Nat.eqb ?b ?a] => rewrite (proj2 (Nat.eqb_neq b a) (not_eq_sym H))
    end; try ring; lra.
  - rewrite <- I3.
    rewrite (sum6_split p q (j_val st')) by exact Hpq. rewrite (sum6_split p q (j_val st)) by exact Hpq.
    rewrite (rest_ext p q (j_val st') (j_val st)).
    2:{ intros k Hk K1 K2. cbn [st' jacobi_rotate j_val]. unfold upd1. apply Nat.eqb_neq in K1, K2. rewrite K1, K2. reflexivity. }
    assert (E1 : j_val st' p = jmat st' p p) by (unfold jmat, symm; rewrite Nat.eqb_refl; reflexivity).
    assert (E2 : j_val st' q = jmat st' q q) by (unfold jmat, symm; rewrite Nat.eqb_refl; reflexivity).
    rewrite E1, E2, R5, R6, Hppv, Hqqv. ring.
  - intros i Hi. cbn [st' jacobi_rotate j_val j_b j_z]. unfold upd1.
    rewrite (proj2 (Nat.eqb_neq q p)) by lia.
    destruct (Nat.eqb i q) eqn:E1; [apply Nat.eqb_eq in E1; subst; rewrite I4 by lia; ring|].
    destruct (Nat.eqb i p) eqn:E2; [apply Nat.eqb_eq in E2; subst; rewrite I4 by lia; ring|].
    apply I4. exact Hi.
Qed.

(** Diagonal entries are Rayleigh quotients. *)
Lemma jinv_rayleigh : forall S st i, jinv S st -> (i < 6)%nat ->
  j_val st i = sum6 (fun k => sum6 (fun l => j_vec st k i * S k l * j_vec st l i)).
Proof.
  intros S st i HI Hi. destruct HI as [I1 I2 _ _].
  rewrite (sum6_ext (fun k => sum6 (fun l => j_vec st k i * S k l * j_vec st l i))
                    (fun k => j_vec st k i * sum6 (fun l => j_vec st k l * jmat st l i))).
  2:{ intros k Hk. rewrite <- I1 by assumption. unfold sum6. ring. }
  assert (Sw : sum6 (fun k => j_vec st k i * sum6 (fun l => j_vec st k l * jmat st l i)) =
     sum6 (fun l => sum6 (fun k => j_vec st k i * j_vec st k l) * jmat st l i)).
  { unfold sum6. ring. }
  rewrite Sw.
  rewrite (sum6_ext _ (fun l => (if Nat.eqb i l then 1 else 0) * jmat st l i)).
  2:{ intros l Hl. rewrite I2 by assumption. reflexivity. }
  rewrite (sum6_delta i (fun l => jmat st l i)) by exact Hi.
  unfold jmat, symm. rewrite Nat.eqb_refl. reflexivity.
Qed.

Lemma jinv_val_nonneg : forall S st i, psd6 S -> jinv S st -> (i < 6)%nat -> 0 <= j_val st i.
Proof.
  intros S st i Hp HI Hi. rewrite (jinv_rayleigh S st i HI Hi).
  apply (Hp (fun k => j_vec st k i)).
Qed.

Lemma jinv_pair : forall S n thr st p q, psd6 S -> 0 <= thr -> jinv S st -> is_pair p q ->
  jinv S (jacobi_pair n thr st (p, q)).
Proof.
  intros S n thr st p q Hpsd Hthr HI Hpq. pose proof Hpq as [Hp Hq].
  unfold jacobi_pair.
  pose proof (jinv_val_nonneg S st p Hpsd HI ltac:(lia)) as Np.
  pose proof (Rabs_pos (j_sig st p q)) as Ng.
  destruct (Nat.ltb 3 n && _ && _) eqn:E.
  - apply andb_true_iff in E. destruct E as [E _]. apply andb_true_iff in E. destruct E as [_ E].
    destruct (Req_EM_T _ _) as [E1|]; [|discriminate].
    rewrite (Rabs_right (j_val st p + 100 * Rabs (j_sig st p q))), (Rabs_right (j_val st p)) in E1 by lra.
    assert (Hz : Rabs (j_sig st p q) = 0) by lra.
    assert (Hz' : j_sig st p q = 0).
    { destruct (Req_EM_T (j_sig st p q) 0) as [Hs|Hs]; [exact Hs|]. apply Rabs_no_R0 in Hs. contradiction. }
    assert (Hsame : forall i j, upd2 (j_sig st) p q 0 i j = j_sig st i j).
    { intros i j. unfold upd2. destruct (Nat.eqb i p) eqn:E2; [|reflexivity].
      destruct (Nat.eqb j q) eqn:E3; [|reflexivity]. apply Nat.eqb_eq in E2, E3. subst. cbn. symmetry. exact Hz'. }
    assert (Hm : forall i j, symm (upd2 (j_sig st) p q 0) (j_val st) i j = jmat st i j).
    { intros i j. unfold jmat, symm. rewrite Hsame. reflexivity. }
    destruct HI as [I1 I2 I3 I4]. split; try assumption.
    intros i j Hi Hj. unfold jmat. cbn [j_vec j_sig j_val]. rewrite I1 by assumption.
    apply sum6_ext. intros k _. rewrite Hm. reflexivity.
  - destruct (Rlt_dec _ _) as [Hl|_]; [|exact HI].
    apply jinv_rotate; [exact HI|exact Hpq|].
    apply jacobi_t_eq. intros Hz. rewrite Hz, Rabs_R0 in Hl. lra.
Qed.

Lemma off_sum_fold : forall s l acc,
  fold_left (fun a pq => a + Rabs (s (fst pq) (snd pq))) l acc =
  acc + fold_right Rplus 0 (map (fun pq : nat * nat => Rabs (s (fst pq) (snd pq))) l).
Proof. intros s l. induction l as [|x l IH]; intros acc; simpl; [ring|]. rewrite IH. ring. Qed.

Lemma fr_nonneg {A} : forall (f : A -> R) l, (forall x, In x l -> 0 <= f x) ->
  0 <= fold_right Rplus 0 (map f l) /\
  (fold_right Rplus 0 (map f l) = 0 -> forall x, In x l -> f x = 0).
Proof.
  intros f l. induction l as [|x l IH]; intros H; simpl; [split; [lra|intros _ x []]|].
  destruct IH as [H1 H2]; [intros; apply H; right; assumption|].
  assert (Hx : 0 <= f x) by (apply H; left; reflexivity).
  split; [lra|]. intros E y [->|Hy]; [lra|]. apply H2; [lra|exact Hy].
Qed.

Lemma off_sum_nonneg : forall s, 0 <= off_sum s.
Proof.
  intros s. unfold off_sum. rewrite off_sum_fold.
  destruct (fr_nonneg (fun pq : nat * nat => Rabs (s (fst pq) (snd pq))) pairs6) as [H _].
  - intros. apply Rabs_pos.
  - lra.
Qed.

Lemma is_pair_pairs6 : forall p q, is_pair p q -> In (p, q) pairs6.
Proof.
  intros p q [Hp Hq]. assert (Hp6 : (p < 6)%nat) by lia.
  six q Hq; six p Hp6; try (exfalso; lia); cbn; tauto.
Qed.

Lemma off_sum_zero : forall s p q, off_sum s = 0 -> is_pair p q -> s p q = 0.
Proof.
  intros s p q H Hpq. unfold off_sum in H. rewrite off_sum_fold in H.
  destruct (fr_nonneg (fun pq : nat * nat => Rabs (s (fst pq) (snd pq))) pairs6) as [_ H2].
  - intros. apply Rabs_pos.
  - specialize (H2 ltac:(lra) (p, q) (is_pair_pairs6 p q Hpq)). cbn in H2.
    destruct (Req_EM_T (s p q) 0) as [Hs|Hs]; [exact Hs|]. apply Rabs_no_R0 in Hs. contradiction.
Qed.

Lemma jinv_fold : forall S n thr l st, psd6 S -> 0 <= thr -> (forall pq, In pq l -> In pq pairs6) ->
  jinv S st -> jinv S (fold_left (jacobi_pair n thr) l st).
Proof.
  intros S n thr l. induction l as [|[p q] l IH]; intros st Hp Ht Hl HI; [exact HI|].
  cbn [fold_left]. apply IH; auto.
  - intros pq H. apply Hl. right. exact H.
  - apply jinv_pair; auto. apply pairs6_is_pair. apply Hl. left. reflexivity.
Qed.

Lemma jinv_sweep : forall S n sm st, psd6 S -> 0 <= sm -> jinv S st -> jinv S (jacobi_sweep n sm st).
Proof.
  intros S n sm st Hp Hs HI. unfold jacobi_sweep.
  set (thr := if Nat.ltb n 3 then 2 / 10 * sm / 36 else 0).
  assert (Ht : 0 <= thr) by (unfold thr; destruct (Nat.ltb n 3); lra).
  pose proof (jinv_fold S n thr pairs6 st Hp Ht (fun _ H => H) HI) as HJ.
  set (st1 := fold_left (jacobi_pair n thr) pairs6 st) in *.
  clearbody st1. destruct HJ as [I1 I2 I3 I4].
  assert (Hm : forall i j, (i < 6)%nat -> symm (j_sig st1) (fun i => j_b st1 i + j_z st1 i) i j = jmat st1 i j).
  { intros i j Hi. unfold jmat, symm. rewrite I4 by exact Hi. reflexivity. }
  split; cbn [j_sig j_vec j_val j_b j_z].
  - intros i j Hi Hj. rewrite I1 by assumption. unfold jmat at 2. cbn [j_sig j_val].
    apply sum6_ext. intros k Hk. rewrite Hm by exact Hk. reflexivity.
  - exact I2.
  - rewrite <- I3. apply sum6_ext. intros k Hk. rewrite I4 by exact Hk. reflexivity.
  - intros. symmetry. apply Rplus_0_r.
Qed.

Opaque jacobi_sweep.
Lemma jacobi_loop_correct : forall S left n st l v, psd6 S -> jinv S st ->
  jacobi_loop left n st = Ok (l, v) -> eigen_decomposition S l v.
Proof.
  intros S left. induction left as [|left IH]; intros n st l v Hp HI H; cbn [jacobi_loop] in H; [discriminate|].
  destruct (Req_EM_T _ _) as [E|E].
  - inversion H; subst. destruct HI as [I1 I2 I3 _].
    split; [exact I2|]. split; [|exact I3].
    intros i j Hi Hj. rewrite I1 by assumption.
    rewrite (sum6_ext _ (fun k => (if Nat.eqb j k then 1 else 0) * (j_vec st i k * j_val st k))).
    2:{ intros k Hk. unfold jmat, symm. rewrite (Nat.eqb_sym k j).
        destruct (Nat.eqb_spec j k) as [Hjk|Hjk]; [ring|].
        rewrite (off_sum_zero (j_sig st) _ _ E); [ring|]. split; lia. }
    rewrite (sum6_delta j (fun k => j_vec st i k * j_val st k)) by exact Hj. ring.
  - refine (IH (Datatypes.S n) (jacobi_sweep n (off_sum (j_sig st)) st) l v Hp _ H).
    apply jinv_sweep; [exact Hp|apply off_sum_nonneg|exact HI].
Qed.

Strategy expand [jacobi_eigen_solver6d].
Strategy 1000 [jacobi_loop].
Lemma jacobi_correct : forall S l v, symmetric6 S -> psd6 S ->
  jacobi_eigen_solver6d S = Ok (l, v) -> eigen_decomposition S l v.
Proof.
  intros S l v Hs Hp H. unfold jacobi_eigen_solver6d in H.
  exact (jacobi_loop_correct S 50 0 (jacobi_init S) l v Hp (jinv_init S Hs) H).
Qed.

(** C111 in exact arithmetic: the solver needs rounding to finish. *)
From Coq Require Import List Reals Arith ZArith Bool Lra Lia Psatz.
From Verif Require Import PyBase Stats_Model Stats_Spec Stats_Proofs Jacobi_Proofs Stats_Props Solver_Spec Tower_Proofs.
Import ListNotations.
Open Scope R_scope.

(** All numbers the solver holds are in a field. *)
Definition inside (F : R -> Prop) (m : mat) : Prop := forall i j, (i < 6)%nat -> (j < 6)%nat -> F (m i j).
Definition inside1 (F : R -> Prop) (v : vec) : Prop := forall i, (i < 6)%nat -> F (v i).
Record holds (F : R -> Prop) (st : jst) : Prop := {
  h_sig : inside F (j_sig st); h_vec : inside F (j_vec st); h_val : inside1 F (j_val st); h_b : inside1 F (j_b st); h_z : inside1 F (j_z st) }.
Definition holds_some (st : jst) : Prop := exists F, tower F /\ holds F st.

Lemma upd1_in : forall F v i x, inside1 F v -> F x -> inside1 F (upd1 v i x).
Proof. intros F v i x V X k K. unfold upd1. destruct (Nat.eqb k i); [exact X|now apply V]. Qed.
Lemma upd2_in : forall F m i j x, inside F m -> F x -> inside F (upd2 m i j x).
Proof. intros F m i j x M X k l K L. unfold upd2. destruct (_ && _); [exact X|now apply M]. Qed.
Lemma rot2_in : forall F sT tau a b m, field F -> F sT -> F tau -> (fst a < 6)%nat -> (snd a < 6)%nat -> (fst b < 6)%nat -> (snd b < 6)%nat -> inside F m -> inside F (rot2 sT tau a b m).
Proof.
  intros F sT tau a b m H S U A1 A2 B1 B2 M. unfold rot2.
  assert (G : F (m (fst a) (snd a))) by now apply M. assert (K : F (m (fst b) (snd b))) by now apply M.
  apply upd2_in; [apply upd2_in; [exact M|]|].
  - apply (fsub F H); [exact G|]. apply (fmul F H); [exact S|]. apply (fadd F H); [exact K|now apply (fmul F H)].
  - apply (fadd F H); [exact K|]. apply (fmul F H); [exact S|]. apply (fsub F H); [exact G|now apply (fmul F H)].
Qed.
Lemma fold_in : forall F (f : mat -> nat -> mat) l m, (forall m j, In j l -> inside F m -> inside F (f m j)) -> inside F m -> inside F (fold_left f l m).
Proof. intros F f l. induction l as [|j l IH]; intros m H M; [exact M|]. cbn [fold_left]. apply IH; [intros m' j' I; apply H; now right|]. apply H; [now left|exact M]. Qed.
Lemma rotate_sigma_in : forall F sT tau p q m, field F -> F sT -> F tau -> (p < q)%nat -> (q < 6)%nat -> inside F m -> inside F (rotate_sigma sT tau p q m).
Proof.
  intros F sT tau p q m H S U P Q M. unfold rotate_sigma.
  apply fold_in; [intros m' j I M'; apply in_seq in I; apply rot2_in; cbn [fst snd]; auto; lia|].
  apply fold_in; [intros m' j I M'; apply in_seq in I; apply rot2_in; cbn [fst snd]; auto; lia|].
  apply fold_in; [intros m' j I M'; apply in_seq in I; apply rot2_in; cbn [fst snd]; auto; lia|]. exact M.
Qed.
Lemma rotate_vecs_in : forall F sT tau p q m, field F -> F sT -> F tau -> (p < q)%nat -> (q < 6)%nat -> inside F m -> inside F (rotate_vecs sT tau p q m).
Proof. intros F sT tau p q m H S U P Q M. unfold rotate_vecs. apply fold_in; [intros m' j I M'; apply in_seq in I; apply rot2_in; cbn [fst snd]; auto; lia|exact M]. Qed.

Lemma adjoin_ext : forall F d, field F -> forall x, F x -> adjoin F d x.
Proof. intros F d H x X. exists x, 0. split; [exact X|]. split; [exact (f0 F H)|ring]. Qed.
Lemma adjoin_root : forall F d, field F -> adjoin F d (sqrt d).
Proof. intros F d H. exists 0, 1. split; [exact (f0 F H)|]. split; [exact (f1 F H)|ring]. Qed.
Lemma holds_ext : forall F d st, field F -> holds F st -> holds (adjoin F d) st.
Proof. intros F d st H [A B C D E]. constructor; intros i; intros; apply adjoin_ext; auto. Qed.
Lemma fsq F : field F -> forall x, F x -> F (x ^ 2).
Proof. intros H x X. replace (x ^ 2) with (x * x) by ring. now apply (fmul F H). Qed.
Lemma fquot F : field F -> forall x y, F x -> F y -> y <> 0 -> F (x / y).
Proof. intros H x y X Y N. destruct (fdiv F H x y X Y); [assumption|contradiction]. Qed.
Lemma fabs F : field F -> forall x, F x -> F (Rabs x).
Proof. intros H x X. unfold Rabs. destruct (Rcase_abs x); [now apply (fopp F H)|exact X]. Qed.
Lemma sq_pos : forall x, 0 < 1 + x ^ 2.
Proof. intros x. pose proof (pow2_ge_0 x). lra. Qed.

(** the tangent of the angle takes one square root, the rotation another *)
Lemma t_in : forall F d spq g p q, tower F -> inside1 F d -> F spq -> spq <> 0 -> 0 < g -> (p < 6)%nat -> (q < 6)%nat ->
  exists e, F e /\ 0 <= e /\ adjoin F e (jacobi_t d spq g p q).
Proof.
  intros F d spq g p q T D S N G P Q. pose proof (tower_field F T) as H. unfold jacobi_t. destruct (Req_EM_T _ _) as [E|_]; [lra|].
  assert (TH : F (1 / 2 * (d q - d p) / spq)). { apply (fquot F H); [|exact S|exact N]. apply (fmul F H); [|apply (fsub F H); now apply D]. apply (fquot F H); [apply (fz F H 1)|apply (fz F H 2)|lra]. }
  set (theta := 1 / 2 * (d q - d p) / spq) in *. exists (1 + theta ^ 2). split; [apply (fadd F H); [exact (f1 F H)|now apply (fsq F H)]|]. pose proof (sq_pos theta) as PO. split; [lra|].
  assert (HA : field (adjoin F (1 + theta ^ 2))). { apply adjoin_field; [exact H|apply (fadd F H); [exact (f1 F H)|now apply (fsq F H)]|lra]. }
  assert (X : adjoin F (1 + theta ^ 2) (1 / (Rabs theta + sqrt (1 + theta ^ 2)))).
  { apply (fquot _ HA); [apply (f1 _ HA)|apply (fadd _ HA); [apply (fabs _ HA), adjoin_ext; assumption|now apply adjoin_root]|]. pose proof (Rabs_pos theta). pose proof (sqrt_lt_R0 _ PO). lra. }
  destruct (Rlt_dec theta 0); [|exact X]. apply (fmul _ HA); [exact X|]. apply (fz _ HA (-1)).
Qed.
Lemma rotate_in : forall F t p q st, tower F -> F t -> (p < q)%nat -> (q < 6)%nat -> holds F st -> holds_some (jacobi_rotate t p q st).
Proof.
  intros F t p q st T Ft P Q HO. pose proof (tower_field F T) as H. pose proof (sq_pos t) as PO.
  assert (FE : F (1 + t ^ 2)) by (apply (fadd F H); [exact (f1 F H)|now apply (fsq F H)]).
  exists (adjoin F (1 + t ^ 2)). split; [apply step; [exact T|exact FE|lra]|].
  assert (HA : field (adjoin F (1 + t ^ 2))) by (apply adjoin_field; [exact H|exact FE|lra]).
  assert (HT : adjoin F (1 + t ^ 2) t) by now apply adjoin_ext.
  destruct (holds_ext F (1 + t ^ 2) st H HO) as [HS HV HL HB HZ]. set (K := adjoin F (1 + t ^ 2)) in *.
  pose proof (sqrt_lt_R0 _ PO) as SP.
  assert (C : K (1 / sqrt (1 + t ^ 2))) by (apply (fquot K HA); [apply (f1 K HA)|apply adjoin_root; exact H|lra]).
  assert (CP : 0 < 1 / sqrt (1 + t ^ 2)) by (apply Rdiv_lt_0_compat; lra).
  unfold jacobi_rotate. set (cT := 1 / sqrt (1 + t ^ 2)) in *.
  assert (S : K (t * cT)) by now apply (fmul K HA).
  assert (U : K (t * cT / (1 + cT))) by (apply (fquot K HA); [exact S|apply (fadd K HA); [apply (f1 K HA)|exact C]|lra]).
  assert (HH : K (t * j_sig st p q)) by (apply (fmul K HA); [exact HT|apply HS; lia]).
  constructor; cbn [j_sig j_vec j_val j_b j_z].
  - apply rotate_sigma_in; auto. apply upd2_in; [exact HS|apply (f0 K HA)].
  - apply rotate_vecs_in; auto.
  - assert (X : inside1 K (upd1 (j_val st) p (j_val st p - t * j_sig st p q))) by (apply upd1_in; [exact HL|apply (fsub K HA); [apply HL; lia|exact HH]]).
    apply upd1_in; [exact X|]. apply (fadd K HA); [apply X; lia|exact HH].
  - exact HB.
  - assert (X : inside1 K (upd1 (j_z st) p (j_z st p - t * j_sig st p q))) by (apply upd1_in; [exact HZ|apply (fsub K HA); [apply HZ; lia|exact HH]]).
    apply upd1_in; [exact X|]. apply (fadd K HA); [apply X; lia|exact HH].
Qed.
Lemma pair_in : forall n th st p q, 0 <= th -> (p < q)%nat -> (q < 6)%nat -> holds_some st -> holds_some (jacobi_pair n th st (p, q)).
Proof.
  intros n th st p q TH P Q (F & T & HO). pose proof (tower_field F T) as H. unfold jacobi_pair. destruct (_ && _).
  - exists F. split; [exact T|]. destruct HO as [HS HV HL HB HZ]. constructor; cbn; auto. apply upd2_in; [exact HS|apply (f0 F H)].
  - destruct (Rlt_dec th _) as [L|L]; [|exists F; auto].
    assert (N : j_sig st p q <> 0). { intros E. rewrite E, Rabs_R0 in L. lra. }
    destruct (t_in F (j_val st) (j_sig st p q) (100 * Rabs (j_sig st p q)) p q T (h_val F st HO)) as (e & FE & PE & X); auto; try lia.
    + apply (h_sig F st HO); lia.
    + pose proof (Rabs_pos_lt _ N). lra.
    + apply (rotate_in (adjoin F e)); auto; [now apply step|now apply holds_ext].
Qed.
Lemma fold_pairs : forall n th l st, 0 <= th -> (forall p q, In (p, q) l -> (p < q)%nat /\ (q < 6)%nat) -> holds_some st -> holds_some (fold_left (jacobi_pair n th) l st).
Proof.
  intros n th l. induction l as [|[p q] l IH]; intros st TH H HO; [exact HO|]. cbn [fold_left]. apply IH; [exact TH|intros; apply H; now right|]. destruct (H p q); [now left|]. now apply pair_in.
Qed.
Lemma pairs6_bound : forall p q, In (p, q) pairs6 -> (p < q)%nat /\ (q < 6)%nat.
Proof. intros p q I. cbn in I. repeat (destruct I as [I|I]; [injection I as <- <-; lia|]). contradiction. Qed.
Lemma off_nonneg : forall s, 0 <= off_sum s.
Proof.
  intros s. unfold off_sum. assert (X : forall l a, 0 <= a -> 0 <= fold_left (fun acc pq => acc + Rabs (s (fst pq) (snd pq))) l a).
  { induction l as [|pq l IH]; intros a A; [exact A|]. cbn [fold_left]. apply IH. pose proof (Rabs_pos (s (fst pq) (snd pq))). lra. } apply X. lra.
Qed.
Lemma finish_in : forall st, holds_some st ->
  holds_some {| j_sig := j_sig st; j_vec := j_vec st; j_val := fun i => j_b st i + j_z st i; j_b := fun i => j_b st i + j_z st i; j_z := fun _ => 0 |}.
Proof.
  intros st (F & T & [HS HV HL HB HZ]). pose proof (tower_field F T) as H. exists F. split; [exact T|].
  assert (X : inside1 F (fun i => j_b st i + j_z st i)) by (intros i I; apply (fadd F H); [now apply HB|now apply HZ]).
  constructor; [exact HS|exact HV|exact X|exact X|]. intros i I. apply (f0 F H).
Qed.
Lemma sweep_in : forall n sm st, 0 <= sm -> holds_some st -> holds_some (jacobi_sweep n sm st).
Proof.
  intros n sm st S HO. unfold jacobi_sweep. cbv zeta. apply finish_in. apply fold_pairs; [destruct (Nat.ltb n 3); lra|exact pairs6_bound|exact HO].
Qed.
Lemma loop_in : forall left n st l v, holds_some st -> jacobi_loop left n st = Ok (l, v) -> exists F, tower F /\ inside1 F l.
Proof.
  induction left as [|left IH]; intros n st l v HO E; [discriminate|]. cbn [jacobi_loop] in E. destruct (Req_EM_T _ 0).
  - injection E as <- <-. destruct HO as (F & T & HO). exists F. split; [exact T|]. apply HO.
  - eapply IH; [|exact E]. apply sweep_in; [apply off_nonneg|exact HO].
Qed.
Lemma loop_errs : forall left n st, (exists l v, jacobi_loop left n st = Ok (l, v)) \/ jacobi_loop left n st = Err GenericException.
Proof. induction left as [|left IH]; intros n st; [now right|]. cbn [jacobi_loop]. destruct (Req_EM_T _ 0); [left; eauto|apply IH]. Qed.

(** Three coordinates correlated in a chain, with rational covariances. *)
Definition chained (k : R) (m : mat) : Prop :=
  forall i j, (i < 6)%nat -> (j < 6)%nat ->
    m i j = k * nth j (nth i [[2; 1; 0; 0; 0; 0]; [1; 2; 1; 0; 0; 0]; [0; 1; 3; 0; 0; 0]; [0; 0; 0; 0; 0; 0]; [0; 0; 0; 0; 0; 0]; [0; 0; 0; 0; 0; 0]] []) 0.
Lemma chained_symmetric : forall k m, chained k m -> symmetric6 m.
Proof.
  intros k m C i j I J. rewrite (C i j), (C j i) by assumption.
  do 6 (destruct i as [|i]; [do 6 (destruct j as [|j]; [reflexivity|]); lia|]). lia.
Qed.
Lemma chained_psd : forall k m, 0 < k -> chained k m -> psd6 m.
Proof.
  intros k m K C x. unfold sum6. rewrite !C by lia. cbn [nth].
  match goal with |- 0 <= ?e => replace e with (k * (x 0%nat ^ 2 + (x 0%nat + x 1%nat) ^ 2 + (x 1%nat + x 2%nat) ^ 2 + 2 * x 2%nat ^ 2)) by ring end.
  apply Rmult_le_pos; [lra|]. pose proof (pow2_ge_0 (x 0%nat)). pose proof (pow2_ge_0 (x 0%nat + x 1%nat)). pose proof (pow2_ge_0 (x 1%nat + x 2%nat)). pose proof (pow2_ge_0 (x 2%nat)). lra.
Qed.
Lemma chained_errs : forall k m n, rational k -> 0 < k -> chained k m -> jacobi_loop n 0 (jacobi_init m) = Err GenericException.
Proof.
  intros k m n RK K C. destruct (loop_errs n 0 (jacobi_init m)) as [(l & v & E)|E]; [|exact E]. exfalso.
  pose proof (jacobi_loop_correct m n 0 (jacobi_init m) l v (chained_psd k m K C) (jinv_init m (chained_symmetric k m C)) E) as (ON & EC & TR).
  assert (HI : holds_some (jacobi_init m)).
  { exists rational. split; [exact base|]. pose proof rational_field as H.
    assert (M : inside rational m). { intros i j I J. rewrite C by assumption. apply (fmul _ H); [exact RK|]. do 6 (destruct i as [|i]; [do 6 (destruct j as [|j]; [cbn [nth]; apply (fz _ H)|]); lia|]). lia. }
    constructor; cbn [jacobi_init j_sig j_vec j_val j_b j_z]; auto; intros i; intros; auto; [|apply (f0 _ H)]. destruct (Nat.eqb i j); [apply (f1 _ H)|apply (f0 _ H)]. }
  destruct (loop_in n 0 (jacobi_init m) l v HI E) as (F & T & L). pose proof (tower_field F T) as H.
  assert (FK : F k). { clear - T RK. induction T as [|F d T IH D P]; [exact RK|]. apply adjoin_ext; [now apply tower_field|exact IH]. }
  assert (Z0 : forall j, (j < 6)%nat -> l j = 0).
  { intros j J.
    pose proof (EC 0%nat j ltac:(lia) J) as E0. pose proof (EC 1%nat j ltac:(lia) J) as E1. pose proof (EC 2%nat j ltac:(lia) J) as E2.
    pose proof (EC 3%nat j ltac:(lia) J) as E3. pose proof (EC 4%nat j ltac:(lia) J) as E4. pose proof (EC 5%nat j ltac:(lia) J) as E5.
    unfold sum6 in E0, E1, E2, E3, E4, E5. rewrite !C in E0, E1, E2, E3, E4, E5 by lia. cbn [nth] in E0, E1, E2, E3, E4, E5.
    set (a := v 0%nat j) in *. set (b := v 1%nat j) in *. set (c := v 2%nat j) in *. set (x := l j / k).
    assert (EX : l j = k * x) by (unfold x; field; lra). rewrite EX in E0, E1, E2, E3, E4, E5.
    assert (G0 : 2 * a + b = x * a) by (apply (Rmult_eq_reg_l k); lra).
    assert (G1 : a + 2 * b + c = x * b) by (apply (Rmult_eq_reg_l k); lra).
    assert (G2 : b + 3 * c = x * c) by (apply (Rmult_eq_reg_l k); lra).
    destruct (Req_dec a 0) as [A|A].
    - assert (b = 0) by (rewrite A in G0; lra). assert (c = 0) by (rewrite A, H0 in G1; lra).
      destruct (Req_dec x 0) as [X|X]; [rewrite EX, X; ring|]. exfalso.
      assert (NZ : k * x <> 0) by (apply Rmult_integral_contrapositive; split; lra).
      assert (D3 : v 3%nat j = 0) by (apply (Rmult_eq_reg_l (k * x)); [lra|exact NZ]).
      assert (D4 : v 4%nat j = 0) by (apply (Rmult_eq_reg_l (k * x)); [lra|exact NZ]).
      assert (D5 : v 5%nat j = 0) by (apply (Rmult_eq_reg_l (k * x)); [lra|exact NZ]).
      pose proof (ON j j J J) as O. rewrite Nat.eqb_refl in O. unfold sum6 in O. fold a b c in O. rewrite A, H0, H1, D3, D4, D5 in O. lra.
    - exfalso. apply (not_in_tower F x T).
      + unfold x. apply (fquot F H); [now apply L|exact FK|lra].
      + apply (Rmult_eq_reg_l a); [|exact A]. rewrite Rmult_0_r. unfold cubic.
        assert (B : b = (x - 2) * a) by lra. assert (Cc : c = (x - 2) * b - a) by lra. rewrite B in Cc. rewrite B, Cc in G2.
        replace (a * (x * x * x + -7 * (x * x) + 14 * x + -7)) with ((x - 3) * ((x - 2) * ((x - 2) * a) - a) - (x - 2) * a) by ring. lra. }
  unfold sum6 in TR. rewrite !Z0, !C in TR by lia. cbn [nth] in TR. lra.
Qed.

(** ** C111, what rounding is needed for.
    The loop stops when all correlations are exactly zero. In exact arithmetic, which knows no
    rounding, that need not happen: for this beam of eleven particles, three coordinates of which are
    correlated, no number of passes suffices, and the fiftieth raises. *)
Definition chain : beam :=
  [[0; 1; -1; 1; -1; 0; 0; 0; 0; 0; 0]; [0; 0; 0; 1; -1; 1; -1; 0; 0; 0; 0]; [0; 0; 0; 0; 0; 1; -1; 1; -1; 1; -1];
   [0; 0; 0; 0; 0; 0; 0; 0; 0; 0; 0]; [0; 0; 0; 0; 0; 0; 0; 0; 0; 0; 0]; [0; 0; 0; 0; 0; 0; 0; 0; 0; 0; 0]].
Lemma chain_beam : is_beam 11 chain.
Proof. split; [reflexivity|]. repeat constructor. Qed.
Lemma chain_centred : first_on_centroid chain.
Proof. intros r [<-|[<-|[<-|[<-|[<-|[<-|[]]]]]]]; unfold mean, total; cbn [fold_right length INR]; field. Qed.
Lemma chain_chained : forall m, (forall i j, (i < 6)%nat -> (j < 6)%nat -> m i j = covariance (row chain i) (row chain j)) -> chained (2 / 11) m.
Proof.
  intros m H i j I J. rewrite H by assumption.
  do 6 (destruct i as [|i]; [do 6 (destruct j as [|j]; [cbn [row chain nth]; unfold covariance, mean, total; cbn [combine map fold_right fst snd length INR]; field|]); lia|]). lia.
Qed.
Theorem C111_exact_refuted : is_beam 11 chain /\ first_on_centroid chain /\ rm_correlations6d chain = Err GenericException /\
  forall m passes, (forall i j, (i < 6)%nat -> (j < 6)%nat -> m i j = covariance (row chain i) (row chain j)) -> jacobi_loop passes 0 (jacobi_init m) = Err GenericException.
Proof.
  split; [exact chain_beam|]. split; [exact chain_centred|].
  assert (RK : rational (2 / 11)) by (exists 2%Z, 11%Z; split; [lia|reflexivity]).
  split.
  - destruct (C11_correlations_partial 11 chain chain_beam ltac:(lia)) as (b' & m & E & _ & _ & _ & _ & Hc). specialize (Hc chain_centred).
    pose proof (chained_errs (2 / 11) m 50 RK ltac:(lra) (chain_chained m Hc)) as EJ. unfold rm_correlations6d. rewrite E. cbn [rbind fst snd]. unfold jacobi_eigen_solver6d. rewrite EJ. reflexivity.
  - intros m passes Hc. apply (chained_errs (2 / 11)); [exact RK|lra|now apply chain_chained].
Qed.
Print Assumptions C111_exact_refuted.

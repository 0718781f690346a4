(** Theorems about the eigenvalue solver of rsbeams/rsstats/stats6d.py: property C111 and more
    on C12 and C13. *)
From Coq Require Import List Reals Lra Lia Bool Arith.
From Verif Require Import PyBase Stats_Model Stats_Spec Solver_Spec Stats_Proofs Jacobi_Proofs Decor_Proofs
  Solver_Proofs Stats_Props.
Import ListNotations.
Open Scope R_scope.

(** ---------------- C12, continued ---------------- *)
(** Whatever a matrix has below its diagonal is ignored: what is decomposed is the symmetric
    matrix that shares its diagonal and the cells above it. *)
Theorem C12_lower_triangle_ignored : forall S l v, psd6 (from_upper S) ->
  jacobi_eigen_solver6d S = Ok (l, v) -> eigen_decomposition (from_upper S) l v.
Proof. exact solver_upper. Qed.
Print Assumptions C12_lower_triangle_ignored.

(** ---------------- C111 ---------------- *)
Theorem C111_solver_returns_partial : forall S, symmetric6 S -> paired6 S ->
  exists l v, jacobi_eigen_solver6d S = Ok (l, v) /\ (psd6 S -> eigen_decomposition S l v).
Proof.
  intros S Hs HP. destruct (solver_returns S) as (l & v & _ & E).
  - intros i j k Hi Hj Hk Hij Hik. unfold from_upper.
    assert (G : forall a b, (a < 6)%nat -> (b < 6)%nat -> S (Nat.min a b) (Nat.max a b) = S a b).
    { intros a b Ha Hb. destruct (le_lt_dec a b).
      - rewrite Nat.min_l, Nat.max_r by lia. reflexivity.
      - rewrite Nat.min_r, Nat.max_l by lia. apply Hs; assumption. }
    rewrite !G by assumption. apply HP; assumption.
  - exists l, v. split; [exact E|]. intros Hp. apply jacobi_correct; assumption.
Qed.
Print Assumptions C111_solver_returns_partial.

(** Five passes of the master loop, of the fifty allowed, are enough. *)
Theorem C111_five_passes_partial : forall S, symmetric6 S -> paired6 S ->
  exists l v, jacobi_loop 5 0 (jacobi_init S) = Ok (l, v).
Proof.
  intros S Hs HP. destruct (solver_returns S) as (l & v & E & _).
  - intros i j k Hi Hj Hk Hij Hik. unfold from_upper.
    assert (G : forall a b, (a < 6)%nat -> (b < 6)%nat -> S (Nat.min a b) (Nat.max a b) = S a b).
    { intros a b Ha Hb. destruct (le_lt_dec a b).
      - rewrite Nat.min_l, Nat.max_r by lia. reflexivity.
      - rewrite Nat.min_r, Nat.max_l by lia. apply Hs; assumption. }
    rewrite !G by assumption. apply HP; assumption.
  - exists l, v. exact E.
Qed.
Print Assumptions C111_five_passes_partial.

(** The decorrelation of a beam in which no coordinate is correlated with more than one
    other finishes and decorrelates it. *)
Theorem C111_decorrelation_returns_partial : forall N b, is_beam N b -> (0 < N)%nat ->
  first_on_centroid b -> paired_beam b ->
  exists new, rm_correlations6d b = Ok new /\ is_beam N new /\
  forall i j, (i < 6)%nat -> (j < 6)%nat -> i <> j -> covariance (row new i) (row new j) = 0.
Proof.
  intros N b Hb HN Hf HP.
  destruct (C11_correlations_partial N b Hb HN) as (b' & m & E & Hs & Hp & _ & _ & Hc).
  specialize (Hc Hf).
  assert (HPm : paired6 m).
  { intros i j k Hi Hj Hk Hij Hik. rewrite !Hc by assumption. apply HP; assumption. }
  destruct (C111_solver_returns_partial m Hs HPm) as (l & v & EJ & _).
  assert (R : exists new, rm_correlations6d b = Ok new).
  { unfold rm_correlations6d. rewrite E. cbn [rbind fst snd]. rewrite EJ. cbn [rbind snd]. eexists. reflexivity. }
  destruct R as [new R]. exists new. split; [exact R|].
  destruct (C13_decorrelated_partial N b new Hb HN Hf R) as [(w & _ & [Hn _]) Hz].
  split; [exact Hn|exact Hz].
Qed.
Print Assumptions C111_decorrelation_returns_partial.

(** In particular when the planes are independent of each other. *)
Theorem C111_independent_planes_partial : forall N b, is_beam N b -> (0 < N)%nat ->
  first_on_centroid b -> planes_independent b ->
  exists new, rm_correlations6d b = Ok new /\ is_beam N new /\
  forall i j, (i < 6)%nat -> (j < 6)%nat -> i <> j -> covariance (row new i) (row new j) = 0.
Proof.
  intros N b Hb HN Hf HI. apply (C111_decorrelation_returns_partial N b Hb HN Hf).
  assert (P : forall i j, (i < 6)%nat -> (j < 6)%nat -> i <> j ->
    covariance (row b i) (row b j) <> 0 -> j = (i + 1 - 2 * (i mod 2))%nat).
  { intros i j Hi Hj Hn Z.
    assert (Hp : (i / 2 = j / 2)%nat).
    { destruct (Nat.eq_dec (i / 2) (j / 2)) as [Y|Y]; [exact Y|]. destruct Z. apply HI; assumption. }
    clear - Hi Hj Hn Hp.
    do 6 (destruct i as [|i]; [do 6 (destruct j as [|j]; [cbn in *; lia|]); lia|]). lia. }
  intros i j k Hi Hj Hk Hij Hik Z1 Z2. rewrite (P i j), (P i k); auto.
Qed.
Print Assumptions C111_independent_planes_partial.

(** Nine particles, the horizontal plane and the vertical plane correlated, independent of
    each other. *)
Definition two_planes : beam :=
  [[0; 2; -2; 1; -1; 0; 0; 0; 0]; [0; 1; -1; 2; -2; 0; 0; 0; 0];
   [0; 0; 0; 0; 0; 3; -3; 1; -1]; [0; 0; 0; 0; 0; 1; -1; 3; -3];
   [0; 0; 0; 0; 0; 0; 0; 0; 0]; [0; 0; 0; 0; 0; 0; 0; 0; 0]].

Lemma two_planes_beam : is_beam 9 two_planes.
Proof. split; [reflexivity|]. repeat constructor. Qed.

Lemma two_planes_centred : first_on_centroid two_planes.
Proof. intros r [<-|[<-|[<-|[<-|[<-|[<-|[]]]]]]]; row_calc. Qed.

Lemma two_planes_independent : planes_independent two_planes.
Proof.
  intros i j Hi Hj Hn. unfold same_plane in Hn.
  do 6 (destruct i as [|i]; [do 6 (destruct j as [|j];
    [first [exfalso; apply Hn; reflexivity|cbn [row two_planes nth]; row_calc]|]); lia|]). lia.
Qed.

Example C111_applies : covariance (row two_planes 0) (row two_planes 1) = 8 / 9 /\
  covariance (row two_planes 2) (row two_planes 3) = 12 / 9 /\
  exists new, rm_correlations6d two_planes = Ok new /\
    covariance (row new 0) (row new 1) = 0 /\ covariance (row new 2) (row new 3) = 0.
Proof.
  split; [cbn [row two_planes nth]; row_calc|]. split; [cbn [row two_planes nth]; row_calc|].
  destruct (C111_independent_planes_partial 9 two_planes two_planes_beam ltac:(lia) two_planes_centred
    two_planes_independent) as (new & R & _ & Z).
  exists new. split; [exact R|]. split; apply Z; lia.
Qed.

(** A matrix with something else below the diagonal. *)
Definition lopsided : mat := fun i j =>
  if Nat.eqb i j then 2 else if Nat.eqb i 0 && Nat.eqb j 1 then 1 else if Nat.ltb j i then 7 else 0.

Example C12_lower_triangle_applies : exists l v, jacobi_eigen_solver6d lopsided = Ok (l, v) /\
  lopsided 1%nat 0%nat = 7 /\ from_upper lopsided 1%nat 0%nat = 1 /\
  eigen_decomposition (from_upper lopsided) l v.
Proof.
  assert (HP : paired6 (from_upper lopsided)).
  { assert (P : forall i j, (i < 6)%nat -> (j < 6)%nat -> i <> j -> from_upper lopsided i j <> 0 ->
      j = (1 - i)%nat).
    { intros i j Hi Hj Hn Z. unfold from_upper, lopsided in Z.
      do 6 (destruct i as [|i]; [do 6 (destruct j as [|j]; [cbn in Z; first [lia|exfalso; apply Z; reflexivity]|]); lia|]). lia. }
    intros i j k Hi Hj Hk Hij Hik Z1 Z2. rewrite (P i j), (P i k); auto. }
  destruct (solver_returns lopsided HP) as (l & v & _ & E). exists l, v.
  split; [exact E|]. split; [reflexivity|]. split; [reflexivity|].
  apply C12_lower_triangle_ignored; [|exact E].
  intros x. unfold sum6, from_upper, lopsided. cbn [Nat.min Nat.max Nat.eqb Nat.ltb Nat.leb andb].
  pose proof (pow2_ge_0 (x 0%nat + x 1%nat)). pose proof (pow2_ge_0 (x 0%nat)). pose proof (pow2_ge_0 (x 1%nat)).
  pose proof (pow2_ge_0 (x 2%nat)). pose proof (pow2_ge_0 (x 3%nat)). pose proof (pow2_ge_0 (x 4%nat)).
  pose proof (pow2_ge_0 (x 5%nat)). lra.
Qed.

(** Theorems about the nonlinear insert (properties C26, C27, C77). *)
From Coq Require Import List Reals Lra Lia Psatz Bool Arith ZArith String.
From Coquelicot Require Import Coquelicot.
From Verif Require Import PyBase Sample_Model Sample_Spec Sample_Proofs Insert_Model Insert_Spec.
Import ListNotations.
Open Scope R_scope.

Definition waist (L phi : R) : R := L / 2 * (Rabs (cos (PI * phi)) / Rabs (sin (PI * phi))).

Lemma sin2x : forall phi, sin (2 * PI * phi) = 2 * sin (PI * phi) * cos (PI * phi).
Proof. intros. rewrite <- sin_2a. f_equal. ring. Qed.

Lemma focal_ok : forall s, sin (2 * PI * i_phase s) <> 0 ->
  focal_length s = Some (i_length s / (4 * sin (PI * i_phase s) ^ 2)).
Proof.
  intros s H. rewrite sin2x in H. unfold focal_length, inv_tan2. set (x := PI * i_phase s) in *.
  assert (Hs : sin x <> 0) by (intro E; apply H; rewrite E; ring).
  assert (Hc : cos x <> 0) by (intro E; apply H; rewrite E; ring).
  destruct (Req_EM_T (cos x) 0); [contradiction|]. unfold ndiv.
  assert (Ht : tan x ^ 2 <> 0).
  { apply pow_nonzero. unfold tan, Rdiv. apply Rmult_integral_contrapositive_currified; [exact Hs|apply Rinv_neq_0_compat; exact Hc]. }
  destruct (Req_EM_T (tan x ^ 2) 0); [contradiction|]. cbn [fmap1]. f_equal.
  pose proof (sin2_cos2 x) as P. unfold Rsqr in P. unfold tan.
  replace (1 + 1 / (sin x / cos x) ^ 2) with ((sin x * sin x + cos x * cos x) / sin x ^ 2) by (field; split; assumption).
  rewrite P. field. exact Hs.
Qed.

Lemma den_ok : forall s, i_length s <> 0 -> sin (2 * PI * i_phase s) <> 0 ->
  beta_den s = Some (Rabs (sin (2 * PI * i_phase s))).
Proof.
  intros s HL H. unfold beta_den. rewrite focal_ok by exact H. rewrite sin2x in *. set (x := PI * i_phase s) in *.
  assert (Hs : sin x <> 0) by (intro E; apply H; rewrite E; ring).
  assert (Hs2 : 4 * sin x ^ 2 <> 0) by (apply Rmult_integral_contrapositive_currified; [lra|apply pow_nonzero; exact Hs]).
  assert (Hf : i_length s / (4 * sin x ^ 2) <> 0).
  { unfold Rdiv. apply Rmult_integral_contrapositive_currified; [exact HL|apply Rinv_neq_0_compat; exact Hs2]. }
  unfold ndiv. destruct (Req_EM_T _ 0); [contradiction|]. cbn [fmap1 fsqrt].
  pose proof (sin2_cos2 x) as P. unfold Rsqr in P.
  replace (1 - (1 - i_length s / 2 / (i_length s / (4 * sin x ^ 2))) ^ 2) with ((2 * sin x * cos x) ^ 2).
  - unfold nsqrt. destruct (Rlt_dec _ 0) as [Hn|_]; [pose proof (pow2_ge_0 (2 * sin x * cos x)); lra|].
    f_equal. rewrite <- Rsqr_pow2. apply sqrt_Rsqr_abs.
  - replace (i_length s / 2 / (i_length s / (4 * sin x ^ 2))) with (2 * (sin x * sin x)) by (field; split; assumption).
    replace ((2 * sin x * cos x) ^ 2) with (4 * (sin x * sin x) * (cos x * cos x)) by ring.
    assert (C : cos x * cos x = 1 - sin x * sin x) by lra. rewrite C. ring.
Qed.

Lemma waist_pos : forall L phi, 0 < L -> sin (2 * PI * phi) <> 0 -> 0 < waist L phi.
Proof.
  intros L phi HL H. rewrite sin2x in H. unfold waist.
  assert (0 < Rabs (sin (PI * phi))) by (apply Rabs_pos_lt; intro E; apply H; rewrite E; ring).
  assert (0 < Rabs (cos (PI * phi))) by (apply Rabs_pos_lt; intro E; apply H; rewrite E; ring).
  apply Rmult_lt_0_compat; [lra|]. apply Rmult_lt_0_compat; [lra|apply Rinv_0_lt_compat; lra].
Qed.

Lemma beta_val : forall s x, 0 < i_length s -> sin (2 * PI * i_phase s) <> 0 ->
  ndiv (fmap1 (fun u => i_length s * (1 - u)) (ndiv (Some (x * (i_length s - x) / i_length s)) (focal_length s))) (beta_den s)
  = Some (drift_beta (i_length s) (waist (i_length s) (i_phase s)) x).
Proof.
  intros s x HL H. rewrite den_ok, focal_ok by (exact H || lra).
  pose proof H as H'. rewrite sin2x in H'. set (th := PI * i_phase s) in *.
  assert (Hs : sin th <> 0) by (intro E; apply H'; rewrite E; ring).
  assert (Hc : cos th <> 0) by (intro E; apply H'; rewrite E; ring).
  assert (Hs2 : 4 * sin th ^ 2 <> 0) by (apply Rmult_integral_contrapositive_currified; [lra|apply pow_nonzero; exact Hs]).
  assert (Hf : i_length s / (4 * sin th ^ 2) <> 0).
  { unfold Rdiv. apply Rmult_integral_contrapositive_currified; [lra|apply Rinv_neq_0_compat; exact Hs2]. }
  unfold ndiv. destruct (Req_EM_T (i_length s / (4 * sin th ^ 2)) 0); [contradiction|]. cbn [fmap1].
  rewrite sin2x. fold th. assert (Ha : Rabs (2 * sin th * cos th) = 2 * Rabs (sin th) * Rabs (cos th)).
  { rewrite !Rabs_mult, (Rabs_right 2) by lra. reflexivity. }
  rewrite Ha. assert (Ps : 0 < Rabs (sin th)) by (apply Rabs_pos_lt; exact Hs).
  assert (Pc : 0 < Rabs (cos th)) by (apply Rabs_pos_lt; exact Hc).
  destruct (Req_EM_T (2 * Rabs (sin th) * Rabs (cos th)) 0) as [E|_]; [exfalso; nra|]. f_equal.
  unfold drift_beta, waist. fold th.
  assert (S2 : sin th ^ 2 = Rabs (sin th) ^ 2) by (symmetry; apply pow2_abs).
  assert (C2 : Rabs (cos th) ^ 2 = 1 - Rabs (sin th) ^ 2).
  { rewrite !pow2_abs. pose proof (sin2_cos2 th) as P. unfold Rsqr in P. lra. }
  rewrite S2. set (a := Rabs (sin th)) in *. set (b := Rabs (cos th)) in *. set (L := i_length s) in *.
  apply Rmult_eq_reg_r with (2 * a * b * L); [|apply Rmult_integral_contrapositive_currified; [nra|lra]].
  replace (L * (1 - x * (L - x) / L / (L / (4 * a ^ 2))) / (2 * a * b) * (2 * a * b * L))
    with (L * L - 4 * a ^ 2 * x * (L - x)) by (field; repeat split; lra).
  replace ((L / 2 * (b / a) + (x - L / 2) ^ 2 / (L / 2 * (b / a))) * (2 * a * b * L))
    with (L * L * b ^ 2 + (x - L / 2) ^ 2 * 4 * a ^ 2) by (field; repeat split; lra).
  rewrite C2. field.
Qed.

Lemma centre_grid : forall L n k, (0 < n)%nat -> (k < n)%nat ->
  grid_point (L / INR n * (1 / 2)) (L - L / INR n * (1 / 2)) n k = slice_centre L n k.
Proof.
  intros L n k Hn Hk. unfold grid_point, slice_centre. destruct n as [|[|m]]; [lia| |].
  - assert (k = 0)%nat by lia. subst k. simpl (INR 0). rewrite Rmult_0_l. simpl (INR 1). field.
  - replace (S (S m) - 1)%nat with (S m) by lia. rewrite (S_INR (S m)). assert (0 < INR (S m)) by (apply lt_0_INR; lia). field. lra.
Qed.

(** ---------------- C26 ---------------- *)
Theorem C26_insert : forall L phase t c n, 0 < L -> (0 < n)%nat -> sin (2 * PI * phase) <> 0 ->
  let w := waist L phase in
  exists q, generate_sequence (new_insert L phase t c (Z.of_nat n)) = Ok q /\ 0 < w /\
    focal_length (new_insert L phase t c (Z.of_nat n)) = Some (L / (4 * sin (PI * phase) ^ 2)) /\
    List.length (q_s q) = n /\ List.length (q_betas q) = n /\ List.length (q_knll q) = n /\ List.length (q_cnll q) = n /\
    q_beta0 q = Some (drift_beta L w 0) /\
    forall k, (k < n)%nat ->
      nth k (q_s q) 0 = slice_centre L n k /\
      nth k (q_betas q) None = Some (drift_beta L w (slice_centre L n k)) /\
      0 < drift_beta L w (slice_centre L n k) /\
      nth k (q_betas q) None = nth (n - 1 - k) (q_betas q) None /\
      nth k (q_cnll q) None = Some (c * sqrt (drift_beta L w (slice_centre L n k))) /\
      nth k (q_knll q) None = Some (t * c ^ 2 * L / (INR n * drift_beta L w (slice_centre L n k))).
Proof.
  intros L phase t c n HL Hn Hph w.
  set (s := new_insert L phase t c (Z.of_nat n)).
  assert (Hw : 0 < w) by (apply waist_pos; assumption).
  assert (HN : 0 < INR n) by (apply lt_0_INR; exact Hn).
  assert (Hdb : forall x, 0 < drift_beta L w x).
  { intros x. unfold drift_beta. assert (0 <= (x - L / 2) ^ 2 / w).
    { apply Rmult_le_pos; [apply pow2_ge_0|left; apply Rinv_0_lt_compat; exact Hw]. } lra. }
  unfold generate_sequence. cbn [i_length i_slices s new_insert].
  rewrite <- INR_IZR_INZ. unfold pdiv at 1. destruct (Req_EM_T (INR n) 0); [lra|]. cbn [rbind].
  destruct (Z.ltb_spec (Z.of_nat n) 0); [lia|]. rewrite Nat2Z.id.
  unfold pdiv. destruct (Req_EM_T L 0); [lra|]. cbn [rbind].
  eexists. split; [reflexivity|]. cbn [q_s q_beta0 q_betas q_knll q_cnll].
  split; [exact Hw|]. split; [apply (focal_ok s); exact Hph|].
  set (sv := linspace (L / INR n * (1 / 2)) (L - L / INR n * (1 / 2)) n).
  assert (Ls : List.length sv = n) by apply linspace_len.
  set (bf := fun x => Some (drift_beta L w x)).
  assert (Eb : map (fun x => ndiv (fmap1 (fun u => L * (1 - u)) (ndiv (Some (x * (L - x) / L)) (focal_length s))) (beta_den s)) sv = map bf sv).
  { apply map_ext. intros x. exact (beta_val s x HL Hph). }
  change {| i_length := L; i_phase := phase; i_t := t; i_c := c; i_slices := Z.of_nat n |} with s.
  rewrite Eb.
  assert (Sk : forall k, (k < n)%nat -> nth k sv 0 = slice_centre L n k).
  { intros k Hk. apply nth_error_nth with (d := 0%R). unfold sv. rewrite linspace_nth by exact Hk. f_equal.
    apply centre_grid; assumption. }
  assert (Nb : forall f : R -> fl, forall k, (k < n)%nat -> nth k (map f sv) None = f (slice_centre L n k)).
  { intros f k Hk. rewrite (nth_indep (map f sv) None (f 0)) by (rewrite map_length; lia). rewrite map_nth. f_equal. apply Sk. exact Hk. }
  set (kf := fun b : fl => ndiv (Some (t * L / INR n)) (fmap1 (fun v => v ^ 2) b)).
  set (cf := fun b : fl => fmap1 (fun v => c * v) (fsqrt b)).
  change (map kf (map bf sv)) with (map kf (map bf sv)). 
  assert (Ek : map (fun p : fl * fl => fmap2 (fun k c => k * c ^ 2) (fst p) (snd p)) (combine (map kf (map bf sv)) (map cf (map bf sv)))
     = map (fun x => fmap2 (fun k c => k * c ^ 2) (kf (bf x)) (cf (bf x))) sv).
  { clear. induction sv as [|x l IH]; [reflexivity|]. cbn [map combine fst snd]. f_equal. exact IH. }
  unfold new_insert in *. cbn [i_t i_c] in *.
  split; [exact Ls|]. split; [rewrite map_length; exact Ls|].
  split; [rewrite map_length, combine_length, !map_length, Ls; apply Nat.min_id|].
  split; [rewrite !map_length; exact Ls|].
  split.
  { assert (E0 : 0 * L / L = 0 * (L - 0) / L) by (field; lra). rewrite E0. exact (beta_val s 0 HL Hph). }
  intros k Hk. split; [apply Sk; exact Hk|]. rewrite Nb by exact Hk. split; [reflexivity|]. split; [apply Hdb|].
  split; [|split].
  - rewrite Nb by lia. unfold bf. f_equal. unfold drift_beta. f_equal. f_equal.
    unfold slice_centre. rewrite minus_INR, minus_INR by lia. simpl (INR 1).
    replace (((INR n - 1 - INR k + 1 / 2) * (L / INR n) - L / 2)) with (- ((INR k + 1 / 2) * (L / INR n) - L / 2)) by (field; lra). ring.
  - rewrite map_map, (Nb (fun x => cf (bf x))) by exact Hk. unfold cf, bf. cbn [fsqrt]. unfold nsqrt.
    specialize (Hdb (slice_centre L n k)). destruct (Rlt_dec _ 0); [lra|]. reflexivity.
  - etransitivity; [exact (f_equal (fun l => nth k l None) Ek)|].
    rewrite (Nb (fun x => fmap2 _ (kf (bf x)) (cf (bf x)))) by exact Hk. unfold kf, cf, bf. cbn [fmap1 fsqrt]. unfold nsqrt, ndiv.
    specialize (Hdb (slice_centre L n k)). set (b := drift_beta L w (slice_centre L n k)) in *.
    destruct (Rlt_dec b 0); [lra|]. destruct (Req_EM_T (b ^ 2) 0) as [E|_]; [exfalso; nra|]. cbn [fmap1 fmap2]. f_equal.
    replace ((c * sqrt b) ^ 2) with (c ^ 2 * (sqrt b * sqrt b)) by ring. rewrite sqrt_sqrt by lra. field. split; lra.
Qed.
Print Assumptions C26_insert.

Lemma sin_ok_3 : sin (2 * PI * (1 / 4)) <> 0.
Proof. replace (2 * PI * (1 / 4)) with (PI / 2) by field. rewrite sin_PI2. lra. Qed.
Example C26_applies : exists q, generate_sequence (new_insert 2 (1/4) (1/10) (1/100) 20) = Ok q /\ List.length (q_knll q) = 20%nat.
Proof.
  destruct (C26_insert 2 (1/4) (1/10) (1/100) 20 ltac:(lra) ltac:(lia) sin_ok_3) as (q & E & _ & _ & _ & _ & H & _).
  exists q. split; [exact E|exact H].
Qed.

(** A wrong number of slices is refused. *)
Theorem C26_bad_slices : forall L phase t c,
  generate_sequence (new_insert L phase t c 0) = Err ZeroDivisionError /\
  forall n, (n < 0)%Z -> generate_sequence (new_insert L phase t c n) = Err ValueError.
Proof.
  intros L phase t c. unfold generate_sequence. cbn [i_length i_slices new_insert]. split.
  - unfold pdiv at 1. destruct (Req_EM_T 0 0); [reflexivity|lra].
  - intros n Hn. unfold pdiv at 1. destruct (Req_EM_T (IZR n) 0) as [E|_]; [apply eq_IZR in E; lia|]. cbn [rbind].
    destruct (Z.ltb_spec n 0); [reflexivity|lia].
Qed.
Print Assumptions C26_bad_slices.

(** ---------------- C77 ---------------- *)
(** The phase advance over the insert, i.e. the integral of 1/beta, is 2 pi times the phase. *)
Lemma drift_phase : forall L w, 0 < L -> 0 < w -> is_RInt (fun s => 1 / drift_beta L w s) 0 L (2 * atan (L / (2 * w))).
Proof.
  intros L w HL Hw.
  replace (2 * atan (L / (2 * w))) with (minus (atan ((L - L / 2) / w)) (atan ((0 - L / 2) / w))).
  - apply (is_RInt_derive (fun s => atan ((s - L / 2) / w))).
    + intros x _. unfold drift_beta. evar_last.
      * apply is_derive_comp; [apply is_derive_Reals; apply derivable_pt_lim_atan|]. auto_derive; [exact I|reflexivity].
      * unfold scal; simpl; unfold mult; simpl. field. split; [lra|].
        pose proof (pow2_ge_0 (x * 2 - L)). nra.
    + intros x _. apply (ex_derive_continuous (fun s => 1 / drift_beta L w s)). unfold drift_beta. auto_derive.
      assert (0 <= (x - L / 2) ^ 2 / w) by (apply Rmult_le_pos; [apply pow2_ge_0|left; apply Rinv_0_lt_compat; exact Hw]). simpl in *. nra.
  - unfold minus, plus, opp; simpl. replace ((0 - L / 2) / w) with (- ((L - L / 2) / w)) by (field; lra).
    rewrite atan_opp. replace ((L - L / 2) / w) with (L / (2 * w)) by (field; lra). ring.
Qed.

Theorem C77_phase_advance_partial : forall L phase, 0 < L -> 0 < phase < 1 / 2 ->
  sin (2 * PI * phase) <> 0 /\ is_RInt (fun s => 1 / drift_beta L (waist L phase) s) 0 L (2 * PI * phase).
Proof.
  intros L phase HL Hp. pose proof PI_RGT_0 as HPI.
  assert (Hs : 0 < sin (PI * phase)) by (apply sin_gt_0; nra).
  assert (Hc : 0 < cos (PI * phase)) by (apply cos_gt_0; nra).
  assert (H2 : sin (2 * PI * phase) <> 0) by (rewrite sin2x; apply Rgt_not_eq; apply Rmult_lt_0_compat; lra).
  split; [exact H2|].
  replace (2 * PI * phase) with (2 * atan (L / (2 * waist L phase))); [apply drift_phase; [exact HL|apply waist_pos; assumption]|].
  unfold waist. rewrite (Rabs_right (cos _)), (Rabs_right (sin _)) by lra.
  replace (L / (2 * (L / 2 * (cos (PI * phase) / sin (PI * phase))))) with (tan (PI * phase)) by (unfold tan; field; repeat split; lra).
  rewrite atan_tan by nra. ring.
Qed.
Print Assumptions C77_phase_advance_partial.

(** A phase between 1/2 and 1 is accepted but produces the optics of 1 - phase. *)
Theorem C77_phase_refuted : exists L phase, 0 < L /\ 1 / 2 < phase < 1 /\ sin (2 * PI * phase) <> 0 /\
  is_RInt (fun s => 1 / drift_beta L (waist L phase) s) 0 L (2 * PI * (1 - phase)) /\ 2 * PI * (1 - phase) <> 2 * PI * phase.
Proof.
  exists 1, (3 / 4). pose proof PI_RGT_0. split; [lra|]. split; [lra|].
  assert (E : sin (PI * (3 / 4)) = sin (PI * (1 / 4))) by (rewrite <- (sin_PI_x (PI * (1/4))); f_equal; field).
  assert (Ec : cos (PI * (3 / 4)) = - cos (PI * (1 / 4))).
  { replace (PI * (3 / 4)) with (PI - PI * (1/4)) by field. rewrite cos_minus, cos_PI, sin_PI. ring. }
  destruct (C77_phase_advance_partial 1 (1/4) ltac:(lra) ltac:(lra)) as [H1 H2].
  split.
  - rewrite sin2x, E, Ec. rewrite sin2x in H1. lra.
  - split; [|nra]. replace (1 - 3 / 4) with (1 / 4) by field.
    replace (waist 1 (3 / 4)) with (waist 1 (1 / 4)); [exact H2|]. unfold waist. rewrite E, Ec, Rabs_Ropp. reflexivity.
Qed.
Print Assumptions C77_phase_refuted.

(** ---------------- C27 ---------------- *)
(** What reading the five public attributes gives. *)
Definition attributes (s : insert) : R * R * R * R * Z := (i_length s, i_phase s, i_t s, i_c s, i_slices s).

Theorem C27_plain_attributes_partial : forall L ph t c n v z,
  let s := new_insert L ph t c n in
  rmap attributes (set_length v s) = Ok (v, ph, t, c, n) /\
  rmap attributes (set_phase v s) = Ok (L, v, t, c, n) /\
  rmap attributes (set_t v s) = Ok (L, ph, v, c, n) /\
  rmap attributes (set_slices z s) = Ok (L, ph, t, c, z) /\
  (v < 0 -> set_c v s = Err ValueError).
Proof. intros. repeat split. intros H. unfold set_c. destruct (Rlt_dec v 0); [reflexivity|lra]. Qed.
Print Assumptions C27_plain_attributes_partial.

(** c cannot be assigned at all: a valid value raises NameError. *)
Theorem C27_c_refuted : forall s v, 0 <= v -> set_c v s = Err NameError.
Proof. intros s v H. unfold set_c. destruct (Rlt_dec v 0); [lra|reflexivity]. Qed.
Print Assumptions C27_c_refuted.

(** ... while the constructor accepts the negative value that the setter refuses. *)
Theorem C27_constructor_refuted : attributes (new_insert 1 (1/3) 0 (-1) 4) = (1, 1/3, 0, -1, 4%Z).
Proof. reflexivity. Qed.
Print Assumptions C27_constructor_refuted.

(** ---------------- C78 ---------------- *)
Theorem C78_madx : forall fmt L phase t c n, 0 < L -> (0 < n)%nat -> sin (2 * PI * phase) <> 0 ->
  exists q m, generate_sequence (new_insert L phase t c (Z.of_nat n)) = Ok q /\
    create_madx fmt (Some q) = Ok m /\ List.length m = n /\
    forall k, (k < n)%nat ->
      nth k m EmptyString = ("nllens, knll = " ++ fmt (nth k (q_knll q) None) ++ ", cnll = " ++ fmt (nth k (q_cnll q) None) ++ ";")%string.
Proof.
  intros fmt L phase t c n HL Hn Hp.
  destruct (C26_insert L phase t c n HL Hn Hp) as (q & E & _ & _ & _ & _ & Lk & Lc & _).
  exists q. unfold create_madx. eexists. split; [exact E|]. split; [reflexivity|].
  revert Lk Lc. generalize (q_knll q) (q_cnll q). clear. 
  induction n as [|n IH]; intros [|a ks] [|b cs] Lk Lc; try discriminate.
  - split; [reflexivity|intros; lia].
  - cbn [madx_loop List.length]. destruct (IH ks cs) as [H1 H2]; [simpl in Lk; lia|simpl in Lc; lia|].
    split; [rewrite H1; reflexivity|]. intros [|k] Hk; [reflexivity|]. apply H2. lia.
Qed.
Print Assumptions C78_madx.

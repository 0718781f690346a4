(** Lemmas about phase advance and tune. *)
From Coq Require Import List Reals Lra Lia Psatz Bool Arith ZArith.
From Verif Require Import PyBase Phase_Model Phase_Spec.
Import ListNotations.
Open Scope R_scope.

Lemma arctan2_polar : forall x y, (x, y) <> (0, 0) ->
  - PI < arctan2 y x <= PI /\
  x = sqrt (x ^ 2 + y ^ 2) * cos (arctan2 y x) /\ y = sqrt (x ^ 2 + y ^ 2) * sin (arctan2 y x).
Proof.
  intros x y Hne. pose proof PI_RGT_0 as HPI.
  assert (At : forall u v, u <> 0 ->
     cos (atan (v / u)) = Rabs u / sqrt (u ^ 2 + v ^ 2) /\ sin (atan (v / u)) = Rabs u / u * v / sqrt (u ^ 2 + v ^ 2)).
  { intros u v Hu.
    assert (Hr : sqrt (u ^ 2 + v ^ 2) = Rabs u * sqrt (1 + (v / u) ^ 2)).
    { rewrite <- (sqrt_Rsqr_abs u), <- sqrt_mult; [|apply Rle_0_sqr|pose proof (pow2_ge_0 (v/u)); lra].
      f_equal. unfold Rsqr. field. exact Hu. }
    assert (Hp : 0 < sqrt (1 + (v / u) ^ 2)) by (apply sqrt_lt_R0; pose proof (pow2_ge_0 (v/u)); lra).
    assert (Ha : 0 < Rabs u) by (apply Rabs_pos_lt; exact Hu).
    rewrite Hr, cos_atan, sin_atan. unfold Rsqr.
    replace (1 + v / u * (v / u)) with (1 + (v / u) ^ 2) by ring.
    split; field; repeat split; lra. }
  unfold arctan2. destruct (Rlt_dec 0 x) as [Hx|Hx].
  - destruct (At x y ltac:(lra)) as [Hc Hs]. rewrite Hc, Hs, Rabs_right by lra.
    assert (0 < sqrt (x ^ 2 + y ^ 2)) by (apply sqrt_lt_R0; pose proof (pow2_ge_0 y); nra).
    pose proof (atan_bound (y / x)). split; [lra|]. split; field; lra.
  - destruct (Rlt_dec x 0) as [Hx'|Hx'].
    + destruct (At x y ltac:(lra)) as [Hc Hs]. rewrite Rabs_left in Hc, Hs by lra.
      assert (0 < sqrt (x ^ 2 + y ^ 2)) by (apply sqrt_lt_R0; pose proof (pow2_ge_0 y); nra).
      pose proof (atan_bound (y / x)) as B.
      destruct (Rle_dec 0 y) as [Hy|Hy].
      * split.
        { split; [lra|]. assert (y / x <= 0).
          { unfold Rdiv. assert (/ x < 0) by (apply Rinv_lt_0_compat; exact Hx'). nra. }
          destruct (Req_dec (y / x) 0) as [->|]; [rewrite atan_0; lra|].
          assert (atan (y / x) < atan 0) by (apply atan_increasing; lra). rewrite atan_0 in *. lra. }
        rewrite neg_cos, neg_sin, Hc, Hs. split; field; lra.
      * split.
        { split; [|lra]. assert (0 < y / x).
          { unfold Rdiv. assert (/ x < 0) by (apply Rinv_lt_0_compat; exact Hx'). nra. }
          assert (atan 0 < atan (y / x)) by (apply atan_increasing; lra). rewrite atan_0 in *. lra. }
        assert (C : cos (atan (y / x) - PI) = - cos (atan (y / x))).
        { rewrite cos_minus, cos_PI, sin_PI. ring. }
        assert (S : sin (atan (y / x) - PI) = - sin (atan (y / x))).
        { rewrite sin_minus, cos_PI, sin_PI. ring. }
        rewrite C, S, Hc, Hs. split; field; lra.
    + assert (x = 0) by lra. subst x.
      replace (0 ^ 2 + y ^ 2) with (y ^ 2) by ring. rewrite <- Rsqr_pow2, sqrt_Rsqr_abs.
      destruct (Rlt_dec 0 y) as [Hy|Hy].
      * rewrite cos_PI2, sin_PI2, Rabs_right by lra. lra.
      * destruct (Rlt_dec y 0) as [Hy'|Hy'].
        -- rewrite cos_neg, sin_neg, cos_PI2, sin_PI2, Rabs_left by lra. lra.
        -- exfalso. apply Hne. f_equal. lra.
Qed.

(** An angle is determined by its cosine and sine up to a full turn. *)
Lemma angle_unique : forall a b, cos a = cos b -> sin a = sin b -> - (2 * PI) < a - b < 2 * PI -> a = b.
Proof.
  intros a b Hc Hs Hr. pose proof PI_RGT_0.
  assert (C1 : cos (a - b) = 1).
  { rewrite cos_minus, Hc, Hs. pose proof (sin2_cos2 b) as P. unfold Rsqr in P. lra. }
  assert (S0 : sin ((a - b) / 2) = 0).
  { pose proof (cos_2a_sin ((a - b) / 2)) as P. replace (2 * ((a - b) / 2)) with (a - b) in P by field.
    assert (sin ((a - b) / 2) * sin ((a - b) / 2) = 0) by lra. nra. }
  destruct (Rtotal_order ((a - b) / 2) 0) as [Hn|[H0|Hp]]; [|lra|].
  - assert (0 < sin (- ((a - b) / 2))) by (apply sin_gt_0; lra). rewrite sin_neg in *. lra.
  - assert (0 < sin ((a - b) / 2)) by (apply sin_gt_0; lra). lra.
Qed.

Lemma angle_eq_of_vec : forall r a s b, 0 < r -> 0 < s -> r * cos a = s * cos b -> r * sin a = s * sin b ->
  cos a = cos b /\ sin a = sin b.
Proof.
  intros r a s b Hr Hs Hc Hn.
  pose proof (sin2_cos2 a) as Pa. pose proof (sin2_cos2 b) as Pb. unfold Rsqr in *.
  assert (r ^ 2 = s ^ 2).
  { transitivity ((r * cos a) ^ 2 + (r * sin a) ^ 2); [|rewrite Hc, Hn].
    - replace ((r * cos a) ^ 2 + (r * sin a) ^ 2) with (r ^ 2 * (sin a * sin a + cos a * cos a)) by ring. rewrite Pa. ring.
    - replace ((s * cos b) ^ 2 + (s * sin b) ^ 2) with (s ^ 2 * (sin b * sin b + cos b * cos b)) by ring. rewrite Pb. ring. }
  assert (r = s) by nra. subst s. split; nra.
Qed.

Lemma turned_nonzero : forall s th p, 0 < s -> p <> (0, 0) -> turned s th p <> (0, 0).
Proof.
  intros s th [x y] Hs Hp E. unfold turned in E. cbn [fst snd] in E. injection E as E1 E2.
  apply Hp. pose proof (sin2_cos2 th) as P. unfold Rsqr in P.
  assert (A1 : cos th * x + sin th * y = 0) by nra. assert (A2 : cos th * y - sin th * x = 0) by nra.
  assert (x = 0).
  { replace x with (x * (sin th * sin th + cos th * cos th)) by (rewrite P; ring).
    replace (x * (sin th * sin th + cos th * cos th)) with
      (cos th * (cos th * x + sin th * y) - sin th * (cos th * y - sin th * x)) by ring. rewrite A1, A2. ring. }
  assert (y = 0).
  { replace y with (y * (sin th * sin th + cos th * cos th)) by (rewrite P; ring).
    replace (y * (sin th * sin th + cos th * cos th)) with
      (sin th * (cos th * x + sin th * y) + cos th * (cos th * y - sin th * x)) by ring. rewrite A1, A2. ring. }
  subst. reflexivity.
Qed.

Lemma norm_pos : forall x y, (x, y) <> (0, 0) -> 0 < sqrt (x ^ 2 + y ^ 2).
Proof.
  intros x y H. apply sqrt_lt_R0. pose proof (pow2_ge_0 x). pose proof (pow2_ge_0 y).
  destruct (Req_dec x 0) as [->|Hx]; [destruct (Req_dec y 0) as [->|Hy]|].
  - exfalso. apply H. reflexivity.
  - assert (0 < y ^ 2) by (pose proof (Rsqr_pos_lt y Hy) as P; unfold Rsqr in P; lra). lra.
  - assert (0 < x ^ 2) by (pose proof (Rsqr_pos_lt x Hx) as P; unfold Rsqr in P; lra). lra.
Qed.

Lemma atan2_0 : - PI < arctan2 0 0 <= PI.
Proof. unfold arctan2. pose proof PI_RGT_0. repeat (destruct (Rlt_dec _ _); try lra). Qed.

Lemma atan2_range : forall y x, - PI < arctan2 y x <= PI.
Proof.
  intros y x. destruct (Req_dec x 0) as [->|Hx]; [destruct (Req_dec y 0) as [->|Hy]|].
  - apply atan2_0.
  - apply arctan2_polar. intro E. injection E. intros. lra.
  - apply arctan2_polar. intro E. injection E. intros. lra.
Qed.

Lemma advance_clockwise : forall p s th, p <> (0, 0) -> 0 < s -> 0 <= th < 2 * PI ->
  phase_advance p (turned s th p) true = th.
Proof.
  intros [x y] s th Hp Hs Hth. pose proof PI_RGT_0 as HPI.
  destruct (arctan2_polar x y Hp) as (B1 & X1 & Y1).
  destruct (turned s th (x, y)) as [u v] eqn:ET.
  assert (Hq : (u, v) <> (0, 0)) by (rewrite <- ET; apply turned_nonzero; assumption).
  destruct (arctan2_polar u v Hq) as (B2 & X2 & Y2).
  unfold turned in ET. cbn [fst snd] in ET. injection ET as EU EV.
  set (a := arctan2 y x) in *. set (b := arctan2 v u) in *.
  set (r := sqrt (x ^ 2 + y ^ 2)) in *. set (q := sqrt (u ^ 2 + v ^ 2)) in *.
  assert (Hr : 0 < r) by (apply norm_pos; exact Hp). assert (Hqp : 0 < q) by (apply norm_pos; exact Hq).
  destruct (angle_eq_of_vec q b (s * r) (a - th) Hqp ltac:(nra)) as [EC ES].
  { rewrite <- X2, <- EU, X1, Y1, cos_minus. ring. }
  { rewrite <- Y2, <- EV, X1, Y1, sin_minus. ring. }
  assert (EC' : cos (a - b) = cos th).
  { rewrite cos_minus, EC, ES, cos_minus, sin_minus. pose proof (sin2_cos2 a) as P. unfold Rsqr in P.
    replace (cos a * (cos a * cos th + sin a * sin th) + sin a * (sin a * cos th - cos a * sin th))
      with ((sin a * sin a + cos a * cos a) * cos th) by ring. rewrite P. ring. }
  assert (ES' : sin (a - b) = sin th).
  { rewrite sin_minus, EC, ES, cos_minus, sin_minus. pose proof (sin2_cos2 a) as P. unfold Rsqr in P.
    replace (sin a * (cos a * cos th + sin a * sin th) - cos a * (sin a * cos th - cos a * sin th))
      with ((sin a * sin a + cos a * cos a) * sin th) by ring. rewrite P. ring. }
  unfold phase_advance. cbn [fst snd negb]. fold a b. destruct (Rlt_dec (a - b) 0) as [Hn|Hn].
  - apply angle_unique; [| |lra].
    + replace (2 * PI + (a - b)) with ((a - b) + 2 * INR 1 * PI) by (simpl; ring). rewrite cos_period. exact EC'.
    + replace (2 * PI + (a - b)) with ((a - b) + 2 * INR 1 * PI) by (simpl; ring). rewrite sin_period. exact ES'.
  - apply angle_unique; [exact EC'|exact ES'|lra].
Qed.

Lemma advance_range : forall p q, 0 <= phase_advance p q true < 2 * PI.
Proof.
  intros [x y] [u v]. unfold phase_advance. cbn [fst snd negb].
  pose proof (atan2_range y x). pose proof (atan2_range v u). destruct (Rlt_dec _ _); lra.
Qed.

(** ** argmax *)
Lemma argmax_loop_spec : forall l pos best bv d,
  (best < pos)%nat ->
  let r := argmax_loop l pos best bv in
  let val i := if Nat.ltb i pos then bv else nth (i - pos) l d in
  ((r = best \/ (pos <= r < pos + List.length l)%nat) /\
   bv <= (if Nat.eqb r best then bv else val r) /\
   (forall k, (k < List.length l)%nat -> nth k l d <= (if Nat.eqb r best then bv else val r)) /\
   (forall k, (k < List.length l)%nat -> (pos + k < r)%nat -> nth k l d < (if Nat.eqb r best then bv else val r)) /\
   (r <> best -> bv < val r)).
Proof.
  induction l as [|x l IH]; intros pos best bv d Hb; cbn [argmax_loop].
  - cbn zeta. rewrite Nat.eqb_refl. split; [left; reflexivity|]. split; [lra|]. split; [simpl; intros; lia|].
    split; [simpl; intros; lia|]. intros H; contradiction.
  - destruct (Rlt_dec bv x) as [Hlt|Hge].
    + destruct (IH (S pos) pos x d ltac:(lia)) as (H1 & H2 & H3 & H4 & H5). cbv zeta in *.
      set (r := argmax_loop l (S pos) pos x) in *.
      assert (Hrb : Nat.eqb r best = false) by (apply Nat.eqb_neq; destruct H1; lia).
      assert (Hval : (if Nat.ltb r pos then bv else nth (r - pos) (x :: l) d)
        = (if Nat.eqb r pos then x else if Nat.ltb r (S pos) then x else nth (r - S pos) l d)).
      { destruct H1 as [->|H1].
        - rewrite Nat.ltb_irrefl, Nat.sub_diag, Nat.eqb_refl. reflexivity.
        - destruct (Nat.ltb_spec r pos); [lia|]. destruct (Nat.eqb_spec r pos); [lia|].
          destruct (Nat.ltb_spec r (S pos)); [lia|]. replace (r - pos)%nat with (S (r - S pos)) by lia. reflexivity. }
      rewrite Hrb, Hval. split; [right; simpl; lia|]. split; [lra|]. split.
      * intros [|k] Hk; cbn [nth]; [exact H2|]. apply H3. simpl in Hk. lia.
      * split; [|intros _; lra]. intros [|k] Hk Hkr; cbn [nth].
        -- assert (r <> pos) by lia. specialize (H5 H). destruct (Nat.eqb_spec r pos); [lia|]. exact H5.
        -- apply H4; [simpl in Hk; lia|lia].
    + destruct (IH (S pos) best bv d ltac:(lia)) as (H1 & H2 & H3 & H4 & H5). cbv zeta in *.
      set (r := argmax_loop l (S pos) best bv) in *.
      assert (Hval : (if Nat.eqb r best then bv else if Nat.ltb r pos then bv else nth (r - pos) (x :: l) d)
        = (if Nat.eqb r best then bv else if Nat.ltb r (S pos) then bv else nth (r - S pos) l d)).
      { destruct (Nat.eqb_spec r best); [reflexivity|]. destruct H1 as [|H1]; [contradiction|].
        destruct (Nat.ltb_spec r pos); [lia|]. destruct (Nat.ltb_spec r (S pos)); [lia|].
        replace (r - pos)%nat with (S (r - S pos)) by lia. reflexivity. }
      split; [destruct H1; [left; assumption|right; simpl; lia]|]. rewrite Hval. split; [exact H2|]. split.
      * intros [|k] Hk; cbn [nth]; [lra|]. apply H3. simpl in Hk. lia.
      * split.
        -- intros [|k] Hk Hkr; cbn [nth].
           ++ assert (Hne : r <> best) by lia. specialize (H5 Hne). apply Nat.eqb_neq in Hne. rewrite Hne. lra.
           ++ apply H4; [simpl in Hk; lia|lia].
        -- intros Hne. specialize (H5 Hne). apply Nat.eqb_neq in Hne. rewrite Hne in Hval. rewrite Hval. exact H5.
Qed.

Lemma argmax_spec : forall l, l <> [] ->
  (argmax l < List.length l)%nat /\
  (forall k, (k < List.length l)%nat -> nth k l 0 <= nth (argmax l) l 0) /\
  (forall k, (k < argmax l)%nat -> nth k l 0 < nth (argmax l) l 0).
Proof.
  intros [|x l] H; [contradiction|]. unfold argmax.
  destruct (argmax_loop_spec l 1 0 x 0 ltac:(lia)) as (H1 & H2 & H3 & H4 & H5). cbv zeta in *.
  set (r := argmax_loop l 1 0 x) in *.
  assert (Hv : nth r (x :: l) 0 = (if Nat.eqb r 0 then x else if Nat.ltb r 1 then x else nth (r - 1) l 0)).
  { destruct r as [|r']; [reflexivity|]. cbn [Nat.eqb]. destruct (Nat.ltb_spec (S r') 1); [lia|].
    replace (S r' - 1)%nat with r' by lia. reflexivity. }
  rewrite Hv. split; [simpl; lia|]. split.
  - intros [|k] Hk; cbn [nth]; [exact H2|]. apply H3. simpl in Hk. lia.
  - intros [|k] Hk; cbn [nth].
    + assert (Hne : r <> 0%nat) by lia. specialize (H5 Hne). apply Nat.eqb_neq in Hne. rewrite Hne. exact H5.
    + apply H4; lia.
Qed.

(** ** The spectrum of a tone *)
From Verif Require Import Stats_Spec Stats_Proofs.

Lemma dft_from_seq : forall n j f len k,
  dft_from n k j (map f (seq k len)) =
  (total (map (fun i => f i * cos (2 * PI * INR j * INR i / INR n)) (seq k len)),
   - total (map (fun i => f i * sin (2 * PI * INR j * INR i / INR n)) (seq k len))).
Proof.
  intros n j f. induction len as [|len IH]; intros k.
  - cbn. f_equal. ring.
  - cbn [seq map dft_from]. rewrite IH. cbn [fst snd]. rewrite !total_cons. f_equal. ring.
Qed.

(** Sum over a whole number of samples of a cosine with q periods in n samples. *)
Definition csum (n : nat) (q : Z) (ph : R) : R :=
  total (map (fun k => cos (2 * PI * IZR q * INR k / INR n + ph)) (seq 0 n)).

Lemma csum_full : forall n q ph, csum n (Z.of_nat n * q) ph = INR n * cos ph.
Proof.
  intros n q ph. unfold csum. destruct n as [|n]; [cbn; ring|].
  assert (Hn : INR (S n) <> 0) by (apply not_0_INR; lia).
  rewrite (total_ext _ (fun _ => cos ph)).
  - rewrite total_map_const, seq_length. ring.
  - intros k _. rewrite mult_IZR, <- INR_IZR_INZ.
    replace (2 * PI * (INR (S n) * IZR q) * INR k / INR (S n) + ph) with (ph + 2 * IZR (q * Z.of_nat k) * PI).
    + assert (P : forall x z, cos (x + 2 * IZR z * PI) = cos x).
      { intros x z. destruct (Z_le_dec 0 z).
        - replace (IZR z) with (INR (Z.to_nat z)) by (rewrite INR_IZR_INZ, Z2Nat.id by lia; reflexivity). apply cos_period.
        - rewrite <- (cos_period (x + 2 * IZR z * PI) (Z.to_nat (- z))). rewrite INR_IZR_INZ, Z2Nat.id by lia.
          rewrite opp_IZR. f_equal. ring. }
      apply P.
    + rewrite mult_IZR, <- INR_IZR_INZ. field. exact Hn.
Qed.

Lemma csum_zero : forall n q ph, (0 < n)%nat -> ~ (exists t, q = Z.of_nat n * t)%Z -> csum n q ph = 0.
Proof.
  intros n q ph Hn0 Hq.
  assert (Hn : 0 < INR n) by (apply lt_0_INR; exact Hn0).
  set (h := PI * IZR q / INR n).
  assert (Hs : sin h <> 0).
  { intro E. apply sin_eq_0_0 in E. destruct E as [t Et]. apply Hq. exists t. apply eq_IZR. rewrite mult_IZR, <- INR_IZR_INZ.
    pose proof PI_RGT_0. unfold h in Et.
    assert (E2 : PI * IZR q = IZR t * PI * INR n).
    { rewrite <- Et. field. lra. }
    nra. }
  assert (T : forall len, 2 * sin h * total (map (fun k => cos (2 * PI * IZR q * INR k / INR n + ph)) (seq 0 len))
     = sin (2 * h * INR len + ph - h) - sin (ph - h)).
  { induction len as [|len IH].
    - cbn [seq map]. unfold total. simpl fold_right. replace (2 * h * INR 0 + ph - h) with (ph - h) by (simpl; ring). ring.
    - rewrite seq_S, map_app, total_app, Rmult_plus_distr_l, IH. cbn [map]. rewrite total_single. rewrite Nat.add_0_l.
      replace (2 * PI * IZR q * INR len / INR n + ph) with (2 * h * INR len + ph) by (unfold h; field; lra).
      rewrite S_INR. replace (2 * h * (INR len + 1) + ph - h) with ((2 * h * INR len + ph) + h) by ring.
      set (x := 2 * h * INR len + ph). rewrite sin_plus, sin_minus. ring. }
  specialize (T n). fold (csum n q ph) in T.
  replace (2 * h * INR n + ph - h) with ((ph - h) + 2 * IZR q * PI) in T by (unfold h; field; lra).
  assert (P : forall x z, sin (x + 2 * IZR z * PI) = sin x).
  { intros x z. destruct (Z_le_dec 0 z).
    - replace (IZR z) with (INR (Z.to_nat z)) by (rewrite INR_IZR_INZ, Z2Nat.id by lia; reflexivity). apply sin_period.
    - rewrite <- (sin_period (x + 2 * IZR z * PI) (Z.to_nat (- z))). rewrite INR_IZR_INZ, Z2Nat.id by lia.
      rewrite opp_IZR. f_equal. ring. }
  rewrite P in T. assert (2 * sin h * csum n q ph = 0) by lra. 
  destruct (Rmult_integral _ _ H) as [E|E]; [exfalso; apply Hs; lra|exact E].
Qed.

Lemma dft_tone : forall off amp ph m n j,
  dft (map (tone off amp ph m n) (seq 0 n)) j =
  (off * csum n (Z.of_nat j) 0 + amp / 2 * (csum n (Z.of_nat m - Z.of_nat j) ph + csum n (Z.of_nat m + Z.of_nat j) ph),
   - (off * csum n (Z.of_nat j) (- (PI / 2)) +
      amp / 2 * (csum n (Z.of_nat m + Z.of_nat j) (ph - PI / 2) - csum n (Z.of_nat m - Z.of_nat j) (ph - PI / 2)))).
Proof.
  intros off amp ph m n j. unfold dft. rewrite map_length, seq_length, dft_from_seq. unfold csum.
  rewrite !minus_IZR, !plus_IZR, <- !INR_IZR_INZ.
  assert (E1 : forall f g h a b (l : list nat), total (map (fun k => a * f k + b * (g k + h k)) l) =
     a * total (map f l) + b * (total (map g l) + total (map h l))).
  { intros f g h a b l. induction l as [|x l IH]; cbn [map]; [unfold total; simpl; ring|]. rewrite !total_cons, IH. ring. }
  assert (E2 : forall f g h a b (l : list nat), total (map (fun k => a * f k + b * (g k - h k)) l) =
     a * total (map f l) + b * (total (map g l) - total (map h l))).
  { intros f g h a b l. induction l as [|x l IH]; cbn [map]; [unfold total; simpl; ring|]. rewrite !total_cons, IH. ring. }
  assert (S : forall x, cos (x - PI / 2) = sin x) by (intros x; rewrite cos_minus, cos_PI2, sin_PI2; ring).
  f_equal.
  - rewrite <- E1. apply total_ext. intros k _. unfold tone.
    set (a := 2 * PI * INR m * INR k / INR n + ph). set (b := 2 * PI * INR j * INR k / INR n).
    replace (2 * PI * (INR m - INR j) * INR k / INR n + ph) with (a - b) by (unfold a, b, Rdiv; ring).
    replace (2 * PI * (INR m + INR j) * INR k / INR n + ph) with (a + b) by (unfold a, b, Rdiv; ring).
    rewrite Rplus_0_r, cos_minus, cos_plus. fold b. field.
  - f_equal. rewrite <- E2. apply total_ext. intros k _. unfold tone.
    set (a := 2 * PI * INR m * INR k / INR n + ph). set (b := 2 * PI * INR j * INR k / INR n).
    replace (2 * PI * (INR m - INR j) * INR k / INR n + (ph - PI / 2)) with ((a - b) - PI / 2) by (unfold a, b, Rdiv; ring).
    replace (2 * PI * (INR m + INR j) * INR k / INR n + (ph - PI / 2)) with ((a + b) - PI / 2) by (unfold a, b, Rdiv; ring).
    replace (b + - (PI / 2)) with (b - PI / 2) by ring.
    rewrite !S, sin_minus, sin_plus. fold b. field.
Qed.

Lemma not_mult : forall n q, (0 < n)%nat -> (- Z.of_nat n < q < Z.of_nat n)%Z -> q <> 0%Z -> ~ (exists t, q = Z.of_nat n * t)%Z.
Proof. intros n q Hn Hq H0 [t E]. assert (t <> 0)%Z by (intro; subst t; lia). nia. Qed.
Lemma not_mult2 : forall n q, (0 < n)%nat -> (Z.of_nat n < q < 2 * Z.of_nat n)%Z -> ~ (exists t, q = Z.of_nat n * t)%Z.
Proof. intros n q Hn Hq [t E]. destruct (Z_le_dec t 1); nia. Qed.

Definition bin (l : list R) (j : nat) : R := sqrt (fst (dft l j) ^ 2 + snd (dft l j) ^ 2).

Lemma sqrt_sq_abs : forall x, sqrt (x ^ 2) = Rabs x.
Proof. intros. rewrite <- Rsqr_pow2. apply sqrt_Rsqr_abs. Qed.

Lemma bin_tone : forall off amp ph m n j, (0 < m)%nat -> (2 * m < n)%nat -> (j < n)%nat ->
  bin (map (tone off amp ph m n) (seq 0 n)) j =
    if Nat.eqb j 0 then INR n * Rabs off
    else if Nat.eqb j m || Nat.eqb j (n - m) then INR n * Rabs amp / 2 else 0.
Proof.
  intros off amp ph m n j Hm H2 Hj. unfold bin. rewrite dft_tone. cbn [fst snd].
  assert (Hn : 0 <= INR n) by apply pos_INR.
  destruct (Nat.eqb_spec j 0) as [->|Hj0].
  - change (Z.of_nat 0) with 0%Z. rewrite Z.sub_0_r, Z.add_0_r.
    assert (F : forall q, csum n 0 q = INR n * cos q) by (intros q; replace 0%Z with (Z.of_nat n * 0)%Z by lia; apply csum_full).
    rewrite !F. rewrite !(csum_zero n (Z.of_nat m)) by (try lia; apply not_mult; lia).
    rewrite cos_0, cos_neg, cos_PI2.
    replace ((off * (INR n * 1) + amp / 2 * (0 + 0)) ^ 2 + (- (off * (INR n * 0) + amp / 2 * (0 - 0))) ^ 2)
      with ((INR n * off) ^ 2) by ring.
    rewrite sqrt_sq_abs, Rabs_mult, (Rabs_right (INR n)) by lra. reflexivity.
  - assert (J : forall q, csum n (Z.of_nat j) q = 0) by (intros; apply csum_zero; [lia|apply not_mult; lia]).
    assert (CS : forall x y : R, x = INR n * cos ph -> y = INR n * cos (ph - PI / 2) ->
       sqrt ((amp / 2 * x) ^ 2 + (amp / 2 * y) ^ 2) = INR n * Rabs amp / 2).
    { intros x y -> ->. rewrite cos_minus, cos_PI2, sin_PI2. pose proof (sin2_cos2 ph) as P. unfold Rsqr in P.
      replace ((amp / 2 * (INR n * cos ph)) ^ 2 + (amp / 2 * (INR n * (cos ph * 0 + sin ph * 1))) ^ 2)
        with ((INR n * amp / 2) ^ 2 * (sin ph * sin ph + cos ph * cos ph)) by field.
      rewrite P, Rmult_1_r, sqrt_sq_abs. unfold Rdiv. rewrite !Rabs_mult, (Rabs_right (INR n)), (Rabs_right (/ 2)) by lra. reflexivity. }
    rewrite !J. destruct (Nat.eqb_spec j m) as [->|Hjm]; cbn [orb].
    + rewrite Z.sub_diag.
      assert (F : forall q, csum n 0 q = INR n * cos q) by (intros q; replace 0%Z with (Z.of_nat n * 0)%Z by lia; apply csum_full).
      rewrite !(csum_zero n (Z.of_nat m + Z.of_nat m)) by (try lia; apply not_mult; lia).
      rewrite <- (CS (csum n 0 ph) (csum n 0 (ph - PI / 2))) by apply F. f_equal. ring.
    + destruct (Nat.eqb_spec j (n - m)) as [->|Hjn].
      * replace (Z.of_nat m + Z.of_nat (n - m))%Z with (Z.of_nat n * 1)%Z by lia.
        rewrite !(csum_zero n (Z.of_nat m - Z.of_nat (n - m))) by (try lia; apply not_mult; lia).
        rewrite <- (CS (csum n (Z.of_nat n * 1) ph) (csum n (Z.of_nat n * 1) (ph - PI / 2))) by apply csum_full. f_equal. ring.
      * rewrite !(csum_zero n (Z.of_nat m - Z.of_nat j)) by (try lia; apply not_mult; lia).
        rewrite !(csum_zero n (Z.of_nat m + Z.of_nat j)).
        -- transitivity (sqrt 0); [f_equal; ring|apply sqrt_0].
        -- lia.
        -- destruct (Z_lt_dec (Z.of_nat m + Z.of_nat j) (Z.of_nat n)); [apply not_mult; lia|apply not_mult2; lia].
        -- lia.
        -- destruct (Z_lt_dec (Z.of_nat m + Z.of_nat j) (Z.of_nat n)); [apply not_mult; lia|apply not_mult2; lia].
Qed.

Lemma spectrum_nth : forall l j, (j < List.length l)%nat -> nth j (spectrum l) 0 = bin l j.
Proof.
  intros l j Hj. unfold spectrum. rewrite (nth_indep (map (bin l) (seq 0 (List.length l))) 0 (bin l 0)) by (rewrite map_length, seq_length; exact Hj).
  rewrite (map_nth (bin l)), seq_nth by exact Hj. reflexivity.
Qed.
Lemma spectrum_len : forall l, List.length (spectrum l) = List.length l.
Proof. intros. unfold spectrum. rewrite map_length, seq_length. reflexivity. Qed.

Lemma argmax_tone : forall off amp ph m n, (0 < m)%nat -> (2 * m < n)%nat ->
  let l := map (tone off amp ph m n) (seq 0 n) in
  (Rabs off < Rabs amp / 2 -> argmax (spectrum l) = m) /\
  (Rabs amp / 2 <= Rabs off -> argmax (spectrum l) = 0%nat).
Proof.
  intros off amp ph m n Hm H2 l.
  assert (Hlen : List.length l = n) by (unfold l; rewrite map_length, seq_length; reflexivity).
  assert (Hn : 0 < INR n) by (apply lt_0_INR; lia).
  assert (Hne : spectrum l <> []) by (intro E; apply (f_equal (@List.length R)) in E; rewrite spectrum_len, Hlen in E; simpl in E; lia).
  destruct (argmax_spec _ Hne) as (H1 & Hmax & Hfirst). rewrite spectrum_len, Hlen in H1, Hmax.
  set (r := argmax (spectrum l)) in *.
  assert (B : forall j, (j < n)%nat -> nth j (spectrum l) 0 =
    if Nat.eqb j 0 then INR n * Rabs off else if Nat.eqb j m || Nat.eqb j (n - m) then INR n * Rabs amp / 2 else 0).
  { intros j Hj. rewrite spectrum_nth by lia. apply bin_tone; assumption. }
  assert (Bm : nth m (spectrum l) 0 = INR n * Rabs amp / 2).
  { rewrite B by lia. destruct (Nat.eqb_spec m 0); [lia|]. rewrite Nat.eqb_refl. reflexivity. }
  assert (B0 : nth 0 (spectrum l) 0 = INR n * Rabs off) by (rewrite B by lia; reflexivity).
  pose proof (Rabs_pos off). pose proof (Rabs_pos amp).
  split; intros Ho.
  - pose proof (Hmax m ltac:(lia)) as Hx. rewrite Bm, B in Hx by exact H1.
    destruct (Nat.eqb_spec r 0) as [E0|E0]; [exfalso; nra|].
    destruct (Nat.eqb_spec r m) as [Em|Em]; [exact Em|]. cbn [orb] in Hx.
    destruct (Nat.eqb_spec r (n - m)) as [En|En].
    + exfalso. pose proof (Hfirst m ltac:(lia)) as Hf. rewrite Bm, B in Hf by exact H1.
      destruct (Nat.eqb_spec r 0); [contradiction|]. destruct (Nat.eqb_spec r m); [contradiction|].
      destruct (Nat.eqb_spec r (n - m)); [|contradiction]. cbn [orb] in Hf. lra.
    + exfalso. nra.
  - destruct (Nat.eq_dec r 0) as [|E0]; [assumption|]. exfalso.
    pose proof (Hfirst 0%nat ltac:(lia)) as Hf. rewrite B0, B in Hf by exact H1.
    destruct (Nat.eqb_spec r 0); [contradiction|]. destruct (Nat.eqb r m || Nat.eqb r (n - m)); nra.
Qed.

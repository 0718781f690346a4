From Coq Require Import List Reals Lra Lia Psatz Bool Arith ZArith.
From Verif Require Import PyBase Stats_Model Stats_Spec Stats_Proofs Jacobi_Proofs Decor_Proofs Twiss_Model Twiss_Spec.
Import ListNotations.
Open Scope R_scope.

Lemma msqrt_ok : forall x, 0 <= x -> msqrt x = Ok (sqrt x).
Proof. intros x H. unfold msqrt. destruct (Rlt_dec x 0); [lra|reflexivity]. Qed.
Lemma pdiv_ok : forall x y, y <> 0 -> pdiv x y = Ok (x / y).
Proof. intros x y H. unfold pdiv. destruct (Req_EM_T y 0); [contradiction|reflexivity]. Qed.

Lemma mu_lin2 : forall N a b f g, mu N (fun k => a * f k + b * g k) = a * mu N f + b * mu N g.
Proof. intros. unfold mu. rewrite tot_lin. unfold Rdiv. ring. Qed.

Lemma cv_lin2 : forall N a b c d f g,
  cv N (fun k => a * f k + b * g k) (fun k => c * f k + d * g k) =
  a * c * cv N f f + (a * d + b * c) * cv N f g + b * d * cv N g g.
Proof.
  intros. unfold cv. rewrite !mu_lin2.
  rewrite (tot_ext N _ (fun k => 1 * ((a * c) * ((f k - mu N f) * (f k - mu N f)) + (b * d) * ((g k - mu N g) * (g k - mu N g)))
     + (a * d + b * c) * ((f k - mu N f) * (g k - mu N g)))).
  2:{ intros k _. ring. }
  rewrite (tot_lin N 1 (a * d + b * c) (fun k => (a * c) * ((f k - mu N f) * (f k - mu N f)) + (b * d) * ((g k - mu N g) * (g k - mu N g)))
      (fun k => (f k - mu N f) * (g k - mu N g))).
  rewrite (tot_lin N (a * c) (b * d) (fun k => (f k - mu N f) * (f k - mu N f)) (fun k => (g k - mu N g) * (g k - mu N g))).
  unfold Rdiv. ring.
Qed.

Definition lin2 (a b : R) (u v : list R) : list R := map (fun p => a * fst p + b * snd p) (combine u v).

Lemma lin2_fun : forall a b f g N,
  lin2 a b (map f (seq 0 N)) (map g (seq 0 N)) = map (fun k => a * f k + b * g k) (seq 0 N).
Proof. intros. unfold lin2. rewrite combine_map, map_map. reflexivity. Qed.

Lemma lin2_cov : forall a b c d u v, length u = length v ->
  covariance (lin2 a b u v) (lin2 c d u v) =
  a * c * covariance u u + (a * d + b * c) * covariance u v + b * d * covariance v v.
Proof.
  intros a b c d u v H. rewrite (list_as_map u), (list_as_map v), <- H.
  rewrite !lin2_fun, !covariance_fun. apply cv_lin2.
Qed.

Lemma lin2_mean : forall a b u v, length u = length v -> mean (lin2 a b u v) = a * mean u + b * mean v.
Proof.
  intros a b u v H. rewrite (list_as_map u), (list_as_map v), <- H.
  rewrite lin2_fun, !mean_fun. apply mu_lin2.
Qed.

Lemma lin2_length : forall a b u v, length u = length v -> length (lin2 a b u v) = length u.
Proof. intros. unfold lin2. rewrite map_length, combine_length, H. lia. Qed.

Lemma lin2_hd : forall a b u v, length u = length v -> hd 0 (lin2 a b u v) = a * hd 0 u + b * hd 0 v.
Proof. intros a b [|x u] [|y v] H; try discriminate; simpl; ring. Qed.

(** the coefficients of one plane *)
Lemma plane_coeffs_spec : forall t, 0 < tw_beta t -> 0 <= tw_emit t ->
  let al := tw_alpha t in let be := tw_beta t in let ga := (1 + al ^ 2) / be in
  exists fac f_inv s c, plane_coeffs t = Ok (fac, f_inv, s, c, sqrt (tw_emit t)) /\
    fac ^ 2 * c ^ 2 + f_inv ^ 2 * s ^ 2 = be /\
    fac ^ 2 * s ^ 2 + f_inv ^ 2 * c ^ 2 = ga /\
    (fac ^ 2 - f_inv ^ 2) * (s * c) = (if Rlt_dec al 0 then (if Req_EM_T ga be then al else - al) else - al).
Proof.
  intros t Hb He al be ga.
  assert (Hbg : be * ga = 1 + al ^ 2) by (unfold ga; field; unfold be; lra).
  assert (Hga : 0 < ga).
  { unfold ga. apply Rmult_lt_0_compat; [pose proof (pow2_ge_0 al); lra|apply Rinv_0_lt_compat; exact Hb]. }
  unfold plane_coeffs. fold al be. rewrite pdiv_ok by (unfold be; lra). cbn [rbind]. fold ga.
  set (g := ga - be).
  assert (HR : 0 <= g ^ 2 + 4 * al ^ 2) by (pose proof (pow2_ge_0 g); pose proof (pow2_ge_0 al); lra).
  rewrite msqrt_ok by exact HR. cbn [rbind]. set (rt := sqrt (g ^ 2 + 4 * al ^ 2)).
  assert (Hrt0 : 0 <= rt) by apply sqrt_pos.
  assert (Hrt2 : rt ^ 2 = g ^ 2 + 4 * al ^ 2) by (unfold rt; apply pow2_sqrt; exact HR).
  assert (Hlt : rt < ga + be).
  { apply Rsqr_incrst_0; [|exact Hrt0|unfold be in *; lra]. unfold Rsqr.
    replace (rt * rt) with (rt ^ 2) by ring. rewrite Hrt2. unfold g. nra. }
  set (A := 1 / 2 * (ga + be - rt)). set (B := 1 / 2 * (ga + be + rt)).
  assert (HA : 0 <= A) by (unfold A; lra). assert (HB : 0 <= B) by (unfold B; lra).
  destruct (Req_EM_T al 0) as [Hal|Hal].
  - (* alpha = 0 *)
    destruct (Rle_dec 0 g) as [Hg|Hg]; rewrite !msqrt_ok by assumption; cbn [rbind];
    rewrite Hal in *; (destruct (Rlt_dec (0 * g) 0); [lra|]); cbn [rbind fst snd];
    rewrite ?msqrt_ok by exact He; cbn [rbind];
    do 4 eexists; (split; [reflexivity|]); rewrite !pow2_sqrt by assumption;
    assert (Habs : rt = Rabs g)
      by (unfold rt; rewrite Hal; replace (g ^ 2 + 4 * 0 ^ 2) with (Rsqr g) by (unfold Rsqr; ring); apply sqrt_Rsqr_abs).
    + rewrite Rabs_right in Habs by lra. unfold A, B. rewrite Habs. unfold g.
      destruct (Rlt_dec 0 0); [lra|]. repeat split; field.
    + rewrite Rabs_left in Habs by lra. unfold A, B. rewrite Habs. unfold g.
      destruct (Rlt_dec 0 0); [lra|]. repeat split; field.
  - assert (Hal2 : 0 < al ^ 2) by (pose proof (Rsqr_pos_lt al Hal) as P; unfold Rsqr in P; lra).
    assert (Hrt : 0 < rt).
    { destruct Hrt0 as [|E]; [assumption|]. rewrite <- E in Hrt2. pose proof (pow2_ge_0 g). lra. }
    set (q := Rabs g / rt).
    assert (Hq0 : 0 <= q) by (unfold q; apply Rmult_le_pos; [apply Rabs_pos|left; apply Rinv_0_lt_compat; exact Hrt]).
    assert (Hqrt : q * rt = Rabs g) by (unfold q; field; lra).
    assert (Hq2 : (q * rt) ^ 2 = g ^ 2) by (rewrite Hqrt; apply pow2_abs).
    assert (Hq1 : q < 1).
    { apply Rmult_lt_reg_r with rt; [exact Hrt|]. rewrite Hqrt, Rmult_1_l.
      apply Rsqr_incrst_0; [|apply Rabs_pos|exact Hrt0]. rewrite <- Rsqr_abs. unfold Rsqr.
      replace (rt * rt) with (rt ^ 2) by ring. rewrite Hrt2. lra. }
    set (S2 := 1 / 2 * (1 - q)). set (C2 := 1 / 2 * (1 + q)).
    assert (HS : 0 <= S2) by (unfold S2; lra). assert (HC : 0 <= C2) by (unfold C2; lra).
    assert (Hsc : sqrt S2 * sqrt C2 = Rabs al / rt).
    { rewrite <- sqrt_mult by assumption.
      replace (S2 * C2) with (Rsqr (al / rt)).
      - rewrite sqrt_Rsqr_abs. unfold Rdiv. rewrite Rabs_mult, (Rabs_right (/ rt)); [reflexivity|].
        apply Rle_ge. left. apply Rinv_0_lt_compat. exact Hrt.
      - unfold S2, C2, Rsqr. apply Rmult_eq_reg_r with (4 * rt ^ 2); [|nra].
        replace (al / rt * (al / rt) * (4 * rt ^ 2)) with (4 * al ^ 2) by (field; lra).
        replace (1 / 2 * (1 - q) * (1 / 2 * (1 + q)) * (4 * rt ^ 2)) with (rt ^ 2 - (q * rt) ^ 2) by field.
        rewrite Hq2, Hrt2. ring. }
    rewrite (pdiv_ok (Rabs g) rt) by lra. fold q.
    cbn [rbind]. fold S2 C2. rewrite (msqrt_ok S2), (msqrt_ok C2) by assumption.
    assert (Hqg : Rabs g = q * rt) by lra.
    destruct (Rle_dec 0 g) as [Hg|Hg]; rewrite !msqrt_ok by assumption; cbn [rbind fst snd].
    + rewrite Rabs_right in Hqg by lra.
      assert (K1 : A * C2 + B * S2 = be).
      { unfold A, B, S2, C2. replace (1 / 2 * (ga + be - rt) * (1 / 2 * (1 + q)) + 1 / 2 * (ga + be + rt) * (1 / 2 * (1 - q)))
          with (1 / 2 * (ga + be - q * rt)) by field. rewrite <- Hqg. unfold g. field. }
      assert (K2 : A * S2 + B * C2 = ga).
      { unfold A, B, S2, C2. replace (1 / 2 * (ga + be - rt) * (1 / 2 * (1 - q)) + 1 / 2 * (ga + be + rt) * (1 / 2 * (1 + q)))
          with (1 / 2 * (ga + be + q * rt)) by field. rewrite <- Hqg. unfold g. field. }
      do 4 eexists. split; [reflexivity|].
      rewrite (pow2_sqrt A), (pow2_sqrt B), (pow2_sqrt C2) by assumption.
      assert (HAB : A - B = - rt) by (unfold A, B; field). rewrite HAB.
      destruct (Rlt_dec (al * g) 0) as [Hs|Hs].
      * replace ((- sqrt S2) ^ 2) with S2 by (rewrite <- (pow2_sqrt S2 HS) at 1; ring).
        split; [exact K1|]. split; [exact K2|].
        assert (Ha : al < 0) by nra. destruct (Rlt_dec al 0); [|lra].
        destruct (Req_EM_T ga be) as [E|E]; [exfalso; unfold g in Hs; rewrite E in Hs; lra|].
        replace (- rt * (- sqrt S2 * sqrt C2)) with (rt * (sqrt S2 * sqrt C2)) by ring.
        rewrite Hsc, Rabs_left by exact Ha. field. lra.
      * rewrite (pow2_sqrt S2) by exact HS.
        split; [exact K1|]. split; [exact K2|]. rewrite Hsc.
        destruct (Rlt_dec al 0) as [Ha|Ha].
        -- assert (g = 0) by nra. destruct (Req_EM_T ga be) as [E|E]; [|exfalso; unfold g in *; lra].
           rewrite Rabs_left by exact Ha. field. lra.
        -- rewrite Rabs_right by lra. field. lra.
    + rewrite Rabs_left in Hqg by lra.
      assert (K1 : B * C2 + A * S2 = be).
      { unfold A, B, S2, C2. replace (1 / 2 * (ga + be + rt) * (1 / 2 * (1 + q)) + 1 / 2 * (ga + be - rt) * (1 / 2 * (1 - q)))
          with (1 / 2 * (ga + be + q * rt)) by field. rewrite <- Hqg. unfold g. field. }
      assert (K2 : B * S2 + A * C2 = ga).
      { unfold A, B, S2, C2. replace (1 / 2 * (ga + be + rt) * (1 / 2 * (1 - q)) + 1 / 2 * (ga + be - rt) * (1 / 2 * (1 + q)))
          with (1 / 2 * (ga + be - q * rt)) by field. rewrite <- Hqg. unfold g. field. }
      do 4 eexists. split; [reflexivity|].
      rewrite (pow2_sqrt A), (pow2_sqrt B), (pow2_sqrt C2) by assumption.
      assert (HAB : B - A = rt) by (unfold A, B; field). rewrite HAB.
      assert (Hne : ga <> be) by (unfold g in Hg; lra).
      destruct (Req_EM_T ga be) as [E|_]; [contradiction|].
      destruct (Rlt_dec (al * g) 0) as [Hs|Hs].
      * replace ((- sqrt S2) ^ 2) with S2 by (rewrite <- (pow2_sqrt S2 HS) at 1; ring).
        split; [exact K1|]. split; [exact K2|].
        assert (Ha : 0 < al) by nra. destruct (Rlt_dec al 0); [lra|].
        replace (rt * (- sqrt S2 * sqrt C2)) with (- (rt * (sqrt S2 * sqrt C2))) by ring.
        rewrite Hsc, Rabs_right by lra. field. lra.
      * rewrite (pow2_sqrt S2) by exact HS.
        split; [exact K1|]. split; [exact K2|]. rewrite Hsc.
        assert (Ha : al < 0) by nra. destruct (Rlt_dec al 0); [|lra].
        rewrite Rabs_left by exact Ha. field. lra.
Qed.

(** the moments of a plane made from a unit plane; sigma12 has the wrong sign in one case *)
Lemma make_plane_spec : forall t u v, 0 < tw_beta t -> 0 <= tw_emit t -> length u = length v ->
  unit_plane u v ->
  exists u' v', make_plane t u v = Ok (u', v') /\ length u' = length u /\ length v' = length u /\
    (mean u = 0 -> mean v = 0 -> mean u' = 0 /\ mean v' = 0) /\
    (hd 0 u = mean u -> hd 0 v = mean v -> hd 0 u' = mean u' /\ hd 0 v' = mean v') /\
    covariance u' u' = tw_emit t * tw_beta t /\
    covariance v' v' = tw_emit t * ((1 + tw_alpha t ^ 2) / tw_beta t) /\
    covariance u' v' = tw_emit t *
      (if Rlt_dec (tw_alpha t) 0 then
         (if Req_EM_T ((1 + tw_alpha t ^ 2) / tw_beta t) (tw_beta t) then tw_alpha t else - tw_alpha t)
       else - tw_alpha t).
Proof.
  intros t u v Hb He HL (U1 & U2 & U3).
  destruct (plane_coeffs_spec t Hb He) as (fac & f_inv & s & c & E & K1 & K2 & K3).
  cbv zeta in *. unfold make_plane. rewrite E. cbn [rbind].
  set (rt := sqrt (tw_emit t)). assert (Hrt : rt ^ 2 = tw_emit t) by (apply pow2_sqrt; exact He).
  set (u' := lin2 (rt * fac * c) (- (rt * f_inv * s)) u v).
  set (v' := lin2 (rt * fac * s) (rt * f_inv * c) u v).
  exists u', v'. split.
  { f_equal. f_equal; unfold u', v', lin2; apply map_ext; intros; ring. }
  split; [apply lin2_length; exact HL|]. split; [apply lin2_length; exact HL|].
  split; [intros M1 M2; unfold u', v'; rewrite !lin2_mean, M1, M2 by exact HL; split; ring|].
  split; [intros M1 M2; unfold u', v'; rewrite !lin2_mean, !lin2_hd, M1, M2 by exact HL; split; reflexivity|].
  unfold u', v'. rewrite !lin2_cov, U1, U2, U3 by exact HL.
  rewrite <- K3, <- K2, <- Hrt. rewrite <- K1 at 1. repeat split; ring.
Qed.

Lemma plane_twiss_spec : forall m k,
  let ii := (2 * k)%nat in let jj := (2 * k + 1)%nat in
  let det := m ii ii * m jj jj - m ii jj * m jj ii in
  (det <= 0 -> plane_twiss m k = Err GenericException) /\
  (0 < det -> exists al be e, plane_twiss m k = Ok (al, be, e) /\ 0 < e /\ e ^ 2 = det /\
     e * be = m ii ii /\ e * al = - m ii jj).
Proof.
  intros m k ii jj det. unfold plane_twiss. fold ii. change (ii + 1)%nat with jj. fold det.
  split; intros H; (destruct (Rle_dec det 0); [|try lra]); try reflexivity; try lra.
  rewrite msqrt_ok by lra. cbn [rbind].
  assert (Hs : 0 < sqrt det) by (apply sqrt_lt_R0; exact H).
  rewrite !pdiv_ok by lra. cbn [rbind]. do 3 eexists. split; [reflexivity|].
  split; [exact Hs|]. split; [apply pow2_sqrt; lra|]. split; field; lra.
Qed.

Lemma new_twiss_ok : forall a b e, b <> 0 -> exists t, new_twiss a b e = Ok t /\ twiss_is t a b e.
Proof.
  intros a b e H. unfold new_twiss. rewrite pdiv_ok by exact H. cbn [rbind]. eexists. split; [reflexivity|].
  unfold twiss_is. cbn. repeat split; try reflexivity. field. exact H.
Qed.

Definition det (m : mat) (k : nat) : R :=
  let i := (2 * k)%nat in let j := (2 * k + 1)%nat in m i i * m j j - m i j * m j i.

Lemma plane_new : forall m k, symmetric6 m -> (k < 3)%nat -> 0 < det m k -> 0 <= m (2 * k)%nat (2 * k)%nat ->
  exists p t, plane_twiss m k = Ok p /\ (let '(a, b, e) := p in new_twiss a b e) = Ok t /\
    0 < tw_emit t /\ 0 < tw_beta t /\ tw_beta t * tw_gamma t - tw_alpha t ^ 2 = 1 /\
    tw_emit t * tw_beta t = m (2 * k)%nat (2 * k)%nat /\
    tw_emit t * tw_alpha t = - m (2 * k)%nat (2 * k + 1)%nat /\
    tw_emit t * tw_gamma t = m (2 * k + 1)%nat (2 * k + 1)%nat.
Proof.
  intros m k Hs Hk Hd Hp. destruct (proj2 (plane_twiss_spec m k) Hd) as (al & be & e & E & He & He2 & E1 & E2).
  cbv zeta in *. unfold det in Hd. cbv zeta in Hd.
  set (j := (2 * k + 1)%nat) in *. set (i := (2 * k)%nat) in *.
  assert (Hsym : m j i = m i j) by (apply Hs; unfold i, j; lia). rewrite Hsym in Hd, He2.
  assert (Hb : 0 < be).
  { assert (m i i <> 0) by (intro Z; rewrite Z in Hd; pose proof (pow2_ge_0 (m i j)); nra). nra. }
  destruct (new_twiss_ok al be e ltac:(lra)) as (t & Et & T1 & T2 & T3 & T4).
  exists (al, be, e), t. split; [exact E|]. split; [exact Et|]. rewrite T1, T2 in T4. rewrite T1, T2, T3.
  repeat split; try assumption.
  assert (Hg : tw_gamma t = (1 + al ^ 2) / be) by (apply Rmult_eq_reg_l with be; [|lra]; transitivity (1 + al ^ 2); [lra|field; lra]).
  apply Rmult_eq_reg_l with (e * be); [|nra].
  replace (e * be * (e * tw_gamma t)) with (e ^ 2 * (be * tw_gamma t)) by ring.
  replace (be * tw_gamma t) with (1 + al ^ 2) by lra.
  replace (e ^ 2 * (1 + al ^ 2)) with (e ^ 2 + (e * al) ^ 2) by ring. rewrite He2, E2, E1. ring.
Qed.

Lemma psd_diag : forall m i, psd6 m -> (i < 6)%nat -> 0 <= m i i.
Proof.
  intros m i Hp Hi. specialize (Hp (fun k => if Nat.eqb i k then 1 else 0)).
  replace (m i i) with (sum6 (fun i0 => sum6 (fun j => (if Nat.eqb i i0 then 1 else 0) * m i0 j * (if Nat.eqb i j then 1 else 0)))); [exact Hp|].
  six i Hi; unfold sum6; cbn [Nat.eqb]; ring.
Qed.

(* ---------- rejection loops ---------- *)
Definition in_ball (p : R * R * R) : Prop := fst (fst p) ^ 2 + snd (fst p) ^ 2 + snd p ^ 2 < 1.

Lemma unif_loop_spec : forall fuel rnd pos left l p, unif_loop fuel rnd pos left = Some (l, p) ->
  length l = left /\ Forall in_ball l.
Proof.
  induction fuel as [|fuel IH]; intros rnd pos left l p H; destruct left as [|left]; cbn [unif_loop] in H;
    try discriminate; try (inversion H; subst; split; [reflexivity|constructor]).
  destruct (Rlt_dec _ 1) as [Hb|].
  - destruct (unif_loop fuel rnd (pos + 3) left) as [[l' p']|] eqn:E; [|discriminate].
    inversion H; subst. destruct (IH _ _ _ _ _ E) as [H1 H2]. split; [simpl; rewrite H1; reflexivity|].
    constructor; [exact Hb|exact H2].
  - exact (IH _ _ _ _ _ H).
Qed.

Lemma unif_loop_more : forall fuel fuel' rnd pos left r, unif_loop fuel rnd pos left = Some r -> (fuel <= fuel')%nat ->
  unif_loop fuel' rnd pos left = Some r.
Proof.
  induction fuel as [|fuel IH]; intros fuel' rnd pos left r H Hle; destruct left as [|left].
  - destruct fuel'; exact H.
  - discriminate.
  - destruct fuel'; exact H.
  - destruct fuel' as [|fuel']; [lia|]. cbn [unif_loop] in *. destruct (Rlt_dec _ 1).
    + destruct (unif_loop fuel rnd (pos + 3) left) as [[l p]|] eqn:E; [|discriminate].
      rewrite (IH fuel' _ _ _ _ E) by lia. exact H.
    + apply IH; [exact H|lia].
Qed.

(** enough good draws keep coming *)
Definition accepted (rnd : nat -> R) (pos : nat) : Prop :=
  (2 * rnd pos - 1) ^ 2 + (2 * rnd (pos + 1)%nat - 1) ^ 2 + (2 * rnd (pos + 2)%nat - 1) ^ 2 < 1.

Lemma unif_loop_ends : forall rnd left pos,
  (forall p, exists k, accepted rnd (p + 3 * k)) -> exists fuel r, unif_loop fuel rnd pos left = Some r.
Proof.
  intros rnd left. induction left as [|left IH]; intros pos H; [exists 0%nat; eexists; reflexivity|].
  destruct (H pos) as [k Hk]. revert pos Hk. induction k as [|k IHk]; intros pos Hk.
  - destruct (IH (pos + 3)%nat H) as (fuel & [l p] & E). exists (S fuel). eexists. cbn [unif_loop].
    replace (pos + 3 * 0)%nat with pos in Hk by lia. unfold accepted in Hk.
    destruct (Rlt_dec _ 1); [|contradiction]. rewrite E. reflexivity.
  - destruct (Rlt_dec ((2 * rnd pos - 1) ^ 2 + (2 * rnd (pos + 1)%nat - 1) ^ 2 + (2 * rnd (pos + 2)%nat - 1) ^ 2) 1) as [Hy|Hn].
    + destruct (IH (pos + 3)%nat H) as (fuel & [l p] & E). exists (S fuel). eexists. cbn [unif_loop].
      destruct (Rlt_dec _ 1); [|contradiction]. rewrite E. reflexivity.
    + destruct (IHk (pos + 3)%nat) as (fuel & r & E).
      * replace (pos + 3 + 3 * k)%nat with (pos + 3 * S k)%nat by lia. exact Hk.
      * exists (S fuel), r. cbn [unif_loop]. destruct (Rlt_dec _ 1); [contradiction|]. exact E.
Qed.

Lemma gauss_loop_spec : forall fuel rnd cut pos left l p, gauss_loop fuel rnd cut pos left = Some (l, p) ->
  length l = left /\ Forall (fun t => t ^ 2 < cut) l.
Proof.
  induction fuel as [|fuel IH]; intros rnd cut pos left l p H; destruct left as [|left]; cbn [gauss_loop] in H;
    try discriminate; try (inversion H; subst; split; [reflexivity|constructor]).
  destruct (Rlt_dec _ cut) as [Hb|].
  - destruct (gauss_loop fuel rnd cut (pos + 1) left) as [[l' p']|] eqn:E; [|discriminate].
    inversion H; subst. destruct (IH _ _ _ _ _ _ E) as [H1 H2]. split; [simpl; rewrite H1; reflexivity|].
    constructor; [|exact H2]. replace (rnd pos ^ 2) with (rnd pos * rnd pos) by ring. exact Hb.
  - exact (IH _ _ _ _ _ _ H).
Qed.

Lemma gauss_rows_spec : forall rows fuel rnd cut pos num b, gauss_rows rows fuel rnd cut pos num = Some b ->
  length b = rows /\ Forall (fun r => length r = num /\ Forall (fun t => t ^ 2 < cut) r) b.
Proof.
  induction rows as [|rows IH]; intros fuel rnd cut pos num b H; cbn [gauss_rows] in H.
  - inversion H; subst. split; [reflexivity|constructor].
  - destruct (gauss_loop fuel rnd cut pos num) as [[r p]|] eqn:E; [|discriminate].
    destruct (gauss_rows rows fuel rnd cut p num) as [b'|] eqn:E'; [|discriminate].
    inversion H; subst. destruct (IH _ _ _ _ _ _ E') as [H1 H2]. split; [simpl; rewrite H1; reflexivity|].
    constructor; [exact (gauss_loop_spec _ _ _ _ _ _ _ E)|exact H2].
Qed.

(* ---------- cleaning ---------- *)
Lemma normalize_rows : forall c, Forall (fun r => r <> []) c ->
  normalize_rms6d c = Ok (map (fun r => if Req_EM_T (sqrt (variance r)) 0 then None
     else Some (map (fun x => x * (1 / sqrt (variance r))) (match r with [] => [] | _ :: xs => mean r :: xs end))) c).
Proof.
  intros c H. unfold normalize_rms6d, calc_rms6d. rewrite calc_variance6d_spec by exact H. cbn [rbind fst snd].
  rewrite map_map. f_equal. clear H. induction c as [|r c IH]; [reflexivity|].
  cbn [recentre_first map scale_rows]. unfold ndiv at 1. destruct (Req_EM_T (sqrt (variance r)) 0); f_equal; exact IH.
Qed.

Lemma mean_recentred0 : forall x xs, mean (x :: xs) = 0 -> mean (0 :: xs) = - x / INR (length (x :: xs)).
Proof.
  intros x xs H. assert (Hn : 0 < INR (length (x :: xs))) by (apply INR_len_pos; discriminate).
  unfold mean in *. change (length (0 :: xs)) with (length (x :: xs)). rewrite total_cons in *.
  assert (E : x + total xs = 0).
  { apply Rmult_eq_reg_r with (/ INR (length (x :: xs))); [|apply Rgt_not_eq, Rinv_0_lt_compat; exact Hn].
    rewrite Rmult_0_l. exact H. }
  unfold Rdiv. replace (0 + total xs) with (- x) by lra. reflexivity.
Qed.

Lemma sub_avg_beam : forall N b, is_beam N b -> (0 < N)%nat -> is_beam N (sub_avg6d b) /\
  Forall (fun r => mean r = 0) (sub_avg6d b).
Proof.
  intros N b Hb HN. pose proof (is_beam_nonempty N b Hb HN) as Hne. rewrite sub_avg_spec by exact Hne.
  destruct Hb as [Hl Hf]. split; [split; [rewrite map_length; exact Hl|]|].
  - apply Forall_map. eapply Forall_impl; [|exact Hf]. intros r Hr. cbv beta. rewrite map_length. exact Hr.
  - apply Forall_map. eapply Forall_impl; [|exact Hne]. intros r Hr. cbv beta. rewrite mean_sub by exact Hr. ring.
Qed.

Lemma clean_row : forall N b rows i r, is_beam N b -> (0 < N)%nat ->
  clean_phase_space_6d b = Ok rows -> (i < 6)%nat -> nth i rows None = Some r ->
  exists b2, rm_correlations6d (sub_avg6d b) = Ok b2 /\ is_beam N b2 /\
    length r = N /\ 0 < variance (row (sub_avg6d b2) i) /\
    mean r = - hd 0 (row (sub_avg6d b2) i) / INR N / sqrt (variance (row (sub_avg6d b2) i)) /\
    variance r + (INR N + 1) * mean r ^ 2 = 1.
Proof.
  intros N b rows i r Hb HN H Hi Hr. unfold clean_phase_space_6d in H.
  destruct (sub_avg_beam N b Hb HN) as [Hb1 _].
  destruct (rm_correlations6d (sub_avg6d b)) as [b2| |] eqn:E; cbn [rbind] in H; try discriminate.
  exists b2. split; [reflexivity|].
  destruct (rm_result N _ b2 Hb1 HN E) as (_ & _ & _ & _ & _ & [Hb2 _]). split; [exact Hb2|].
  destruct (sub_avg_beam N b2 Hb2 HN) as [Hb3 Hm3].
  rewrite normalize_rows in H by exact (is_beam_nonempty N _ Hb3 HN).
  inversion H; subst rows; clear H.
  assert (HIn : In (row (sub_avg6d b2) i) (sub_avg6d b2)) by (apply nth_In; destruct Hb3; lia).
  set (g := fun r => if Req_EM_T (sqrt (variance r)) 0 then None
     else Some (map (fun x => x * (1 / sqrt (variance r))) (match r with [] => [] | _ :: xs => mean r :: xs end))) in *.
  rewrite (nth_indep (map g (sub_avg6d b2)) None (g [])) in Hr by (rewrite map_length; destruct Hb3; lia).
  rewrite map_nth in Hr. fold (row (sub_avg6d b2) i) in Hr.
  pose proof (is_beam_row_len N _ i Hb3 Hi) as L.
  rewrite Forall_forall in Hm3. specialize (Hm3 _ HIn).
  destruct (row (sub_avg6d b2) i) as [|x xs]; [simpl in L; lia|].
  unfold g in Hr. destruct (Req_EM_T _ _) as [|Hs]; [discriminate|]. inversion Hr; subst r; clear Hr.
  assert (Hs0 : 0 < sqrt (variance (x :: xs))) by (pose proof (sqrt_pos (variance (x :: xs))); lra).
  assert (Hv : 0 < variance (x :: xs)).
  { pose proof (variance_nonneg (x :: xs)) as [|E0]; [assumption|]. rewrite <- E0, sqrt_0 in Hs0. lra. }
  assert (HNR : 0 < INR N) by (apply lt_0_INR; lia).
  split; [change (length (map (fun x0 => x0 * (1 / sqrt (variance (x :: xs)))) (mean (x :: xs) :: xs)) = N);
          rewrite map_length; exact L|].
  split; [exact Hv|].
  assert (Hmean : mean (map (fun x0 => x0 * (1 / sqrt (variance (x :: xs)))) (mean (x :: xs) :: xs)) =
     - x / INR N / sqrt (variance (x :: xs))).
  { rewrite mean_scale. rewrite Hm3 at 1. rewrite (mean_recentred0 x xs Hm3). rewrite L. unfold Rdiv. ring. }
  change (mean (mean (x :: xs) * (1 / sqrt (variance (x :: xs))) ::
      map (fun x0 => x0 * (1 / sqrt (variance (x :: xs)))) xs))
    with (mean (map (fun x0 => x0 * (1 / sqrt (variance (x :: xs)))) (mean (x :: xs) :: xs))).
  split; [exact Hmean|].
  rewrite Hmean.
  change (variance (map (fun x0 => x0 * (1 / sqrt (variance (x :: xs)))) (mean (x :: xs) :: xs))
     + (INR N + 1) * (- x / INR N / sqrt (variance (x :: xs))) ^ 2 = 1).
  rewrite variance_scale, variance_recentred, L, Hm3.
  set (V := variance (x :: xs)) in *.
  replace ((1 / sqrt V) ^ 2) with (1 / V).
  2:{ rewrite <- (pow2_sqrt V) at 1 by lra. field. lra. }
  replace ((- x / INR N / sqrt V) ^ 2) with (x ^ 2 / INR N ^ 2 / V).
  2:{ rewrite <- (pow2_sqrt V) at 1 by lra. field. lra. }
  field. split; lra.
Qed.

Lemma jacobi_diag : forall m, (forall p q, is_pair p q -> m p q = 0) ->
  jacobi_eigen_solver6d m = Ok (fun i => m i i, fun i j => if Nat.eqb i j then 1 else 0).
Proof.
  intros m H. transitivity (jacobi_loop (S 49) 0 (jacobi_init m)); [reflexivity|].
  rewrite jacobi_step. cbn [jacobi_init j_sig]. rewrite (off_sum_of_zero m H).
  destruct (Req_EM_T 0 0); [reflexivity|lra].
Qed.

Lemma rm_diag : forall N b m, is_beam N b -> (0 < N)%nat ->
  calc_correlations6d b = Ok (recentre_first b, m) -> (forall p q, is_pair p q -> m p q = 0) ->
  exists new, rm_correlations6d b = Ok new /\ is_beam N new /\
   forall i k, (i < 6)%nat -> (k < N)%nat -> cell new i k = cell (recentre_first b) i k.
Proof.
  intros N b m Hb HN E H.
  assert (Hrb : is_beam N (recentre_first b)).
  { destruct Hb as [K1 K2]. split; [unfold recentre_first; rewrite map_length; exact K1|].
    unfold recentre_first. apply Forall_map. eapply Forall_impl; [|exact K2]. intros [|y r]; auto. }
  pose (v := fun i j : nat => if Nat.eqb i j then 1 else 0).
  exists (map (mix_row v (recentre_first b) N) (seq 0 6)).
  split.
  { unfold rm_correlations6d. rewrite E. cbn [rbind fst snd]. rewrite jacobi_diag by exact H. cbn [rbind fst snd].
    fold v. assert (L0 : length (nth 0 b []) = N) by (apply (is_beam_row_len N b 0 Hb); lia). rewrite L0. reflexivity. }
  split.
  { split; [rewrite map_length, seq_length; reflexivity|].
    apply Forall_map. rewrite Forall_forall. intros i _. apply (mix_row_spec N v _ i 0 Hrb). }
  intros i k Hi Hk. unfold cell at 1, row.
  rewrite (nth_indep (map (mix_row v (recentre_first b) N) (seq 0 6)) [] (mix_row v (recentre_first b) N 0))
      by (rewrite map_length, seq_length; exact Hi).
  rewrite map_nth, seq_nth by exact Hi. change (0 + i)%nat with i.
  destruct (mix_row_spec N v (recentre_first b) i k Hrb) as [_ Hm]. rewrite Hm.
  unfold v. six i Hi; unfold sum6; cbn [Nat.eqb]; ring.
Qed.

(** Theorems about the Twiss and 6D-distribution classes (properties C15-C17, C70-C73). *)
From Coq Require Import List Reals Lra Lia Psatz Bool Arith ZArith String.
From Verif Require Import PyBase Stats_Model Stats_Spec Stats_Proofs Jacobi_Proofs Decor_Proofs
  Twiss_Model Twiss_Spec Twiss_Proofs.
Import ListNotations.
Open Scope R_scope.

Ltac row_calc := unfold variance, covariance, mean; cbn [List.length map total fold_right combine fst snd INR]; try field; try lra.

(** ---------------- C15 ---------------- *)
Theorem C15_twiss_partial : forall alpha beta emit,
  (beta <> 0 -> exists t, new_twiss alpha beta emit = Ok t /\ twiss_is t alpha beta emit) /\
  (beta = 0 -> new_twiss alpha beta emit = Err ZeroDivisionError).
Proof.
  intros a b e. split; [apply new_twiss_ok|]. intros ->. unfold new_twiss, pdiv.
  destruct (Req_EM_T 0 0); [reflexivity|lra].
Qed.
Print Assumptions C15_twiss_partial.

Example C15_applies : exists t, new_twiss 1 2 3 = Ok t /\ tw_gamma t = 1.
Proof.
  destruct (proj1 (C15_twiss_partial 1 2 3) ltac:(lra)) as (t & E & T1 & T2 & T3 & T4).
  exists t. split; [exact E|]. rewrite T1, T2 in T4. lra.
Qed.

(** Not refused: a negative beta and a negative emittance.  Not kept: the relation, once beta
    is assigned. *)
Theorem C15_invalid_accepted_refuted :
  (exists t, new_twiss 0 (-1) (-1) = Ok t /\ tw_beta t = -1 /\ tw_emit t = -1) /\
  (exists t, new_twiss 0 1 1 = Ok t /\
     tw_beta (set_beta t 2) * tw_gamma (set_beta t 2) - tw_alpha (set_beta t 2) ^ 2 <> 1).
Proof.
  unfold new_twiss. split.
  - rewrite pdiv_ok by lra. cbn [rbind]. eexists. split; [reflexivity|]. split; reflexivity.
  - rewrite pdiv_ok by lra. cbn [rbind]. eexists. split; [reflexivity|]. cbn. lra.
Qed.
Print Assumptions C15_invalid_accepted_refuted.

(** ---------------- C16 ---------------- *)
Definition plane_ok (t : twiss) (u v : list R) : Prop := 0 < tw_beta t /\ 0 <= tw_emit t /\ unit_plane u v.

Lemma ga_be : forall al be, 0 < be -> ((1 + al ^ 2) / be = be <-> be ^ 2 = 1 + al ^ 2).
Proof.
  intros al be Hb. split; intros H.
  - rewrite <- H at 1. replace (((1 + al ^ 2) / be) ^ 2) with ((1 + al ^ 2) / be * ((1 + al ^ 2) / be)) by ring.
    rewrite H at 2. field. lra.
  - rewrite <- H. field. lra.
Qed.

Lemma plane_matched : forall t u v, plane_ok t u v -> List.length u = List.length v ->
  exists u' v', make_plane t u v = Ok (u', v') /\ List.length u' = List.length u /\ List.length v' = List.length u /\
    (mean u = 0 -> mean v = 0 -> mean u' = 0 /\ mean v' = 0) /\
    (hd 0 u = mean u -> hd 0 v = mean v -> hd 0 u' = mean u' /\ hd 0 v' = mean v') /\
    (~ round_tilted (tw_alpha t) (tw_beta t) -> matched (tw_alpha t) (tw_beta t) (tw_emit t) u' v') /\
    (round_tilted (tw_alpha t) (tw_beta t) -> matched (- tw_alpha t) (tw_beta t) (tw_emit t) u' v').
Proof.
  intros t u v (Hb & He & Hu) HL.
  destruct (make_plane_spec t u v Hb He HL Hu) as (u' & v' & E & L1 & L2 & M & F & K1 & K2 & K3).
  exists u', v'. split; [exact E|]. split; [exact L1|]. split; [exact L2|]. split; [exact M|]. split; [exact F|].
  pose proof (ga_be (tw_alpha t) (tw_beta t) Hb) as G.
  split.
  - intros Hn. split; [exact K1|]. split; [|exact K2]. rewrite K3.
    destruct (Rlt_dec (tw_alpha t) 0) as [Ha|Ha]; [|ring].
    destruct (Req_EM_T _ _) as [Eg|Eg]; [|ring]. exfalso. apply Hn. split; [exact Ha|apply G; exact Eg].
  - intros [Ha Hg]. split; [exact K1|]. split; [|rewrite K2; f_equal; f_equal; ring]. rewrite K3.
    destruct (Rlt_dec (tw_alpha t) 0) as [_|]; [|contradiction].
    destruct (Req_EM_T _ _) as [Eg|Eg]; [ring|]. exfalso. apply Eg. apply G. exact Hg.
Qed.

Theorem C16_matched_partial : forall N b tx ty tz, is_beam N b -> (0 < N)%nat ->
  plane_ok tx (row b 0) (row b 1) -> plane_ok ty (row b 2) (row b 3) -> plane_ok tz (row b 4) (row b 5) ->
  exists b', make_twiss_dist_6d b tx ty tz = Ok b' /\ is_beam N b' /\
    (~ round_tilted (tw_alpha tx) (tw_beta tx) -> matched (tw_alpha tx) (tw_beta tx) (tw_emit tx) (row b' 0) (row b' 1)) /\
    (~ round_tilted (tw_alpha ty) (tw_beta ty) -> matched (tw_alpha ty) (tw_beta ty) (tw_emit ty) (row b' 2) (row b' 3)) /\
    (~ round_tilted (tw_alpha tz) (tw_beta tz) -> matched (tw_alpha tz) (tw_beta tz) (tw_emit tz) (row b' 4) (row b' 5)) /\
    ((forall i, (i < 6)%nat -> mean (row b i) = 0) -> forall i, (i < 6)%nat -> mean (row b' i) = 0) /\
    (first_on_centroid b -> first_on_centroid b').
Proof.
  intros N b tx ty tz Hb HN Px Py Pz.
  pose proof (fun i Hi => is_beam_row_len N b i Hb Hi) as L.
  destruct (plane_matched tx _ _ Px) as (u0 & v0 & E0 & A0 & B0 & M0 & F0 & K0 & _); [rewrite !L by lia; reflexivity|].
  destruct (plane_matched ty _ _ Py) as (u1 & v1 & E1 & A1 & B1 & M1 & F1 & K1 & _); [rewrite !L by lia; reflexivity|].
  destruct (plane_matched tz _ _ Pz) as (u2 & v2 & E2 & A2 & B2 & M2 & F2 & K2 & _); [rewrite !L by lia; reflexivity|].
  unfold make_twiss_dist_6d.
  fold (row b 0) (row b 1) (row b 2) (row b 3) (row b 4) (row b 5).
  rewrite E0, E1, E2. cbn [rbind fst snd]. eexists. split; [reflexivity|].
  rewrite L in A0, B0, A1, B1, A2, B2 by lia.
  split; [split; [reflexivity|repeat constructor; assumption]|].
  split; [exact K0|]. split; [exact K1|]. split; [exact K2|]. split.
  - intros Hm i Hi. pose proof (M0 (Hm 0%nat ltac:(lia)) (Hm 1%nat ltac:(lia))).
    pose proof (M1 (Hm 2%nat ltac:(lia)) (Hm 3%nat ltac:(lia))).
    pose proof (M2 (Hm 4%nat ltac:(lia)) (Hm 5%nat ltac:(lia))).
    six i Hi; cbn [row nth]; tauto.
  - intros Hf.
    assert (Hh : forall i, (i < 6)%nat -> hd 0 (row b i) = mean (row b i)).
    { intros i Hi. assert (HIn : In (row b i) b) by (apply nth_In; destruct Hb; lia).
      specialize (Hf _ HIn). specialize (L i Hi). destruct (row b i); [simpl in L; lia|exact Hf]. }
    assert (C : forall r, hd 0 r = mean r -> match r with [] => True | x :: _ => x = mean r end).
    { intros [|x r] H; [exact I|exact H]. }
    pose proof (F0 (Hh 0%nat ltac:(lia)) (Hh 1%nat ltac:(lia))) as [? ?].
    pose proof (F1 (Hh 2%nat ltac:(lia)) (Hh 3%nat ltac:(lia))) as [? ?].
    pose proof (F2 (Hh 4%nat ltac:(lia)) (Hh 5%nat ltac:(lia))) as [? ?].
    intros r [<-|[<-|[<-|[<-|[<-|[<-|[]]]]]]]; apply C; assumption.
Qed.
Print Assumptions C16_matched_partial.

(** A unit plane with the first particle on the centroid. *)
Definition pu1 : list R := [0; sqrt (5 / 2); - sqrt (5 / 2); 0; 0].
Definition pv1 : list R := [0; 0; 0; sqrt (5 / 2); - sqrt (5 / 2)].
Lemma unit_pq : unit_plane pu1 pv1.
Proof.
  assert (H : sqrt (5 / 2) * sqrt (5 / 2) = 5 / 2) by (apply sqrt_sqrt; lra).
  assert (M1 : mean pu1 = 0) by (unfold pu1; row_calc).
  assert (M2 : mean pv1 = 0) by (unfold pv1; row_calc).
  unfold unit_plane, covariance. rewrite M1, M2. unfold pu1, pv1.
  cbn [combine map total fold_right fst snd List.length INR].
  repeat split; nra.
Qed.
Definition unit_beam : beam := [pu1; pv1; pu1; pv1; pu1; pv1].
Lemma unit_beam_ok : is_beam 5 unit_beam.
Proof. split; [reflexivity|repeat constructor]. Qed.
Definition tw (a b e : R) : twiss := {| tw_emit := e; tw_beta := b; tw_alpha := a; tw_gamma := (1 + a ^ 2) / b |}.
Lemma tw_ok : forall a b e, 0 < b -> 0 <= e -> plane_ok (tw a b e) pu1 pv1.
Proof. intros. split; [assumption|]. split; [assumption|exact unit_pq]. Qed.

Example C16_applies : exists b', make_twiss_dist_6d unit_beam (tw (-1) 3 2) (tw 1 2 7) (tw 0 1 1) = Ok b' /\
  covariance (row b' 0) (row b' 1) = 2 /\ covariance (row b' 2) (row b' 2) = 14.
Proof.
  destruct (C16_matched_partial 5 unit_beam (tw (-1) 3 2) (tw 1 2 7) (tw 0 1 1) unit_beam_ok ltac:(lia))
    as (b' & E & _ & K1 & K2 & _); try (apply tw_ok; lra).
  exists b'. split; [exact E|]. split.
  - destruct K1 as (_ & K & _); [intros [_ H]; cbn in H; lra|]. rewrite K. cbn. lra.
  - destruct K2 as (K & _ & _); [intros [H _]; cbn in H; lra|]. rewrite K. cbn. lra.
Qed.

(** alpha = -3/4, beta = 5/4 (so gamma = beta): the correlation comes out with the wrong sign. *)
Theorem C16_sign_refuted : exists b' t, t = tw (-3/4) (5/4) 1 /\
  make_twiss_dist_6d unit_beam t t t = Ok b' /\
  covariance (row b' 0) (row b' 1) = -3/4 /\ - (tw_emit t * tw_alpha t) = 3/4.
Proof.
  assert (HT : round_tilted (-3/4) (5/4)) by (split; lra).
  pose proof (tw_ok (-3/4) (5/4) 1 ltac:(lra) ltac:(lra)) as P.
  destruct (plane_matched _ _ _ P eq_refl) as (u & v & E & _ & _ & _ & _ & _ & K).
  exists [u; v; u; v; u; v]. eexists. split; [reflexivity|].
  split; [unfold make_twiss_dist_6d, unit_beam; cbn [nth]; rewrite E; reflexivity|].
  destruct (K HT) as (_ & K2 & _). split; [|cbn; lra]. transitivity (covariance u v); [reflexivity|].
  rewrite K2. cbn. lra.
Qed.
Print Assumptions C16_sign_refuted.

(** ---------------- C17 ---------------- *)
Definition describes (t : twiss) (m : mat) (k : nat) : Prop :=
  0 < tw_emit t /\ 0 < tw_beta t /\ tw_beta t * tw_gamma t - tw_alpha t ^ 2 = 1 /\
  tw_emit t * tw_beta t = m (2 * k)%nat (2 * k)%nat /\
  tw_emit t * tw_alpha t = - m (2 * k)%nat (2 * k + 1)%nat /\
  tw_emit t * tw_gamma t = m (2 * k + 1)%nat (2 * k + 1)%nat.

Theorem C17_calc_twiss : forall N b b1 m, is_beam N b -> (0 < N)%nat -> calc_correlations6d b = Ok (b1, m) ->
  ((forall k, (k < 3)%nat ->
      0 < m (2*k)%nat (2*k)%nat * m (2*k+1)%nat (2*k+1)%nat - m (2*k)%nat (2*k+1)%nat * m (2*k+1)%nat (2*k)%nat) ->
   exists tx ty tz, calc_twiss6d b = Ok (b1, (tx, ty, tz)) /\
     describes tx m 0 /\ describes ty m 1 /\ describes tz m 2) /\
  ((exists k, (k < 3)%nat /\
      m (2*k)%nat (2*k)%nat * m (2*k+1)%nat (2*k+1)%nat - m (2*k)%nat (2*k+1)%nat * m (2*k+1)%nat (2*k)%nat <= 0) ->
   calc_twiss6d b = Err GenericException).
Proof.
  intros N b b1 m Hb HN E. destruct (corr_matrix_psd N b b1 m Hb HN E) as [Hs Hp].
  unfold calc_twiss6d. rewrite E. cbn [rbind fst snd]. split.
  - intros Hd.
    destruct (plane_new m 0 Hs ltac:(lia) (Hd 0%nat ltac:(lia)) (psd_diag m 0 Hp ltac:(lia))) as (p0 & t0 & P0 & T0 & D0).
    destruct (plane_new m 1 Hs ltac:(lia) (Hd 1%nat ltac:(lia)) (psd_diag m 2 Hp ltac:(lia))) as (p1 & t1 & P1 & T1 & D1).
    destruct (plane_new m 2 Hs ltac:(lia) (Hd 2%nat ltac:(lia)) (psd_diag m 4 Hp ltac:(lia))) as (p2 & t2 & P2 & T2 & D2).
    rewrite P0, P1, P2. cbn [rbind]. rewrite T0, T1, T2. cbn [rbind].
    exists t0, t1, t2. split; [reflexivity|]. split; [exact D0|]. split; [exact D1|exact D2].
  - intros (k & Hk & Hd).
    assert (Hfail : plane_twiss m k = Err GenericException) by (apply (proj1 (plane_twiss_spec m k)); exact Hd).
    assert (Hany : forall j, plane_twiss m j = Err GenericException \/ exists p, plane_twiss m j = Ok p).
    { intros j. destruct (plane_twiss_spec m j) as [H1 H2]. cbv zeta in *.
      destruct (Rle_lt_dec (m (2 * j)%nat (2 * j)%nat * m (2 * j + 1)%nat (2 * j + 1)%nat
         - m (2 * j)%nat (2 * j + 1)%nat * m (2 * j + 1)%nat (2 * j)%nat) 0) as [H|H].
      - left. apply H1. exact H.
      - right. destruct (H2 H) as (al & be & e & P & _). eexists. exact P. }
    destruct k as [|[|[|]]]; [| | |lia].
    + rewrite Hfail. reflexivity.
    + destruct (Hany 0%nat) as [F|[p F]]; rewrite F; [reflexivity|]. cbn [rbind]. rewrite Hfail. reflexivity.
    + destruct (Hany 0%nat) as [F|[p F]]; rewrite F; [reflexivity|]. cbn [rbind].
      destruct (Hany 1%nat) as [F'|[p' F']]; rewrite F'; [reflexivity|]. cbn [rbind]. rewrite Hfail. reflexivity.
Qed.
Print Assumptions C17_calc_twiss.

(** What is measured when the first particle is on the centroid: the parameters the beam has. *)
Theorem C17_measured_partial : forall N b ax bx ex ay by_ ey az bz ez,
  is_beam N b -> (0 < N)%nat -> first_on_centroid b ->
  0 < bx -> 0 < ex -> 0 < by_ -> 0 < ey -> 0 < bz -> 0 < ez ->
  matched ax bx ex (row b 0) (row b 1) -> matched ay by_ ey (row b 2) (row b 3) ->
  matched az bz ez (row b 4) (row b 5) ->
  exists sx sy sz, calc_twiss6d b = Ok (b, (sx, sy, sz)) /\
    twiss_is sx ax bx ex /\ twiss_is sy ay by_ ey /\ twiss_is sz az bz ez.
Proof.
  intros N b ax bx ex ay by_ ey az bz ez Hb HN Hf Bx Ex By Ey Bz Ez Kx Ky Kz.
  destruct (correlations_spec N b Hb HN) as (m & Ec & Hd & Ho).
  rewrite (recentre_id b (is_beam_nonempty N b Hb HN) Hf) in Ec.
  assert (Hm : forall i j, (i < 6)%nat -> (j < 6)%nat -> m i j = covariance (row b i) (row b j)).
  { intros i j Hi Hj. destruct (Nat.eq_dec i j) as [->|Hij]; [rewrite Hd by exact Hj; apply variance_covariance|].
    rewrite Ho by assumption. assert (HIn : In (row b i) b) by (apply nth_In; destruct Hb; lia).
    specialize (Hf _ HIn). pose proof (is_beam_row_len N b i Hb Hi) as L.
    destruct (row b i) as [|x r]; [simpl in L; lia|]. cbn [hd]. rewrite <- Hf. unfold Rdiv. ring. }
  assert (Hsym : forall i j, (i < 6)%nat -> (j < 6)%nat -> covariance (row b i) (row b j) = covariance (row b j) (row b i)).
  { intros i j Hi Hj. apply covariance_sym. rewrite !(is_beam_row_len N b) by assumption. reflexivity. }
  assert (Hdet : forall al be e, 0 < be -> 0 < e -> e * be * (e * ((1 + al ^ 2) / be)) - - (e * al) * - (e * al) = e ^ 2).
  { intros. field. lra. }
  destruct (C17_calc_twiss N b b m Hb HN Ec) as [HT _].
  destruct HT as (sx & sy & sz & Et & Dx & Dy & Dz).
  { intros k Hk. rewrite !Hm by lia. destruct k as [|[|[|]]]; [| | |lia].
    - change (2 * 0)%nat with 0%nat. change (0 + 1)%nat with 1%nat. rewrite (Hsym 1%nat 0%nat) by lia.
      destruct Kx as (K1 & K2 & K3). rewrite K1, K2, K3, Hdet by assumption. nra.
    - change (2 * 1)%nat with 2%nat. change (2 + 1)%nat with 3%nat. rewrite (Hsym 3%nat 2%nat) by lia.
      destruct Ky as (K1 & K2 & K3). rewrite K1, K2, K3, Hdet by assumption. nra.
    - change (2 * 2)%nat with 4%nat. change (4 + 1)%nat with 5%nat. rewrite (Hsym 5%nat 4%nat) by lia.
      destruct Kz as (K1 & K2 & K3). rewrite K1, K2, K3, Hdet by assumption. nra. }
  exists sx, sy, sz. split; [exact Et|].
  assert (G : forall s k al be e, (k < 3)%nat -> 0 < be -> 0 < e ->
     matched al be e (row b (2 * k)) (row b (2 * k + 1)) -> describes s m k -> twiss_is s al be e).
  { intros s k al be e Hk Hbe He (K1 & K2 & K3) (D1 & D2 & D3 & D4 & D5 & D6).
    rewrite Hm in D4, D5, D6 by lia. rewrite K1 in D4. rewrite K2 in D5. rewrite K3 in D6.
    assert (Hee : tw_emit s = e).
    { assert (tw_emit s ^ 2 = e ^ 2).
      { transitivity ((tw_emit s * tw_beta s) * (tw_emit s * tw_gamma s) - (tw_emit s * tw_alpha s) ^ 2).
        - replace (tw_emit s * tw_beta s * (tw_emit s * tw_gamma s) - (tw_emit s * tw_alpha s) ^ 2)
            with (tw_emit s ^ 2 * (tw_beta s * tw_gamma s - tw_alpha s ^ 2)) by ring. rewrite D3. ring.
        - rewrite D4, D5, D6. field. lra. }
      nra. }
    rewrite Hee in *. unfold twiss_is. split; [nra|]. split; [nra|]. split; [exact Hee|exact D3]. }
  split; [apply (G sx 0%nat); try lia; assumption|].
  split; [apply (G sy 1%nat); try lia; assumption|apply (G sz 2%nat); try lia; assumption].
Qed.
Print Assumptions C17_measured_partial.

(** Round trip through the beam: matching a unit beam whose first particle is on the
    centroid and measuring it gives back the requested parameters. *)
Theorem C17_round_trip_partial : forall N b ax bx ex ay by_ ey az bz ez,
  is_beam N b -> (0 < N)%nat -> first_on_centroid b ->
  unit_plane (row b 0) (row b 1) -> unit_plane (row b 2) (row b 3) -> unit_plane (row b 4) (row b 5) ->
  0 < bx -> 0 < ex -> 0 < by_ -> 0 < ey -> 0 < bz -> 0 < ez ->
  ~ round_tilted ax bx -> ~ round_tilted ay by_ -> ~ round_tilted az bz ->
  exists tx ty tz b' sx sy sz,
    new_twiss ax bx ex = Ok tx /\ new_twiss ay by_ ey = Ok ty /\ new_twiss az bz ez = Ok tz /\
    make_twiss_dist_6d b tx ty tz = Ok b' /\ calc_twiss6d b' = Ok (b', (sx, sy, sz)) /\
    twiss_is sx ax bx ex /\ twiss_is sy ay by_ ey /\ twiss_is sz az bz ez.
Proof.
  intros N b ax bx ex ay by_ ey az bz ez Hb HN Hf Ux Uy Uz Bx Ex By Ey Bz Ez Rx Ry Rz.
  destruct (new_twiss_ok ax bx ex ltac:(lra)) as (tx & Tx & X1 & X2 & X3 & X4).
  destruct (new_twiss_ok ay by_ ey ltac:(lra)) as (ty & Ty & Y1 & Y2 & Y3 & Y4).
  destruct (new_twiss_ok az bz ez ltac:(lra)) as (tz & Tz & Z1 & Z2 & Z3 & Z4).
  destruct (C16_matched_partial N b tx ty tz Hb HN) as (b' & E & Hb' & Kx & Ky & Kz & _ & Hf').
  { split; [lra|]. split; [lra|exact Ux]. } { split; [lra|]. split; [lra|exact Uy]. } { split; [lra|]. split; [lra|exact Uz]. }
  rewrite X1, X2, X3 in Kx. rewrite Y1, Y2, Y3 in Ky. rewrite Z1, Z2, Z3 in Kz.
  specialize (Kx Rx). specialize (Ky Ry). specialize (Kz Rz). specialize (Hf' Hf).
  destruct (C17_measured_partial N b' ax bx ex ay by_ ey az bz ez Hb' HN Hf' Bx Ex By Ey Bz Ez Kx Ky Kz)
    as (sx & sy & sz & Et & Sx & Sy & Sz).
  exists tx, ty, tz, b', sx, sy, sz. repeat (split; [assumption|]). exact Sz.
Qed.
Print Assumptions C17_round_trip_partial.

Example C17_applies : exists tx ty tz b' sx sy sz,
    new_twiss (-1) 3 2 = Ok tx /\ new_twiss 1 2 7 = Ok ty /\ new_twiss 0 1 1 = Ok tz /\
    make_twiss_dist_6d unit_beam tx ty tz = Ok b' /\ calc_twiss6d b' = Ok (b', (sx, sy, sz)) /\
    twiss_is sx (-1) 3 2 /\ twiss_is sy 1 2 7 /\ twiss_is sz 0 1 1.
Proof.
  apply (C17_round_trip_partial 5); try exact unit_pq; try lra; try lia.
  - exact unit_beam_ok.
  - assert (M1 : 0 = mean pu1) by (unfold pu1; row_calc). assert (M2 : 0 = mean pv1) by (unfold pv1; row_calc).
    intros r [<-|[<-|[<-|[<-|[<-|[<-|[]]]]]]]; assumption.
  - intros [_ H]; lra.
  - intros [H _]; lra.
  - intros [H _]; lra.
Qed.

(** alpha = -3/4, beta = 5/4: what is measured has the other sign. *)
Theorem C17_round_trip_refuted : exists t b' sx sy sz, new_twiss (-3/4) (5/4) 1 = Ok t /\
  make_twiss_dist_6d unit_beam t t t = Ok b' /\ calc_twiss6d b' = Ok (b', (sx, sy, sz)) /\
  twiss_is sx (3/4) (5/4) 1 /\ twiss_is sy (3/4) (5/4) 1 /\ twiss_is sz (3/4) (5/4) 1.
Proof.
  assert (HT : round_tilted (-3/4) (5/4)) by (split; lra).
  pose proof (tw_ok (-3/4) (5/4) 1 ltac:(lra) ltac:(lra)) as P.
  assert (M1 : 0 = mean pu1) by (unfold pu1; row_calc). assert (M2 : 0 = mean pv1) by (unfold pv1; row_calc).
  destruct (plane_matched _ _ _ P eq_refl) as (u & v & E & L1 & L2 & _ & F & _ & K).
  destruct (F M1 M2) as [F1 F2]. specialize (K HT).
  replace (- tw_alpha (tw (-3/4) (5/4) 1)) with (3/4) in K by (cbn; lra). cbn [tw tw_beta tw_emit] in K.
  assert (C : first_on_centroid [u; v; u; v; u; v]).
  { assert (C : forall r, hd 0 r = mean r -> match r with [] => True | x :: _ => x = mean r end).
    { intros [|x r] H; [exact I|exact H]. }
    intros r [<-|[<-|[<-|[<-|[<-|[<-|[]]]]]]]; apply C; assumption. }
  destruct (C17_measured_partial 5 [u; v; u; v; u; v] (3/4) (5/4) 1 (3/4) (5/4) 1 (3/4) (5/4) 1)
    as (sx & sy & sz & Et & Sx & Sy & Sz); try lra; try lia; try exact K.
  - split; [reflexivity|repeat constructor; assumption].
  - exact C.
  - exists (tw (-3/4) (5/4) 1), [u; v; u; v; u; v], sx, sy, sz.
    split; [unfold new_twiss; rewrite pdiv_ok by lra; reflexivity|].
    split; [unfold make_twiss_dist_6d, unit_beam; cbn [nth]; rewrite E; reflexivity|].
    split; [exact Et|]. split; [exact Sx|]. split; [exact Sy|exact Sz].
Qed.
Print Assumptions C17_round_trip_refuted.

(** ---------------- C70 ---------------- *)
Theorem C70_uniform_in_ball : forall fuel rnd num b, make_unif_distrib fuel rnd num = Some b ->
  is_beam num b /\
  forall k, (k < num)%nat ->
    nth k (row b 0) 0 ^ 2 + nth k (row b 2) 0 ^ 2 + nth k (row b 4) 0 ^ 2 < 1 /\
    nth k (row b 1) 0 ^ 2 + nth k (row b 3) 0 ^ 2 + nth k (row b 5) 0 ^ 2 < 1.
Proof.
  intros fuel rnd num b H. unfold make_unif_distrib in H.
  destruct (unif_loop fuel rnd 0 num) as [[q pos]|] eqn:E1; [|discriminate].
  destruct (unif_loop fuel rnd pos num) as [[p pos']|] eqn:E2; [|discriminate].
  inversion H; subst b; clear H.
  destruct (unif_loop_spec _ _ _ _ _ _ E1) as [L1 B1]. destruct (unif_loop_spec _ _ _ _ _ _ E2) as [L2 B2].
  split; [split; [reflexivity|repeat constructor; rewrite map_length; assumption]|].
  intros k Hk. cbn [row nth].
  assert (N1 : forall (f : R * R * R -> R) l d, (k < List.length l)%nat -> nth k (map f l) 0 = f (nth k l d)).
  { intros f l d Hl. rewrite (nth_indep _ 0 (f d)) by (rewrite map_length; exact Hl). apply map_nth. }
  rewrite Forall_forall in B1, B2. split.
  - rewrite !(N1 _ q (0, 0, 0)) by lia. apply B1. apply nth_In. lia.
  - rewrite !(N1 _ p (0, 0, 0)) by lia. apply B2. apply nth_In. lia.
Qed.
Print Assumptions C70_uniform_in_ball.

(** The loops end whenever the generator keeps producing points inside the ball. *)
Theorem C70_uniform_ends : forall rnd num,
  (forall p, exists k, (2 * rnd (p + 3 * k)%nat - 1) ^ 2 + (2 * rnd (p + 3 * k + 1)%nat - 1) ^ 2
                       + (2 * rnd (p + 3 * k + 2)%nat - 1) ^ 2 < 1) ->
  exists fuel b, make_unif_distrib fuel rnd num = Some b.
Proof.
  intros rnd num H.
  destruct (unif_loop_ends rnd num 0 H) as (f1 & [q pos] & E1).
  destruct (unif_loop_ends rnd num pos H) as (f2 & [p pos'] & E2).
  exists (f1 + f2)%nat. unfold make_unif_distrib.
  rewrite (unif_loop_more _ (f1 + f2) _ _ _ _ E1), (unif_loop_more _ (f1 + f2) _ _ _ _ E2) by lia.
  eexists. reflexivity.
Qed.
Print Assumptions C70_uniform_ends.

Example C70_applies : exists fuel b, make_unif_distrib fuel (fun _ => 1 / 2) 7 = Some b /\ is_beam 7 b.
Proof.
  destruct (C70_uniform_ends (fun _ => 1 / 2) 7) as (fuel & b & E).
  - intros p. exists 0%nat. lra.
  - exists fuel, b. split; [exact E|]. apply (C70_uniform_in_ball fuel (fun _ => 1/2)). exact E.
Qed.

(** ---------------- C71 ---------------- *)
Theorem C71_gauss_cutoff_partial : forall fuel rnd cut num b, make_gauss_distrib fuel rnd cut num = Some b ->
  is_beam num b /\
  forall i k, (i < 6)%nat -> (k < num)%nat ->
    nth k (row b i) 0 ^ 2 < cut /\ (1 <= cut -> Rabs (nth k (row b i) 0) < cut).
Proof.
  intros fuel rnd cut num b H. destruct (gauss_rows_spec _ _ _ _ _ _ _ H) as [L F].
  assert (Hb : is_beam num b) by (split; [exact L|eapply Forall_impl; [|exact F]; intros r [Hr _]; exact Hr]).
  split; [exact Hb|]. intros i k Hi Hk.
  assert (HIn : In (row b i) b) by (apply nth_In; lia). rewrite Forall_forall in F.
  destruct (F _ HIn) as [Hl Hc]. rewrite Forall_forall in Hc.
  assert (HIk : In (nth k (row b i) 0) (row b i)) by (apply nth_In; lia).
  specialize (Hc _ HIk). split; [exact Hc|]. intros H1. rewrite <- pow2_abs in Hc.
  pose proof (Rabs_pos (nth k (row b i) 0)). nra.
Qed.
Print Assumptions C71_gauss_cutoff_partial.

(** max_rms_fac is compared with the square: a factor below 1 lets particles beyond it
    through, and a factor above 1 throws away particles well inside it. *)
Theorem C71_gauss_cutoff_refuted :
  (exists b, make_gauss_distrib 2 (fun _ => 2 / 5) (1 / 4) 1 = Some b /\ 1 / 4 < nth 0 (row b 0) 0) /\
  (forall fuel, make_gauss_distrib fuel (fun _ => 2) 3 1 = None).
Proof.
  split.
  - eexists. split.
    + unfold make_gauss_distrib. cbn [gauss_rows gauss_loop].
      destruct (Rlt_dec (2 / 5 * (2 / 5)) (1 / 4)) as [_|n]; [|exfalso; lra]. reflexivity.
    + cbn [row nth]. lra.
  - intros fuel. unfold make_gauss_distrib. cbn [gauss_rows].
    assert (G : forall pos, gauss_loop fuel (fun _ => 2) 3 pos 1 = None).
    { induction fuel as [|fuel IH]; intros pos; [reflexivity|]. cbn [gauss_loop].
      destruct (Rlt_dec (2 * 2) 3); [lra|]. apply IH. }
    rewrite G. reflexivity.
Qed.
Print Assumptions C71_gauss_cutoff_refuted.

Example C71_applies : exists b, make_gauss_distrib 2 (fun _ => 1) 3 2 = Some b /\ is_beam 2 b.
Proof.
  exists (repeat [1; 1] 6). split; [|split; [reflexivity|repeat constructor]].
  unfold make_gauss_distrib. cbn [gauss_rows gauss_loop].
  destruct (Rlt_dec (1 * 1) 3) as [_|n]; [|exfalso; lra]. reflexivity.
Qed.

(** ---------------- C72 ---------------- *)
Theorem C72_cleaned_partial : forall N b rows i r, is_beam N b -> (0 < N)%nat ->
  clean_phase_space_6d b = Ok rows -> (i < 6)%nat -> nth i rows None = Some r ->
  List.length r = N /\ variance r + (INR N + 1) * mean r ^ 2 = 1 /\ (variance r = 1 <-> mean r = 0).
Proof.
  intros N b rows i r Hb HN H Hi Hr.
  destruct (clean_row N b rows i r Hb HN H Hi Hr) as (b2 & _ & _ & L & _ & _ & V).
  split; [exact L|]. split; [exact V|].
  assert (0 < INR N) by (apply lt_0_INR; lia). split; intros E.
  - rewrite E in V. assert ((INR N + 1) * mean r ^ 2 = 0) by lra.
    destruct (Req_EM_T (mean r) 0) as [|n]; [assumption|]. exfalso.
    assert (0 < mean r ^ 2) by (pose proof (Rsqr_pos_lt _ n) as P; unfold Rsqr in P; lra). nra.
  - rewrite E in V. lra.
Qed.
Print Assumptions C72_cleaned_partial.

Definition star (i : nat) : list R := 1 :: map (fun k => if Nat.eqb k i then -1 else 0) (seq 0 6).
Definition star_beam : beam := map star (seq 0 6).
Lemma star_beam_ok : is_beam 7 star_beam.
Proof. split; [reflexivity|repeat constructor]. Qed.

Lemma star_mean : forall i, (i < 6)%nat -> mean (star i) = 0.
Proof. intros i Hi. unfold star. six i Hi; cbn [seq map Nat.eqb]; row_calc. Qed.

Lemma star_row : forall i, (i < 6)%nat -> row star_beam i = star i.
Proof. intros i Hi. six i Hi; reflexivity. Qed.

Lemma star_sub : sub_avg6d star_beam = star_beam.
Proof.
  rewrite sub_avg_spec by exact (is_beam_nonempty 7 _ star_beam_ok ltac:(lia)).
  unfold star_beam. rewrite map_map. apply map_ext_in. intros i Hi. apply in_seq in Hi.
  rewrite star_mean by lia. rewrite <- (map_id (star i)) at 2. apply map_ext. intros. ring.
Qed.

Lemma star_corr : exists m, calc_correlations6d star_beam = Ok (recentre_first star_beam, m) /\
  forall p q, is_pair p q -> m p q = 0.
Proof.
  destruct (correlations_spec 7 star_beam star_beam_ok ltac:(lia)) as (m & E & _ & Ho).
  exists m. split; [exact E|]. intros p q [Hp Hq]. rewrite Ho by lia.
  unfold covariance. rewrite !star_row, !star_mean by lia. assert (Hp6 : (p < 6)%nat) by lia.
  six q Hq; six p Hp6; try (exfalso; lia); cbn [star seq map Nat.eqb combine fst snd total fold_right List.length INR hd]; field.
Qed.

Example C72_applies : exists rows r, clean_phase_space_6d star_beam = Ok rows /\ nth 0 rows None = Some r.
Proof.
  destruct star_corr as (m & E & H).
  destruct (rm_diag 7 star_beam m star_beam_ok ltac:(lia) E H) as (new & RM & Hb & Hc).
  unfold clean_phase_space_6d. rewrite star_sub, RM. cbn [rbind].
  destruct (sub_avg_beam 7 new Hb ltac:(lia)) as [Hb3 _].
  rewrite normalize_rows by exact (is_beam_nonempty 7 _ Hb3 ltac:(lia)).
  destruct Hb3 as [Hl _].
  assert (Hrow : row (sub_avg6d new) 0 = [1/7; -6/7; 1/7; 1/7; 1/7; 1/7; 1/7]).
  { rewrite sub_avg_spec by exact (is_beam_nonempty 7 _ Hb ltac:(lia)).
    assert (Hn0 : row new 0 = [0; -1; 0; 0; 0; 0; 0]).
    { rewrite (row_as_map 7 new 0 Hb) by lia. cbn [seq map]. rewrite !Hc by lia.
      unfold cell. unfold star_beam, recentre_first. cbn [seq map row nth star Nat.eqb].
      rewrite star_mean by lia. reflexivity. }
    assert (Hmn : row (map (fun r => map (fun x => x - mean r) r) new) 0 = map (fun x => x - mean (row new 0)) (row new 0))
      by exact (map_nth (fun r => map (fun x => x - mean r) r) new [] 0). rewrite Hmn.
    rewrite Hn0. assert (M : mean [0; -1; 0; 0; 0; 0; 0] = -1/7) by row_calc. rewrite M.
    cbn [map]. repeat (f_equal; try field). }
  destruct (sub_avg6d new) as [|r0 rest]; [discriminate|]. cbn [row nth] in Hrow. subst r0.
  assert (V : variance [1/7; -6/7; 1/7; 1/7; 1/7; 1/7; 1/7] = 6/49) by row_calc.
  do 2 eexists. split; [reflexivity|]. cbn [map nth].
  destruct (Req_EM_T _ _) as [E0|]; [exfalso|reflexivity].
  rewrite V in E0. assert (0 < sqrt (6/49)) by (apply sqrt_lt_R0; lra). lra.
Qed.

(** The cleaned coordinates are in general neither centred nor of unit rms. *)
Theorem C72_clean_refuted : exists b rows r, is_beam 7 b /\ clean_phase_space_6d b = Ok rows /\
  nth 0 rows None = Some r /\ mean r <> 0 /\ variance r <> 1.
Proof.
  destruct C72_applies as (rows & r & Hc & Hr).
  exists star_beam, rows, r. split; [exact star_beam_ok|]. split; [exact Hc|]. split; [exact Hr|].
  assert (Hm : mean r <> 0).
  { destruct (clean_row 7 star_beam rows 0 r star_beam_ok ltac:(lia) Hc ltac:(lia) Hr)
      as (new & RM & Hb & _ & Hv & Hm & _).
    rewrite star_sub in RM.
    destruct star_corr as (m & E & H).
    destruct (rm_diag 7 star_beam m star_beam_ok ltac:(lia) E H) as (new' & RM' & _ & Hcell).
    rewrite RM in RM'. assert (new' = new) by congruence. subst new'.
    assert (Hrow : hd 0 (row (sub_avg6d new) 0) = 1/7).
    { rewrite sub_avg_spec by exact (is_beam_nonempty 7 _ Hb ltac:(lia)).
      assert (Hn0 : row new 0 = [0; -1; 0; 0; 0; 0; 0]).
      { rewrite (row_as_map 7 new 0 Hb) by lia. cbn [seq map]. rewrite !Hcell by lia.
        unfold cell. unfold star_beam, recentre_first. cbn [seq map row nth star Nat.eqb].
        rewrite star_mean by lia. reflexivity. }
      assert (Hmn : row (map (fun r => map (fun x => x - mean r) r) new) 0 = map (fun x => x - mean (row new 0)) (row new 0))
      by exact (map_nth (fun r => map (fun x => x - mean r) r) new [] 0). rewrite Hmn.
      rewrite Hn0. assert (M : mean [0; -1; 0; 0; 0; 0; 0] = -1/7) by row_calc. rewrite M. cbn [map hd]. field. }
    rewrite Hm, Hrow. cbn [INR].
    assert (Hs : 0 < sqrt (variance (row (sub_avg6d new) 0))) by (apply sqrt_lt_R0; exact Hv).
    intro Z. assert (Z' : - (1 / 7) / (1 + 1 + 1 + 1 + 1 + 1 + 1) / sqrt (variance (row (sub_avg6d new) 0)) *
        sqrt (variance (row (sub_avg6d new) 0)) = 0) by (rewrite Z; ring).
    replace (- (1 / 7) / (1 + 1 + 1 + 1 + 1 + 1 + 1) / sqrt (variance (row (sub_avg6d new) 0)) *
        sqrt (variance (row (sub_avg6d new) 0))) with (- (1/49)) in Z' by (field; lra). lra. }
  split; [exact Hm|]. intro V. apply Hm.
  apply (C72_cleaned_partial 7 star_beam rows 0 r star_beam_ok ltac:(lia) Hc ltac:(lia) Hr). exact V.
Qed.
Print Assumptions C72_clean_refuted.

(** ---------------- C73 ---------------- *)
Theorem C73_reference_particle : forall p m, 0 < m ->
  exists bg g b0, get_beta0_gamma0 p m = Ok bg /\ get_gamma0 p m = Ok g /\ get_beta0 p m = Ok b0 /\
    bg * m = p /\ 1 <= g /\ g ^ 2 - bg ^ 2 = 1 /\ b0 * g = bg /\ -1 < b0 < 1 /\ (g * m) ^ 2 = p ^ 2 + m ^ 2.
Proof.
  intros p m Hm. unfold get_beta0, get_gamma0, get_beta0_gamma0. rewrite pdiv_ok by lra. cbn [rbind].
  set (bg := p / m). pose proof (pow2_ge_0 bg) as H0. rewrite msqrt_ok by lra. cbn [rbind].
  set (g := sqrt (bg ^ 2 + 1)).
  assert (Hg2 : g ^ 2 = bg ^ 2 + 1) by (apply pow2_sqrt; lra).
  assert (Hg : 1 <= g) by (unfold g; rewrite <- sqrt_1 at 1; apply sqrt_le_1; lra).
  rewrite pdiv_ok by lra. exists bg, g, (bg / g).
  assert (E : bg / g * g = bg) by (field; lra).
  assert (Em : bg * m = p) by (unfold bg; field; lra).
  repeat split; try reflexivity; try assumption; try lra.
  - apply Rmult_lt_reg_r with g; [lra|]. rewrite E. nra.
  - apply Rmult_lt_reg_r with g; [lra|]. rewrite E. nra.
  - replace ((g * m) ^ 2) with (g ^ 2 * m ^ 2) by ring. rewrite Hg2, <- Em. ring.
Qed.
Print Assumptions C73_reference_particle.

(** For a beam without length the current is not finite. *)
Theorem C73_peak_current : forall c p m q N b, 0 < c -> 0 < m -> is_beam N b -> (0 < N)%nat ->
  exists b' i b0, get_peak_current_rms c p m q b = Ok (b', i) /\ get_beta0 p m = Ok b0 /\
    (0 < variance (row b 4) -> exists x, i = Some x /\ x * sqrt (variance (row b 4)) = q * b0 * c) /\
    (variance (row b 4) = 0 -> i = None).
Proof.
  intros c p m q N b Hc Hm Hb HN.
  destruct (C73_reference_particle p m Hm) as (bg & g & b0 & _ & _ & E & E1 & E2 & _ & E3 & _).
  unfold get_peak_current_rms, calc_rms6d. rewrite calc_variance6d_spec by exact (is_beam_nonempty N b Hb HN).
  cbn [rbind fst snd]. rewrite E. cbn [rbind].
  assert (Hr : nth 4 (map sqrt (map variance b)) 0 = sqrt (variance (row b 4))).
  { rewrite map_map. rewrite (nth_indep _ 0 (sqrt (variance []))) by (rewrite map_length; destruct Hb; lia).
    exact (map_nth (fun r => sqrt (variance r)) b [] 4). }
  rewrite Hr. do 3 eexists. split; [reflexivity|]. split; [reflexivity|]. split.
  - intros Hv. assert (Hs : 0 < sqrt (variance (row b 4))) by (apply sqrt_lt_R0; exact Hv).
    destruct (Req_EM_T (b0 * c) 0) as [Z0|N0].
    + destruct (Req_EM_T _ 0) as [Z1|_]; [lra|]. exists 0. split; [reflexivity|]. rewrite Rmult_assoc, Z0. ring.
    + assert (Hd : sqrt (variance (row b 4)) / (b0 * c) <> 0).
      { unfold Rdiv. apply Rmult_integral_contrapositive_currified; [lra|]. apply Rinv_neq_0_compat. exact N0. }
      unfold ndiv. destruct (Req_EM_T _ 0) as [Z1|_]; [contradiction|]. eexists. split; [reflexivity|].
      assert (b0 <> 0) by (intros ->; apply N0; ring). field. repeat split; lra.
  - intros Hv. rewrite Hv, sqrt_0. destruct (Req_EM_T (b0 * c) 0) as [_|N0].
    + destruct (Req_EM_T 0 0) as [_|N1]; [reflexivity|contradiction].
    + unfold ndiv. replace (0 / (b0 * c)) with 0 by (unfold Rdiv; ring). destruct (Req_EM_T 0 0) as [_|N1]; [reflexivity|contradiction].
Qed.
Print Assumptions C73_peak_current.

Example C73_applies : exists bg g b0, get_beta0_gamma0 3 4 = Ok bg /\ get_gamma0 3 4 = Ok g /\
  get_beta0 3 4 = Ok b0 /\ g = 5 / 4 /\ b0 = 3 / 5.
Proof.
  destruct (C73_reference_particle 3 4 ltac:(lra)) as (bg & g & b0 & E1 & E2 & E3 & H1 & H2 & H3 & H4 & _).
  exists bg, g, b0. repeat (split; [assumption|]).
  assert (g = 5 / 4) by nra. split; [assumption|]. nra.
Qed.

(** ---------------- C74 ---------------- *)
Lemma upd_row_len : forall b i f, List.length (upd_row b i f) = List.length b.
Proof. induction b as [|r b IH]; intros [|i] f; simpl; auto. Qed.
Lemma upd_row_nth : forall b i f j, row (upd_row b i f) j = if Nat.eqb i j then map f (row b j) else row b j.
Proof.
  induction b as [|r b IH]; intros i f j.
  - unfold row. cbn [upd_row]. destruct j; cbn [nth]; destruct i; cbn [map]; match goal with |- context [if ?c then _ else _] => destruct c end; reflexivity.
  - destruct i as [|i], j as [|j]; try reflexivity. apply (IH i f j).
Qed.

Theorem C74_component_edits : forall b x index, 
  ((0 <= index <= 5)%Z ->
     (exists b', offset_component b x index = Ok b' /\ List.length b' = List.length b /\
        forall j, row b' j = if Z.eqb (Z.of_nat j) index then map (fun v => v + x) (row b j) else row b j) /\
     (exists b', multiply_component b x index = Ok b' /\ List.length b' = List.length b /\
        forall j, row b' j = if Z.eqb (Z.of_nat j) index then map (fun v => v * x) (row b j) else row b j)) /\
  (~ (0 <= index <= 5)%Z ->
     offset_component b x index = Err GenericException /\ multiply_component b x index = Err GenericException).
Proof.
  intros b x index. unfold offset_component, multiply_component. split; intros H.
  - assert (E : ((index <? 0)%Z || (5 <? index)%Z) = false).
    { apply orb_false_iff. split; apply Z.ltb_ge; lia. }
    rewrite E. assert (G : forall j, Nat.eqb (Z.to_nat index) j = Z.eqb (Z.of_nat j) index).
    { intros j. destruct (Z.eqb_spec (Z.of_nat j) index), (Nat.eqb_spec (Z.to_nat index) j); try reflexivity; lia. }
    split; eexists; (split; [reflexivity|]); (split; [apply upd_row_len|]); intros j; rewrite upd_row_nth, G; reflexivity.
  - assert (E : ((index <? 0)%Z || (5 <? index)%Z) = true).
    { apply orb_true_iff. rewrite !Z.ltb_lt. lia. }
    rewrite E. split; reflexivity.
Qed.
Print Assumptions C74_component_edits.

(** Construction is refused in exactly the documented cases. *)
Theorem C74_arguments : forall n ty f,
  distrib_args n ty f = Ok tt <-> ((0 < n)%Z /\ (ty = "uniform" \/ ty = "gaussian")%string /\ 0 < f).
Proof.
  intros n ty f. unfold distrib_args. destruct (Z.leb_spec n 0); [split; [discriminate|lia]|].
  destruct (String.eqb_spec ty "uniform"), (String.eqb_spec ty "gaussian"); cbn [negb andb].
  4: split; [discriminate|tauto].
  all: destruct (Rlt_dec 0 f); split; try discriminate; tauto.
Qed.
Print Assumptions C74_arguments.

Example C74_applies : offset_component [[1];[2];[3];[4];[5];[6]] 1 5 = Ok [[1];[2];[3];[4];[5];[6 + 1]].
Proof. reflexivity. Qed.

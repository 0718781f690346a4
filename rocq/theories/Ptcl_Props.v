(** Theorems about the particle beam object (properties C109, C110). *)
From Coq Require Import List Reals Lra Lia Psatz Bool Arith ZArith String.
From Verif Require Import PyBase Stats_Model Stats_Spec Stats_Proofs Jacobi_Proofs Decor_Proofs.
From Verif Require Import Twiss_Model Twiss_Spec Twiss_Proofs Twiss_Props Ptcl_Model Ptcl_Spec Ptcl_Proofs.
Import ListNotations.
Open Scope R_scope.

(** ---------------- C109 ---------------- *)
Lemma ask_all_cons : forall c o q qs, fst (ask_all c o (q :: qs)) = fst (ask_all c (fst (ask c o q)) qs).
Proof. intros c o q qs. cbn [ask_all]. destruct (ask c o q) as [o1 a]. cbn [fst]. destruct (ask_all c o1 qs). reflexivity. Qed.

Lemma recentre_row : forall N b i, is_beam N b -> (i < 6)%nat ->
  row (recentre_first b) i = match row b i with [] => [] | _ :: xs => mean (row b i) :: xs end.
Proof.
  intros N b i Hb Hi. unfold row, recentre_first.
  exact (map_nth (fun r => match r with [] => [] | _ :: xs => mean r :: xs end) b [] i).
Qed.

(** After any history of questions the attributes are as constructed, all particles but the
    first are where they were, and the first has moved towards the centroid of the others by
    one factor of N for each question about the spread. *)
Theorem C109_history_partial : forall c N o qs, is_beam N (pb_array o) -> (0 < N)%nat ->
  let o' := fst (ask_all c o qs) in
  pb_design_p o' = pb_design_p o /\ pb_charge o' = pb_charge o /\ pb_mass o' = pb_mass o /\
  is_beam N (pb_array o') /\
  forall i, (i < 6)%nat ->
    (forall k, (0 < k)%nat -> coordinate (pb_array o') i k = coordinate (pb_array o) i k) /\
    INR N ^ spread_count qs * (coordinate (pb_array o') i 0 - rest_mean (pb_array o) i) =
      coordinate (pb_array o) i 0 - rest_mean (pb_array o) i.
Proof.
  intros c N o qs. revert o. induction qs as [|q qs IH]; intros o Hb HN; cbv zeta.
  - cbn [ask_all fst]. do 4 (split; [reflexivity || exact Hb|]). intros i Hi.
    split; [reflexivity|]. unfold spread_count. cbn [filter List.length pow]. ring.
  - rewrite ask_all_cons.
    destruct (ask_spec c N o q Hb HN) as (A & P & C & M & _).
    set (o1 := fst (ask c o q)) in *.
    assert (Hb1 : is_beam N (pb_array o1)).
    { rewrite A. destruct (needs_spread q); [apply recentre_beam|]; exact Hb. }
    destruct (IH o1 Hb1 HN) as (P1 & C1 & M1 & B1 & R1).
    split; [rewrite P1; exact P|]. split; [rewrite C1; exact C|]. split; [rewrite M1; exact M|].
    split; [exact B1|]. intros i Hi. destruct (R1 i Hi) as [K1 F1].
    pose proof (is_beam_row_len N _ i Hb Hi) as L.
    assert (T : tl (row (pb_array o1) i) = tl (row (pb_array o) i)).
    { rewrite A. destruct (needs_spread q); [|reflexivity]. rewrite (recentre_row N) by assumption.
      destruct (row (pb_array o) i); reflexivity. }
    split.
    + intros k Hk. rewrite K1 by exact Hk. unfold coordinate. destruct k as [|k]; [lia|].
      destruct (row (pb_array o1) i) as [|x1 r1], (row (pb_array o) i) as [|x2 r2]; cbn [tl] in T; subst;
        cbn [nth]; try reflexivity; destruct k; reflexivity.
    + unfold rest_mean in *. rewrite T in F1. unfold spread_count in *. cbn [filter].
      destruct (needs_spread q) eqn:Q; [|rewrite F1, A; reflexivity].
      cbn [List.length pow]. rewrite Rmult_assoc, F1, A. unfold coordinate.
      rewrite (recentre_row N) by assumption.
      destruct (row (pb_array o) i) as [|x xs]; [cbn [List.length] in L; lia|]. cbn [nth tl].
      rewrite <- L. apply mean_rest.
Qed.
Print Assumptions C109_history_partial.

Lemma recentre_quiet : forall b, first_on_centroid b -> recentre_first b = b.
Proof.
  intros b H. unfold recentre_first. rewrite <- (map_id b) at 2. apply map_ext_in. intros r Hr.
  specialize (H r Hr). destruct r as [|x r]; [reflexivity|]. rewrite <- H. reflexivity.
Qed.

Definition same_data (o o' : ptcl_beam) : Prop :=
  pb_array o' = pb_array o /\ pb_design_p o' = pb_design_p o /\ pb_charge o' = pb_charge o /\ pb_mass o' = pb_mass o.

(** With the first particle on the centroid no history changes the array, and every question
    about the beam gets the answer it would have got at first. *)
Theorem C109_quiet_partial : forall c N o qs q, is_beam N (pb_array o) -> (0 < N)%nat ->
  first_on_centroid (pb_array o) ->
  same_data o (fst (ask_all c o qs)) /\
  ((forall name, q <> AskTwissObject name) -> snd (ask c (fst (ask_all c o qs)) q) = snd (ask c o q)).
Proof.
  intros c N o qs q Hb HN Hf.
  assert (S : same_data o (fst (ask_all c o qs))).
  { revert o Hb Hf. induction qs as [|q0 qs IH]; intros o Hb Hf.
    - repeat split; reflexivity.
    - rewrite ask_all_cons. destruct (ask_spec c N o q0 Hb HN) as (A & P & C & M & _).
      assert (A' : pb_array (fst (ask c o q0)) = pb_array o).
      { rewrite A. destruct (needs_spread q0); [apply recentre_quiet; exact Hf|reflexivity]. }
      destruct (IH (fst (ask c o q0))) as (I1 & I2 & I3 & I4); [rewrite A'; exact Hb|rewrite A'; exact Hf|].
      repeat split; congruence. }
  split; [exact S|]. intros Hq. destruct S as (A & P & C & M).
  destruct q; cbn [ask snd]; rewrite ?A, ?P, ?C, ?M; try reflexivity.
  - exfalso. exact (Hq name eq_refl).
  - destruct (calc_twiss6d (pb_array o)) as [[b' t]| |]; reflexivity.
  - destruct (calc_rms6d (pb_array o)) as [[b' t]| |]; reflexivity.
  - destruct (get_peak_current_rms c (pb_design_p o) (pb_mass o) (pb_charge o) (pb_array o)) as [[b' t]| |]; reflexivity.
Qed.
Print Assumptions C109_quiet_partial.

(** The Twiss objects are replaced by a successful calc_twiss6d, and by nothing else. *)
Theorem C109_twiss : forall c N o q, is_beam N (pb_array o) -> (0 < N)%nat ->
  (pb_twiss (fst (ask c o q)) <> pb_twiss o -> q = CalcTwiss /\ snd (ask c o q) = Ok Nothing) /\
  (snd (ask c o CalcTwiss) = Ok Nothing ->
     exists b', calc_twiss6d (pb_array o) = Ok (b', pb_twiss (fst (ask c o CalcTwiss)))) /\
  (snd (ask c o CalcTwiss) = Ok Nothing \/ snd (ask c o CalcTwiss) = Err GenericException).
Proof.
  intros c N o q Hb HN. split; [|split].
  - intros H. destruct (ask_spec c N o q Hb HN) as (_ & _ & _ & _ & T).
    assert (Eq : q = CalcTwiss).
    { destruct q; try reflexivity; exfalso; apply H; apply T; discriminate. }
    split; [exact Eq|]. subst q. cbn [ask] in *.
    destruct (calc_twiss6d (pb_array o)) as [[b' t]|e|]; cbn [fst snd with_array pb_twiss] in *; [reflexivity| |];
      exfalso; apply H; reflexivity.
  - cbn [ask]. destruct (calc_twiss6d (pb_array o)) as [[b' t]|e|]; cbn [fst snd]; try discriminate.
    intros _. exists b'. reflexivity.
  - destruct (correlations_spec N (pb_array o) Hb HN) as (m & E & _ & _).
    destruct (C17_calc_twiss N (pb_array o) _ m Hb HN E) as [G B].
    assert (D : (forall k, (k < 3)%nat -> 0 < det m k) \/ exists k, (k < 3)%nat /\ det m k <= 0).
    { destruct (Rlt_dec 0 (det m 0)) as [d0|d0]; [|right; exists 0%nat; split; [lia|lra]].
      destruct (Rlt_dec 0 (det m 1)) as [d1|d1]; [|right; exists 1%nat; split; [lia|lra]].
      destruct (Rlt_dec 0 (det m 2)) as [d2|d2]; [|right; exists 2%nat; split; [lia|lra]].
      left. intros k Hk. destruct k as [|[|[|k]]]; [assumption..|lia]. }
    destruct D as [D|D].
    + destruct (G D) as (tx & ty & tz & Ec & _). left. cbn [ask]. rewrite Ec. reflexivity.
    + right. cbn [ask]. rewrite (B D). reflexivity.
Qed.
Print Assumptions C109_twiss.

(** What the questions are answered with. *)
Theorem C109_answers : forall c N o, is_beam N (pb_array o) -> (0 < N)%nat ->
  let p := pb_design_p o in let m := pb_mass o in let b := pb_array o in
  snd (ask c o AskMomentum) = Ok (Number p) /\ snd (ask c o AskCharge) = Ok (Number (pb_charge o)) /\
  snd (ask c o AskMass) = Ok (Number m) /\
  (exists l, snd (ask c o AskAverages) = Ok (Averages l) /\
     forall i, (i < 6)%nat -> nth i l None = Some (mean (row b i))) /\
  (exists l, snd (ask c o AskRms) = Ok (Numbers l) /\ List.length l = 6%nat /\
     forall i, (i < 6)%nat -> 0 <= nth i l 0 /\ nth i l 0 ^ 2 = variance (row b i)) /\
  (0 < m -> exists bg g b0,
     snd (ask c o AskBetaGamma) = Ok (Number bg) /\ snd (ask c o AskGamma) = Ok (Number g) /\
     snd (ask c o AskBeta) = Ok (Number b0) /\
     bg * m = p /\ 1 <= g /\ g ^ 2 - bg ^ 2 = 1 /\ b0 * g = bg /\
     (0 < c -> exists i, snd (ask c o AskPeakCurrent) = Ok (Current i) /\
        (0 < variance (row b 4) -> exists x, i = Some x /\ x * sqrt (variance (row b 4)) = pb_charge o * b0 * c) /\
        (variance (row b 4) = 0 -> i = None))).
Proof.
  intros c N o Hb HN p m b. do 3 (split; [reflexivity|]). split; [|split].
  - exists (calc_avg6d b). split; [reflexivity|]. intros i Hi. apply nth_map_mean.
    + destruct Hb as [L _]. fold b in L. lia.
    + exact (is_beam_nonempty N b Hb HN).
  - exists (map (fun r => sqrt (variance r)) b). split.
    + cbn [ask]. fold b. unfold calc_rms6d. rewrite calc_variance6d_spec by exact (is_beam_nonempty N b Hb HN).
      cbn [rbind fst snd]. rewrite map_map. reflexivity.
    + destruct Hb as [L _]. fold b in L. split; [rewrite map_length; exact L|]. intros i Hi.
      rewrite (nth_indep _ 0 (sqrt (variance []))) by (rewrite map_length; lia).
      rewrite (map_nth (fun r => sqrt (variance r)) b [] i). split; [apply sqrt_pos|].
      apply pow2_sqrt. apply variance_nonneg.
  - intros Hm. destruct (C73_reference_particle p m Hm) as (bg & g & b0 & E1 & E2 & E3 & K1 & K2 & K3 & K4 & _).
    exists bg, g, b0. cbn [ask snd]. fold p m. rewrite E1, E2, E3. do 3 (split; [reflexivity|]).
    do 4 (split; [assumption|]). intros Hc.
    destruct (C73_peak_current c p m (pb_charge o) N b Hc Hm Hb HN) as (b' & i & b0' & E & E3' & I).
    rewrite E3 in E3'. assert (b0' = b0) by congruence. subst b0'.
    exists i. fold b. rewrite E. split; [reflexivity|exact I].
Qed.
Print Assumptions C109_answers.

Definition pair_beam : ptcl_beam :=
  {| pb_design_p := 3; pb_charge := 1; pb_mass := 4;
     pb_twiss := ({| tw_alpha := 0; tw_beta := 1; tw_emit := 1; tw_gamma := 1 |},
                  {| tw_alpha := 0; tw_beta := 1; tw_emit := 1; tw_gamma := 1 |},
                  {| tw_alpha := 0; tw_beta := 1; tw_emit := 1; tw_gamma := 1 |});
     pb_array := repeat [1; -1] 6 |}.

(** A question may be answered differently when it is asked again: the peak current of two
    particles doubles. *)
Theorem C109_history_refuted : exists o i1 i2, is_beam 2 (pb_array o) /\
  snd (ask_all 1 o [AskPeakCurrent; AskPeakCurrent]) = [Ok (Current (Some i1)); Ok (Current (Some i2))] /\
  0 < i1 /\ i2 = 2 * i1.
Proof.
  assert (Hb : is_beam 2 (pb_array pair_beam)) by (split; [reflexivity|repeat constructor]).
  assert (V1 : variance (row (pb_array pair_beam) 4) = 1) by (cbn [pair_beam pb_array repeat row nth]; row_calc).
  destruct (C73_peak_current 1 3 4 1 2 (pb_array pair_beam)) as (b1 & j1 & b0 & E1 & B1 & I1 & _);
    [lra|lra|exact Hb|lia|].
  destruct I1 as (i1 & -> & I1); [rewrite V1; lra|].
  assert (Hb0 : 0 < b0).
  { destruct (C73_reference_particle 3 4 ltac:(lra)) as (bg & g & b0' & _ & _ & E & M & G & _ & K & _).
    rewrite B1 in E. inversion E; subst b0'. nra. }
  pose proof (peak_array 1 3 4 1 2 (pb_array pair_beam) Hb ltac:(lia)) as P. rewrite E1 in P.
  assert (Hb1 : is_beam 2 b1) by (rewrite P; apply recentre_beam; exact Hb).
  assert (Hrow : row b1 4 = [0; -1]).
  { rewrite P, (recentre_row 2) by (try exact Hb; lia). cbn [pair_beam pb_array repeat row nth].
    f_equal. row_calc. }
  assert (V2 : variance (row b1 4) = 1/4) by (rewrite Hrow; row_calc).
  destruct (C73_peak_current 1 3 4 1 2 b1) as (b2 & j2 & b0' & E2 & B2 & I2 & _);
    [lra|lra|exact Hb1|lia|].
  destruct I2 as (i2 & -> & I2); [rewrite V2; lra|].
  rewrite B1 in B2. inversion B2; subst b0'.
  assert (S2 : sqrt (variance (row b1 4)) = 1/2).
  { rewrite V2. apply sqrt_lem_1; lra. }
  assert (S1 : sqrt (variance (row (pb_array pair_beam) 4)) = 1) by (rewrite V1; apply sqrt_1).
  rewrite S1 in I1. rewrite S2 in I2.
  exists pair_beam, i1, i2. split; [exact Hb|]. split; [|split; lra].
  cbn [ask_all ask]. change (pb_design_p pair_beam) with 3. change (pb_mass pair_beam) with 4.
  change (pb_charge pair_beam) with 1. rewrite E1. cbn [pb_design_p pb_mass pb_charge pb_array with_array].
  change (pb_design_p pair_beam) with 3. change (pb_mass pair_beam) with 4.
  change (pb_charge pair_beam) with 1. rewrite E2. reflexivity.
Qed.
Print Assumptions C109_history_refuted.

Example C109_applies : is_beam 2 (pb_array pair_beam) /\
  spread_count [AskPeakCurrent; AskMass; CalcTwiss] = 2%nat /\
  is_beam 3 (repeat [0; 1; -1] 6) /\ first_on_centroid (repeat [0; 1; -1] 6).
Proof.
  split; [split; [reflexivity|repeat constructor]|]. split; [reflexivity|].
  split; [split; [reflexivity|repeat constructor]|].
  intros r Hr. apply repeat_spec in Hr. subst r. row_calc.
Qed.

(** ---------------- C110 ---------------- *)
Lemma draw_beam : forall fuel rnd num ty cut b, draw fuel rnd num ty cut = Some b -> is_beam num b.
Proof.
  intros fuel rnd num ty cut b H. unfold draw in H. destruct (String.eqb ty "uniform").
  - exact (proj1 (C70_uniform_in_ball _ _ _ _ H)).
  - exact (proj1 (C71_gauss_cutoff_partial _ _ _ _ _ H)).
Qed.

(** What a construction that returns went through. *)
Lemma built : forall fuel rnd n p q m ty f ax bx ex ay by_ ey az bz ez r,
  new_ptcl_beam fuel rnd n p q m ty f ax bx ex ay by_ ey az bz ez = Some (Ok r) ->
  exists tx ty' tz b0 rows,
    new_twiss ax bx ex = Ok tx /\ new_twiss ay by_ ey = Ok ty' /\ new_twiss az bz ez = Ok tz /\
    distrib_args n ty f = Ok tt /\ draw fuel rnd (Z.to_nat n) ty f = Some b0 /\
    clean_phase_space_6d b0 = Ok rows /\
    match finite_rows rows with
    | None => r = None /\ try_planes tx ty' tz = Ok tt
    | Some b => exists b', make_twiss_dist_6d b tx ty' tz = Ok b' /\
        r = Some {| pb_design_p := p; pb_charge := q; pb_mass := m; pb_twiss := (tx, ty', tz); pb_array := b' |}
    end.
Proof.
  intros fuel rnd n p q m ty f ax bx ex ay by_ ey az bz ez r H. unfold new_ptcl_beam in H.
  destruct (new_twiss ax bx ex) as [tx| |]; [|discriminate|destruct (new_twiss ay by_ ey) as [?| |], (new_twiss az bz ez); discriminate].
  destruct (new_twiss ay by_ ey) as [ty'| |]; [|discriminate|destruct (new_twiss az bz ez); discriminate].
  destruct (new_twiss az bz ez) as [tz| |]; try discriminate.
  destruct (distrib_args n ty f) as [[]| |]; try discriminate.
  destruct (draw fuel rnd (Z.to_nat n) ty f) as [b0|]; [|discriminate].
  destruct (clean_phase_space_6d b0) as [rows| |] eqn:Ec; cbn [rbind] in H; try discriminate.
  exists tx, ty', tz, b0, rows. repeat (split; [reflexivity || assumption|]).
  destruct (finite_rows rows) as [b|].
  - destruct (make_twiss_dist_6d b tx ty' tz) as [b'| |]; cbn [rbind] in H; try discriminate.
    exists b'. inversion H. split; reflexivity.
  - destruct (try_planes tx ty' tz) as [[]| |]; cbn [rbind] in H; try discriminate.
    inversion H. split; reflexivity.
Qed.

Lemma coeffs_positive : forall a b e t k, new_twiss a b e = Ok t -> plane_coeffs t = Ok k -> 0 < b /\ 0 <= e.
Proof.
  intros a b e t k Ht Hk. unfold new_twiss in Ht.
  destruct (Req_EM_T b 0) as [E0|Hb]; [unfold pdiv in Ht; destruct (Req_EM_T b 0); [discriminate|contradiction]|].
  rewrite pdiv_ok in Ht by exact Hb. cbn [rbind] in Ht. inversion Ht; subst t; clear Ht.
  unfold plane_coeffs in Hk. cbn [tw_alpha tw_beta tw_emit] in Hk.
  rewrite pdiv_ok in Hk by exact Hb. cbn [rbind] in Hk. set (g := (1 + a ^ 2) / b) in *.
  unfold msqrt at 1 in Hk. destruct (Rlt_dec ((g - b) ^ 2 + 4 * a ^ 2) 0) as [|_]; cbn [rbind] in Hk; [discriminate|].
  set (rt := sqrt ((g - b) ^ 2 + 4 * a ^ 2)) in *. assert (Hrt : 0 <= rt) by apply sqrt_pos.
  assert (Hg : g * b = 1 + a ^ 2) by (unfold g; field; exact Hb).
  assert (He : forall (A : Type) (x : R) (k0 : R -> res A) y, rbind (msqrt x) k0 = Ok y -> 0 <= x /\ k0 (sqrt x) = Ok y).
  { intros A x k0 y Hx. unfold msqrt in Hx. destruct (Rlt_dec x 0); cbn [rbind] in Hx; [discriminate|].
    split; [lra|exact Hx]. }
  assert (HB : 0 <= g + b - rt /\ 0 <= e).
  { destruct (Rle_dec 0 (g - b)) as [Hgb|Hgb].
    - destruct (msqrt (1 / 2 * (g + b - rt))) as [fa| |] eqn:E1; cbn [rbind] in Hk; try discriminate.
      destruct (msqrt (1 / 2 * (g + b + rt))) as [fi| |] eqn:E2; cbn [rbind] in Hk; try discriminate.
      split; [unfold msqrt in E1; destruct (Rlt_dec (1 / 2 * (g + b - rt)) 0); [discriminate|lra]|].
      destruct (if Req_EM_T a 0 then _ else _) as [[s0 c0]| |]; cbn [rbind] in Hk; try discriminate.
      destruct (He _ _ _ _ Hk) as [P _]. exact P.
    - destruct (msqrt (1 / 2 * (g + b + rt))) as [fa| |] eqn:E1; cbn [rbind] in Hk; try discriminate.
      destruct (msqrt (1 / 2 * (g + b - rt))) as [fi| |] eqn:E2; cbn [rbind] in Hk; try discriminate.
      split; [unfold msqrt in E2; destruct (Rlt_dec (1 / 2 * (g + b - rt)) 0); [discriminate|lra]|].
      destruct (if Req_EM_T a 0 then _ else _) as [[s0 c0]| |]; cbn [rbind] in Hk; try discriminate.
      destruct (He _ _ _ _ Hk) as [P _]. exact P. }
  destruct HB as [H1 H2]. split; [|exact H2].
  destruct (Rlt_dec 0 b) as [|Hn]; [assumption|]. exfalso. assert (b < 0) by lra.
  pose proof (pow2_ge_0 a). nra.
Qed.

Lemma plane_coeffs_of : forall t u v r, make_plane t u v = Ok r -> exists k, plane_coeffs t = Ok k.
Proof.
  intros t u v r H. unfold make_plane in H. destruct (plane_coeffs t) as [k| |]; cbn [rbind] in H; try discriminate.
  exists k. reflexivity.
Qed.

(** No object comes out of arguments without a meaning. *)
Theorem C110_arguments : forall fuel rnd n p q m ty f ax bx ex ay by_ ey az bz ez r,
  new_ptcl_beam fuel rnd n p q m ty f ax bx ex ay by_ ey az bz ez = Some (Ok r) ->
  (0 < n)%Z /\ (ty = "uniform" \/ ty = "gaussian")%string /\ 0 < f /\
  0 < bx /\ 0 < by_ /\ 0 < bz /\ 0 <= ex /\ 0 <= ey /\ 0 <= ez.
Proof.
  intros fuel rnd n p q m ty f ax bx ex ay by_ ey az bz ez r H.
  destruct (built _ _ _ _ _ _ _ _ _ _ _ _ _ _ _ _ _ _ H) as (tx & ty' & tz & b0 & rows & Tx & Ty & Tz & A & _ & _ & K).
  apply C74_arguments in A. destruct A as (A1 & A2 & A3).
  assert (C : exists kx ky kz, plane_coeffs tx = Ok kx /\ plane_coeffs ty' = Ok ky /\ plane_coeffs tz = Ok kz).
  { destruct (finite_rows rows) as [b|].
    - destruct K as (b' & E & _). unfold make_twiss_dist_6d in E.
      destruct (make_plane tx _ _) as [p0| |] eqn:E0; cbn [rbind] in E; try discriminate.
      destruct (make_plane ty' _ _) as [p1| |] eqn:E1; cbn [rbind] in E; try discriminate.
      destruct (make_plane tz _ _) as [p2| |] eqn:E2; cbn [rbind] in E; try discriminate.
      destruct (plane_coeffs_of _ _ _ _ E0) as [kx ?]. destruct (plane_coeffs_of _ _ _ _ E1) as [ky ?].
      destruct (plane_coeffs_of _ _ _ _ E2) as [kz ?]. exists kx, ky, kz. auto.
    - destruct K as [_ E]. unfold try_planes in E.
      destruct (plane_coeffs tx) as [kx| |]; cbn [rbind] in E; try discriminate.
      destruct (plane_coeffs ty') as [ky| |]; cbn [rbind] in E; try discriminate.
      destruct (plane_coeffs tz) as [kz| |]; cbn [rbind] in E; try discriminate.
      exists kx, ky, kz. auto. }
  destruct C as (kx & ky & kz & Kx & Ky & Kz).
  destruct (coeffs_positive _ _ _ _ _ Tx Kx), (coeffs_positive _ _ _ _ _ Ty Ky), (coeffs_positive _ _ _ _ _ Tz Kz).
  tauto.
Qed.
Print Assumptions C110_arguments.

(** A beam built from draws whose first particle is on the centroid has the moments asked for,
    and reports the parameters asked for. *)
Theorem C110_as_asked_partial : forall fuel rnd n p q m ty f ax bx ex ay by_ ey az bz ez o b0 c,
  new_ptcl_beam fuel rnd n p q m ty f ax bx ex ay by_ ey az bz ez = Some (Ok (Some o)) ->
  draw fuel rnd (Z.to_nat n) ty f = Some b0 -> first_on_centroid b0 ->
  0 < ex -> 0 < ey -> 0 < ez ->
  ~ round_tilted ax bx -> ~ round_tilted ay by_ -> ~ round_tilted az bz ->
  pb_design_p o = p /\ pb_charge o = q /\ pb_mass o = m /\
  is_beam (Z.to_nat n) (pb_array o) /\
  (forall i, (i < 6)%nat -> mean (row (pb_array o) i) = 0) /\
  matched ax bx ex (row (pb_array o) 0) (row (pb_array o) 1) /\
  matched ay by_ ey (row (pb_array o) 2) (row (pb_array o) 3) /\
  matched az bz ez (row (pb_array o) 4) (row (pb_array o) 5) /\
  exists o' sx sy sz, ask c o CalcTwiss = (o', Ok Nothing) /\ pb_array o' = pb_array o /\
    pb_twiss o' = (sx, sy, sz) /\ twiss_is sx ax bx ex /\ twiss_is sy ay by_ ey /\ twiss_is sz az bz ez.
Proof.
  intros fuel rnd n p q m ty f ax bx ex ay by_ ey az bz ez o b0 c H D Hf Ex Ey Ez Rx Ry Rz.
  destruct (C110_arguments _ _ _ _ _ _ _ _ _ _ _ _ _ _ _ _ _ _ H) as (Hn & _ & _ & Bx & By & Bz & _).
  destruct (built _ _ _ _ _ _ _ _ _ _ _ _ _ _ _ _ _ _ H) as (tx & ty' & tz & b1 & rows & Tx & Ty & Tz & _ & D1 & Hc & K).
  rewrite D in D1. assert (b1 = b0) by congruence. subst b1.
  destruct (finite_rows rows) as [b|] eqn:Fr; [|destruct K; discriminate].
  destruct K as (b' & E & Eo). assert (o = {| pb_design_p := p; pb_charge := q; pb_mass := m;
     pb_twiss := (tx, ty', tz); pb_array := b' |}) by congruence. subst o. clear Eo.
  assert (HN : (0 < Z.to_nat n)%nat) by lia.
  destruct (cleaned_unit (Z.to_nat n) b0 rows b (draw_beam _ _ _ _ _ _ D) HN Hf Hc Fr) as (Hb & Hq & Hm & Hu).
  assert (U : forall i j, (i < 6)%nat -> (j < 6)%nat -> i <> j -> unit_plane (row b i) (row b j)).
  { intros i j Hi Hj Hij. unfold unit_plane. rewrite !Hu, !Nat.eqb_refl by assumption.
    apply Nat.eqb_neq in Hij. rewrite Hij. auto. }
  pose proof (U 0%nat 1%nat ltac:(lia) ltac:(lia) ltac:(lia)) as U0.
  pose proof (U 2%nat 3%nat ltac:(lia) ltac:(lia) ltac:(lia)) as U1.
  pose proof (U 4%nat 5%nat ltac:(lia) ltac:(lia) ltac:(lia)) as U2.
  destruct (new_twiss_ok ax bx ex ltac:(lra)) as (tx1 & Tx1 & X1 & X2 & X3 & _).
  destruct (new_twiss_ok ay by_ ey ltac:(lra)) as (ty1 & Ty1 & Y1 & Y2 & Y3 & _).
  destruct (new_twiss_ok az bz ez ltac:(lra)) as (tz1 & Tz1 & Z1 & Z2 & Z3 & _).
  rewrite Tx in Tx1. rewrite Ty in Ty1. rewrite Tz in Tz1.
  assert (tx1 = tx) by congruence. assert (ty1 = ty') by congruence. assert (tz1 = tz) by congruence. subst tx1 ty1 tz1.
  destruct (C16_matched_partial (Z.to_nat n) b tx ty' tz Hb HN) as (b2 & E2 & Hb2 & Mx & My & Mz & M0 & _);
    [split; [lra|split; [lra|assumption]]..|].
  rewrite E in E2. assert (b2 = b') by congruence. subst b2. clear E2.
  rewrite X1, X2, X3 in Mx. rewrite Y1, Y2, Y3 in My. rewrite Z1, Z2, Z3 in Mz.
  destruct (C17_round_trip_partial (Z.to_nat n) b ax bx ex ay by_ ey az bz ez Hb HN Hq U0 U1 U2 Bx Ex By Ey Bz Ez Rx Ry Rz)
    as (tx2 & ty2 & tz2 & b3 & sx & sy & sz & Tx2 & Ty2 & Tz2 & E3 & Ec & Sx & Sy & Sz).
  rewrite Tx in Tx2. rewrite Ty in Ty2. rewrite Tz in Tz2.
  assert (tx2 = tx) by congruence. assert (ty2 = ty') by congruence. assert (tz2 = tz) by congruence. subst tx2 ty2 tz2.
  rewrite E in E3. assert (b3 = b') by congruence. subst b3.
  cbn [pb_design_p pb_charge pb_mass pb_array].
  do 3 (split; [reflexivity|]). split; [exact Hb2|]. split; [exact (M0 Hm)|].
  split; [exact (Mx Rx)|]. split; [exact (My Ry)|]. split; [exact (Mz Rz)|].
  cbn [ask pb_array]. rewrite Ec. do 4 eexists. split; [reflexivity|]. split; [reflexivity|]. split; [reflexivity|].
  split; [exact Sx|]. split; [exact Sy|exact Sz].
Qed.
Print Assumptions C110_as_asked_partial.

(** The Twiss objects are found under their names. *)
Theorem C110_by_name : forall fuel rnd n p q m ty f ax bx ex ay by_ ey az bz ez o c,
  new_ptcl_beam fuel rnd n p q m ty f ax bx ex ay by_ ey az bz ez = Some (Ok (Some o)) ->
  (exists t, snd (ask c o (AskTwissObject "twiss_x")) = Ok (TwissObject t) /\ twiss_is t ax bx ex) /\
  (exists t, snd (ask c o (AskTwissObject "twiss_y")) = Ok (TwissObject t) /\ twiss_is t ay by_ ey) /\
  (exists t, snd (ask c o (AskTwissObject "twiss_z")) = Ok (TwissObject t) /\ twiss_is t az bz ez) /\
  (forall name, ~ In name ["twiss_x"; "twiss_y"; "twiss_z"]%string ->
     snd (ask c o (AskTwissObject name)) = Err KeyError).
Proof.
  intros fuel rnd n p q m ty f ax bx ex ay by_ ey az bz ez o c H.
  destruct (C110_arguments _ _ _ _ _ _ _ _ _ _ _ _ _ _ _ _ _ _ H) as (_ & _ & _ & Bx & By & Bz & _).
  destruct (built _ _ _ _ _ _ _ _ _ _ _ _ _ _ _ _ _ _ H) as (tx & ty' & tz & b1 & rows & Tx & Ty & Tz & _ & _ & _ & K).
  destruct (finite_rows rows) as [b|]; [|destruct K; discriminate]. destruct K as (b' & _ & Eo).
  inversion Eo; subst o; clear Eo.
  destruct (new_twiss_ok ax bx ex ltac:(lra)) as (tx1 & Tx1 & X).
  destruct (new_twiss_ok ay by_ ey ltac:(lra)) as (ty1 & Ty1 & Y).
  destruct (new_twiss_ok az bz ez ltac:(lra)) as (tz1 & Tz1 & Z).
  rewrite Tx in Tx1. rewrite Ty in Ty1. rewrite Tz in Tz1.
  assert (tx1 = tx) by congruence. assert (ty1 = ty') by congruence. assert (tz1 = tz) by congruence. subst tx1 ty1 tz1.
  split; [exists tx; split; [reflexivity|exact X]|].
  split; [exists ty'; split; [reflexivity|exact Y]|].
  split; [exists tz; split; [reflexivity|exact Z]|].
  intros name Hn. cbn [ask snd pb_twiss twiss_by_name].
  destruct (String.eqb_spec name "twiss_x"); [subst; exfalso; apply Hn; left; reflexivity|].
  destruct (String.eqb_spec name "twiss_y"); [subst; exfalso; apply Hn; right; left; reflexivity|].
  destruct (String.eqb_spec name "twiss_z"); [subst; exfalso; apply Hn; right; right; left; reflexivity|].
  reflexivity.
Qed.
Print Assumptions C110_by_name.

Lemma gauss_all : forall rnd cut num pos, (forall k, rnd k * rnd k < cut) ->
  gauss_loop num rnd cut pos num = Some (map rnd (seq pos num), (pos + num)%nat).
Proof.
  intros rnd cut num. induction num as [|num IH]; intros pos H; cbn [gauss_loop seq map].
  - rewrite Nat.add_0_r. reflexivity.
  - destruct (Rlt_dec (rnd pos * rnd pos) cut) as [_|n]; [|exfalso; exact (n (H pos))].
    replace (pos + 1)%nat with (S pos) by lia. rewrite IH by exact H.
    replace (S pos + num)%nat with (pos + S num)%nat by lia. reflexivity.
Qed.

(** The numbers of a table, row after row. *)
Definition drawn_from (b : beam) (k : nat) : R := nth k (List.concat b) 0.

Lemma draw_table : forall n b, is_beam n b -> (forall r x, In r b -> In x r -> x ^ 2 <= 1) ->
  draw n (drawn_from b) n "gaussian" 3 = Some b.
Proof.
  intros n b [L F] H. unfold draw. change (String.eqb "gaussian" "uniform") with false. cbv iota.
  unfold make_gauss_distrib.
  assert (Hd : forall k, drawn_from b k * drawn_from b k < 3).
  { intros k. unfold drawn_from. destruct (nth_in_or_default k (List.concat b) 0) as [HIn|E0]; [|rewrite E0; lra].
    apply in_concat in HIn. destruct HIn as (r & Hr & Hx). specialize (H r _ Hr Hx). nra. }
  assert (G : forall bs pre, Forall (fun r => List.length r = n) bs -> b = pre ++ bs ->
     gauss_rows (List.length bs) n (drawn_from b) 3 (List.length (List.concat pre)) n = Some bs).
  { induction bs as [|r bs IH]; intros pre Fb Eb; cbn [List.length gauss_rows]; [reflexivity|].
    inversion Fb as [|r0 bs0 Hr Fb' E0]; subst r0 bs0. rewrite gauss_all by exact Hd.
    assert (Er : map (drawn_from b) (seq (List.length (List.concat pre)) n) = r).
    { rewrite <- Hr. rewrite Eb. unfold drawn_from. rewrite concat_app. cbn [List.concat].
      clear. set (l := List.concat pre). set (s := List.concat bs).
      assert (J : forall l r, map (fun k => nth k (l ++ r ++ s) 0) (seq (List.length l) (List.length r)) = r).
      { intros l0 r0. revert l0. induction r0 as [|x r0 IH]; intros l0; cbn [List.length seq map]; [reflexivity|].
        f_equal.
        - rewrite app_nth2 by lia. rewrite Nat.sub_diag. reflexivity.
        - specialize (IH (l0 ++ [x])). rewrite app_length in IH. cbn [List.length] in IH.
          replace (List.length l0 + 1)%nat with (S (List.length l0)) in IH by lia.
          rewrite <- app_assoc in IH. exact IH. }
      apply J. }
    rewrite Er. specialize (IH (pre ++ [r]) Fb'). rewrite concat_app, app_length in IH. cbn [List.concat] in IH.
    rewrite app_nil_r, Hr in IH. rewrite IH; [reflexivity|]. rewrite <- app_assoc. exact Eb. }
  specialize (G b [] F eq_refl). rewrite L in G. exact G.
Qed.

Definition round_twiss : twiss := {| tw_alpha := 0; tw_beta := 1; tw_emit := 1; tw_gamma := 1 |}.
Lemma round_new : exists t, new_twiss 0 1 1 = Ok t /\
  forall u v, List.length u = List.length v -> make_plane t u v = Ok (u, v).
Proof.
  unfold new_twiss. rewrite pdiv_ok by lra. cbn [rbind]. eexists. split; [reflexivity|].
  intros u v HL. unfold make_plane, plane_coeffs. cbn [tw_alpha tw_beta tw_emit].
  rewrite pdiv_ok by lra. cbn [rbind].
  replace ((1 + 0 ^ 2) / 1) with 1 by field.
  rewrite msqrt_ok by lra. cbn [rbind].
  replace (sqrt ((1 - 1) ^ 2 + 4 * 0 ^ 2)) with 0
    by (replace ((1 - 1) ^ 2 + 4 * 0 ^ 2) with 0 by ring; symmetry; exact sqrt_0).
  destruct (Rle_dec 0 (1 - 1)) as [_|n]; [|exfalso; lra].
  rewrite !msqrt_ok by lra. cbn [rbind].
  replace (1 / 2 * (1 + 1 - 0)) with 1 by field. replace (1 / 2 * (1 + 1 + 0)) with 1 by field. rewrite sqrt_1.
  destruct (Req_EM_T 0 0) as [_|n]; [|contradiction]. cbn [rbind fst snd].
  destruct (Rlt_dec (0 * (1 - 1)) 0) as [r|_]; [exfalso; lra|].
  f_equal. f_equal.
  - revert v HL. induction u as [|x u IH]; intros [|y v] HL; try discriminate; [reflexivity|].
    cbn [combine map fst snd]. f_equal; [ring|]. apply IH. cbn [List.length] in HL. lia.
  - revert v HL. induction u as [|x u IH]; intros [|y v] HL; try discriminate; [reflexivity|].
    cbn [combine map fst snd]. f_equal; [ring|]. apply IH. cbn [List.length] in HL. lia.
Qed.

Lemma round_dist : forall N b, is_beam N b -> exists t, new_twiss 0 1 1 = Ok t /\ make_twiss_dist_6d b t t t = Ok b.
Proof.
  intros N b [L F]. destruct round_new as (t & T & P). exists t. split; [exact T|].
  destruct b as [|r0 [|r1 [|r2 [|r3 [|r4 [|r5 [|]]]]]]]; try discriminate.
  repeat match goal with H : Forall _ (_ :: _) |- _ => inversion H; subst; clear H end.
  unfold make_twiss_dist_6d. cbn [nth]. rewrite !P by congruence. reflexivity.
Qed.

Lemma beam_ext : forall N b b', is_beam N b -> is_beam N b' ->
  (forall i k, (i < 6)%nat -> (k < N)%nat -> cell b i k = cell b' i k) -> b = b'.
Proof.
  intros N b b' [L F] [L' F'] H. apply (nth_ext b b' [] []); [congruence|]. intros i Hi.
  change (row b i = row b' i). rewrite !(row_as_map N) by (try (split; assumption); lia).
  apply map_ext_in. intros k Hk. apply in_seq in Hk. apply H; lia.
Qed.

(** A centred array without correlations is cleaned row by row. *)
Lemma clean_diag : forall N b m, is_beam N b -> (0 < N)%nat -> sub_avg6d b = b ->
  calc_correlations6d b = Ok (recentre_first b, m) -> (forall p q, is_pair p q -> m p q = 0) ->
  clean_phase_space_6d b = normalize_rms6d (sub_avg6d (recentre_first b)).
Proof.
  intros N b m Hb HN Hs E H. destruct (rm_diag N b m Hb HN E H) as (new & RM & Hn & Hc).
  unfold clean_phase_space_6d. rewrite Hs, RM. cbn [rbind].
  rewrite (beam_ext N new (recentre_first b) Hn (recentre_beam N b Hb) Hc). reflexivity.
Qed.

Lemma finite_ok : forall rs, Forall (fun r => 0 < variance r) rs ->
  finite_rows (map (fun r => if Req_EM_T (sqrt (variance r)) 0 then None
       else Some (map (fun x => x * (1 / sqrt (variance r))) match r with [] => [] | _ :: xs => mean r :: xs end)) rs) =
  Some (map (fun r => map (fun x => x * (1 / sqrt (variance r))) match r with [] => [] | _ :: xs => mean r :: xs end) rs).
Proof.
  induction rs as [|r rs IH]; intros F; [reflexivity|]. inversion F; subst. cbn [map finite_rows].
  destruct (Req_EM_T (sqrt (variance r)) 0) as [E|_].
  - exfalso. assert (0 < sqrt (variance r)) by (apply sqrt_lt_R0; assumption). lra.
  - rewrite IH by assumption. reflexivity.
Qed.

Lemma clean_finite : forall N b m, is_beam N b -> (0 < N)%nat -> sub_avg6d b = b ->
  calc_correlations6d b = Ok (recentre_first b, m) -> (forall p q, is_pair p q -> m p q = 0) ->
  Forall (fun r => 0 < variance r) (sub_avg6d (recentre_first b)) ->
  exists rows b', clean_phase_space_6d b = Ok rows /\ finite_rows rows = Some b' /\ is_beam N b' /\
    nth 0 rows None = Some (row b' 0).
Proof.
  intros N b m Hb HN Hs E H Hv.
  destruct (sub_avg_beam N _ (recentre_beam N b Hb) HN) as [Hb3 _].
  rewrite (clean_diag N b m Hb HN Hs E H).
  rewrite normalize_rows by exact (is_beam_nonempty N _ Hb3 HN).
  do 2 eexists. split; [reflexivity|]. split; [apply finite_ok; exact Hv|]. split.
  - destruct Hb3 as [L F]. split; [rewrite map_length; exact L|]. apply Forall_map.
    eapply Forall_impl; [|exact F]. intros r Hr. cbv beta. rewrite map_length.
    destruct r; cbn [List.length] in *; exact Hr.
  - destruct Hb3 as [L F]. destruct (sub_avg6d (recentre_first b)) as [|r rs]; [discriminate|].
    inversion Hv; subst. cbn [map nth row].
    destruct (Req_EM_T (sqrt (variance r)) 0) as [E0|_]; [|reflexivity].
    exfalso. assert (0 < sqrt (variance r)) by (apply sqrt_lt_R0; assumption). lra.
Qed.

Lemma new_from_table : forall N b p q mass rows b', is_beam N b -> (0 < N)%nat ->
  (forall r x, In r b -> In x r -> x ^ 2 <= 1) ->
  clean_phase_space_6d b = Ok rows -> finite_rows rows = Some b' -> is_beam N b' ->
  exists o, new_ptcl_beam N (drawn_from b) (Z.of_nat N) p q mass "gaussian" 3 0 1 1 0 1 1 0 1 1 = Some (Ok (Some o)) /\
    draw N (drawn_from b) N "gaussian" 3 = Some b /\ pb_array o = b'.
Proof.
  intros N b p q mass rows b' Hb HN Hx Hc Hf Hb'.
  destruct (round_dist N b' Hb') as (t & T & E). unfold new_ptcl_beam. rewrite T.
  assert (A : distrib_args (Z.of_nat N) "gaussian" 3 = Ok tt).
  { apply C74_arguments. split; [lia|]. split; [right; reflexivity|lra]. }
  rewrite A, Nat2Z.id, (draw_table N b Hb Hx), Hc. cbn [rbind]. rewrite Hf, E. cbn [rbind].
  eexists. split; [reflexivity|]. split; reflexivity.
Qed.

(** In general a beam does not have the moments it was asked to have: here seven particles. *)
Theorem C110_as_asked_refuted : exists rnd o,
  new_ptcl_beam 7 rnd 7 1 1 1 "gaussian" 3 0 1 1 0 1 1 0 1 1 = Some (Ok (Some o)) /\
  is_beam 7 (pb_array o) /\
  mean (row (pb_array o) 0) <> 0 /\ ~ matched 0 1 1 (row (pb_array o) 0) (row (pb_array o) 1).
Proof.
  destruct star_corr as (m & E & H).
  assert (Hrow : forall i, (i < 6)%nat -> row (recentre_first star_beam) i = 0 :: map (fun k => if Nat.eqb k i then -1 else 0) (seq 0 6)).
  { intros i Hi. rewrite (recentre_row 7) by (try exact star_beam_ok; exact Hi).
    rewrite star_row, star_mean by exact Hi. reflexivity. }
  pose proof (recentre_beam 7 _ star_beam_ok) as Hrb.
  assert (Hv : Forall (fun r => 0 < variance r) (sub_avg6d (recentre_first star_beam))).
  { rewrite sub_avg_spec by exact (is_beam_nonempty 7 _ Hrb ltac:(lia)). apply Forall_map. apply Forall_forall.
    intros r Hr. destruct (In_nth _ r [] Hr) as (i & Hi & <-). fold (row (recentre_first star_beam) i).
    assert (Hi6 : (i < 6)%nat) by (destruct Hrb; lia). rewrite Hrow by exact Hi6.
    set (l := 0 :: map (fun k => if Nat.eqb k i then -1 else 0) (seq 0 6)).
    assert (M : mean l = -1/7) by (unfold l; six i Hi6; cbn [seq map Nat.eqb]; row_calc).
    assert (V : variance (map (fun x => x - mean l) l) = 6/49); [|rewrite V; lra].
    rewrite M. unfold l. six i Hi6; cbn [seq map Nat.eqb]; row_calc. }
  destruct (clean_finite 7 star_beam m star_beam_ok ltac:(lia) star_sub E H Hv) as (rows & b' & Hc & Hf & Hb' & H0).
  destruct (new_from_table 7 star_beam 1 1 1 rows b' star_beam_ok ltac:(lia)) as (o & N1 & _ & A); try assumption; try reflexivity.
  { intros r x Hr Hx. apply in_map_iff in Hr. destruct Hr as (i & <- & _). destruct Hx as [<-|Hx]; [lra|].
    apply in_map_iff in Hx. destruct Hx as (k & <- & _). destruct (Nat.eqb k i); lra. }
  exists (drawn_from star_beam), o. split; [exact N1|]. rewrite A. split; [exact Hb'|].
  destruct (C72_cleaned_partial 7 star_beam rows 0 _ star_beam_ok ltac:(lia) Hc ltac:(lia) H0) as (_ & _ & Hiff).
  assert (Hm : mean (row b' 0) <> 0).
  { destruct (clean_row 7 star_beam rows 0 _ star_beam_ok ltac:(lia) Hc ltac:(lia) H0)
      as (new & RM & Hb & _ & Hp & Hm & _). rewrite star_sub in RM.
    destruct (rm_diag 7 star_beam m star_beam_ok ltac:(lia) E H) as (new' & RM' & Hn & Hcell).
    rewrite RM in RM'. assert (new' = new) by congruence. subst new'.
    rewrite (beam_ext 7 new _ Hn Hrb Hcell) in Hm, Hp.
    assert (Hh : hd 0 (row (sub_avg6d (recentre_first star_beam)) 0) = 1/7).
    { rewrite sub_avg_spec by exact (is_beam_nonempty 7 _ Hrb ltac:(lia)).
      assert (R0 : row (map (fun r => map (fun x => x - mean r) r) (recentre_first star_beam)) 0 =
        map (fun x => x - mean (row (recentre_first star_beam) 0)) (row (recentre_first star_beam) 0))
        by exact (map_nth (fun r => map (fun x => x - mean r) r) (recentre_first star_beam) [] 0).
      rewrite R0, Hrow by lia. cbn [map hd seq Nat.eqb]. row_calc. }
    rewrite Hh in Hm. rewrite Hm. set (s := sqrt _). assert (Hs : 0 < s) by (apply sqrt_lt_R0; exact Hp).
    assert (H7 : 0 < / INR 7) by (apply Rinv_0_lt_compat; apply lt_0_INR; lia).
    pose proof (Rinv_0_lt_compat s Hs) as Hi. unfold Rdiv.
    assert (0 < / INR 7 * / s) by (apply Rmult_lt_0_compat; assumption). nra. }
  split; [exact Hm|]. intros (M & _ & _). rewrite <- variance_covariance in M. apply Hm. apply Hiff. lra.
Qed.
Print Assumptions C110_as_asked_refuted.

(** Thirteen particles: one on the centroid and a pair on each axis. *)
Definition cross (i : nat) : list R :=
  0 :: map (fun k => if Nat.eqb k i then 1 else if Nat.eqb k (i + 6) then -1 else 0) (seq 0 12).
Definition cross_beam : beam := map cross (seq 0 6).
Lemma cross_beam_ok : is_beam 13 cross_beam.
Proof. split; [reflexivity|repeat constructor]. Qed.
Lemma cross_row : forall i, (i < 6)%nat -> row cross_beam i = cross i.
Proof. intros i Hi. six i Hi; reflexivity. Qed.
Lemma cross_mean : forall i, (i < 6)%nat -> mean (cross i) = 0.
Proof. intros i Hi. unfold cross. six i Hi; cbn [seq map Nat.eqb Nat.add]; row_calc. Qed.
Lemma cross_quiet : first_on_centroid cross_beam.
Proof.
  intros r Hr. apply in_map_iff in Hr. destruct Hr as (i & <- & Hi). apply in_seq in Hi.
  pose proof (cross_mean i ltac:(lia)) as M. unfold cross in *. rewrite M. reflexivity.
Qed.
Lemma cross_variance : forall i, (i < 6)%nat -> variance (cross i) = 2 / 13.
Proof.
  intros i Hi. unfold variance. rewrite cross_mean by exact Hi. unfold cross.
  six i Hi; cbn [seq map Nat.eqb Nat.add List.length total fold_right INR]; field.
Qed.
Lemma cross_covariance : forall i j, (i < 6)%nat -> (j < 6)%nat -> i <> j -> covariance (cross i) (cross j) = 0.
Proof.
  intros i j Hi Hj Hij. unfold covariance. rewrite !cross_mean by assumption.
  six i Hi; six j Hj; try (exfalso; lia); unfold cross;
    cbn [seq map Nat.eqb Nat.add combine fst snd List.length total fold_right INR]; field.
Qed.

Example C110_applies : exists o,
  new_ptcl_beam 13 (drawn_from cross_beam) 13 1 1 1 "gaussian" 3 0 1 1 0 1 1 0 1 1 = Some (Ok (Some o)) /\
  draw 13 (drawn_from cross_beam) (Z.to_nat 13) "gaussian" 3 = Some cross_beam /\
  first_on_centroid cross_beam /\ ~ round_tilted 0 1.
Proof.
  assert (Hs : sub_avg6d cross_beam = cross_beam).
  { rewrite sub_avg_spec by exact (is_beam_nonempty 13 _ cross_beam_ok ltac:(lia)).
    unfold cross_beam. rewrite map_map. apply map_ext_in. intros i Hi. apply in_seq in Hi.
    rewrite cross_mean by lia. rewrite <- (map_id (cross i)) at 2. apply map_ext. intros. ring. }
  destruct (correlations_spec 13 cross_beam cross_beam_ok ltac:(lia)) as (m & E & _ & Ho).
  assert (H : forall p q, is_pair p q -> m p q = 0).
  { intros p q [Hp Hq]. rewrite Ho by lia. rewrite !cross_row, cross_covariance, !cross_mean by lia.
    cbn [cross hd]. unfold Rdiv. ring. }
  assert (Hv : Forall (fun r => 0 < variance r) (sub_avg6d (recentre_first cross_beam))).
  { rewrite recentre_quiet by exact cross_quiet. rewrite Hs. apply Forall_map. apply Forall_forall.
    intros i Hi. apply in_seq in Hi. rewrite cross_variance by lia. lra. }
  destruct (clean_finite 13 cross_beam m cross_beam_ok ltac:(lia) Hs E H Hv) as (rows & b' & Hc & Hf & Hb' & _).
  destruct (new_from_table 13 cross_beam 1 1 1 rows b' cross_beam_ok ltac:(lia)) as (o & N1 & D & _); try assumption; try reflexivity.
  { intros r x Hr Hx. apply in_map_iff in Hr. destruct Hr as (i & <- & _). destruct Hx as [<-|Hx]; [lra|].
    apply in_map_iff in Hx. destruct Hx as (k & <- & _). destruct (Nat.eqb k i); [lra|]. destruct (Nat.eqb k (i + 6)); lra. }
  exists o. split; [exact N1|]. split; [exact D|]. split; [exact cross_quiet|]. intros [Hn _]. lra.
Qed.

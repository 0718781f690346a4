(** Theorems about the bunch classes (properties C20-C25 and C79-C82). *)
From Coq Require Import List Reals Lra Lia Psatz Bool Arith String.
From Verif Require Import PyBase Bunch_Model Stats_Model Stats_Spec Stats_Proofs Twiss_Spec Bunch_Spec Bunch_Proofs.
Import ListNotations.
Open Scope R_scope.

(** A bunch to try things on. *)
Definition demo (k : kind) (n : nat) (dist : string) (bx ax by_ ay : R) (q : bool) : bunch :=
  {| b_kind := k; b_npart := n; b_dist := dist; b_emitx := 1; b_emity := 1; b_emit := 2;
     b_tw := {| u_betax := bx; u_alphax := ax; u_betay := by_; u_alphay := ay;
                u_gammax := (1 + ax ^ 2) / bx; u_gammay := (1 + ay ^ 2) / by_ |};
     b_stdz := 1; b_dpop := 0; b_quiet := q; b_trans := repeat zero4 n; b_long := repeat (0, 0) n; b_ids := seq 0 n;
     b_t := 0; b_c := 1; b_cutoff := 4 |}.

Lemma new_demo : forall n dist bx ax by_ ay q, 0 < bx -> 0 < by_ ->
  new_bunch Standard n dist 1 1 bx ax by_ ay 1 0 q 0 1 4 = Ok (demo Standard n dist bx ax by_ ay q).
Proof.
  intros. unfold new_bunch. rewrite !pdiv_ok by lra. cbn [rbind]. unfold demo. replace (1 + 1) with 2 by ring. reflexivity.
Qed.

(** ** C20: the Twiss values stay consistent under any history of assignments *)
Lemma new_tw : forall k n d ex ey bx ax by_ ay sz dp q t c cu b,
  new_bunch k n d ex ey bx ax by_ ay sz dp q t c cu = Ok b -> 0 < bx -> 0 < by_ ->
  b_kind b = k /\ pos_tw (b_tw b) /\ cons_x (b_tw b) /\ cons_y (b_tw b) /\
  u_betax (b_tw b) = bx /\ u_alphax (b_tw b) = ax /\ u_betay (b_tw b) = by_ /\ u_alphay (b_tw b) = ay.
Proof.
  intros k n d ex ey bx ax by_ ay sz dp q t c cu b H Hx Hy. unfold new_bunch in H. rewrite !pdiv_ok in H by lra. cbn [rbind] in H.
  injection H as <-. cbn. unfold pos_tw, cons_x, cons_y. cbn. repeat split; try assumption; apply div_cancel; assumption.
Qed.

Theorem C20_consistent_partial : forall k n d ex ey bx ax by_ ay sz dp q t c cu b l,
  new_bunch k n d ex ey bx ax by_ ay sz dp q t c cu = Ok b -> 0 < bx -> 0 < by_ ->
  Forall positive_beta l ->
  exists b', history b l = (b', Ok tt) /\
  consistent_x b' /\
  (k = Standard \/ Forall not_betax l -> consistent_y b') /\
  (k = Standard -> get_betax b' = last_given of_betax bx l /\ shows b' "betay" (last_given of_betay by_ l)) /\
  (k = Nonlinear -> get_betax b' = last_given of_beta bx l /\ get_betay b' = last_given of_beta bx l) /\
  get_alphax b' = last_given of_alphax ax l /\
  get_alphay b' = last_given of_alphay ay l.
Proof.
  intros k n d ex ey bx ax by_ ay sz dp q t c cu b l HN Hx Hy Hl.
  destruct (new_tw _ _ _ _ _ _ _ _ _ _ _ _ _ _ _ _ HN Hx Hy) as (EK & HP & HCx & HCy & E1 & E2 & E3 & E4).
  eexists. rewrite history_fold by assumption. split; [reflexivity|]. rewrite EK.
  split; [apply consistent_x_iff; apply fold_cons_x; assumption|].
  split. { intros [Hk|Hnb]; apply consistent_y_iff; cbn [b_tw with_tw].
    - rewrite Hk. apply fold_cons_y_std; assumption.
    - destruct k; [apply fold_cons_y_std; assumption|apply fold_cons_y_nl; assumption]. }
  split. { intros ->. split.
    - unfold get_betax. cbn [b_tw with_tw]. rewrite fold_betax_std, E1. reflexivity.
    - unfold shows. cbn [print_Twiss printed b_tw with_tw String.eqb Ascii.eqb Bool.eqb]. rewrite fold_betay_std, E3. reflexivity. }
  split. { intros ->. unfold get_betay, get_betax. cbn [b_tw with_tw]. rewrite fold_betax_nl, E1. split; reflexivity. }
  unfold get_alphax, get_alphay. cbn [b_tw with_tw]. destruct (fold_reads l k (b_tw b)) as [F1 F2]. rewrite F1, F2, E2, E4. split; reflexivity.
Qed.
Print Assumptions C20_consistent_partial.
Example C20_applies : new_bunch Standard 4 "KV" 1 1 2 1 3 0 1 0 false 0 1 4 = Ok (demo Standard 4 "KV" 2 1 3 0 false) /\
  Forall positive_beta [Betay 5; Alphax (-1); Betax 7] /\ last_given of_betax 2 [Betay 5; Alphax (-1); Betax 7] = 7.
Proof. split; [apply new_demo; lra|]. split; [repeat constructor; cbn; lra|reflexivity]. Qed.

(** The derived class computes gamma_y from alpha_x when betax is assigned. *)
Theorem C20_nonlinear_gamma_refuted : exists b b',
  new_nonlinear 1 "KV" 1 1 1 0 1 1 1 0 false 0 1 4 = Ok b /\ history b [Betax 1] = (b', Ok tt) /\ ~ consistent_y b'.
Proof.
  unfold new_nonlinear, new_bunch. rewrite !pdiv_ok by lra. cbn [rbind]. eexists. eexists. split; [reflexivity|].
  rewrite history_fold; [split; [reflexivity|]|split; cbn; lra|repeat constructor; cbn; lra].
  intros HC. apply consistent_y_inv in HC. unfold cons_y in HC. cbn in HC. lra.
Qed.
Print Assumptions C20_nonlinear_gamma_refuted.

(** Reading betay gives betax. *)
Theorem C20_betay_read_refuted : exists b b',
  new_standard 1 "KV" 1 1 1 0 1 0 1 0 false = Ok b /\ history b [Betay 4] = (b', Ok tt) /\ get_betay b' <> 4.
Proof.
  unfold new_standard, new_bunch. rewrite !pdiv_ok by lra. cbn [rbind]. eexists. eexists. split; [reflexivity|].
  rewrite history_fold; [split; [reflexivity|]|split; cbn; lra|repeat constructor; cbn; lra].
  unfold get_betay. cbn. lra.
Qed.
Print Assumptions C20_betay_read_refuted.

(** ** C21: a setter that raises changes nothing *)
Definition nonzero_beta (s : setting) : Prop :=
  match s with Betax v => v <> 0 | Betay v => v <> 0 | _ => True end.
Lemma betas_nonzero : forall b, (exists vx vy, shows b "betax" vx /\ shows b "betay" vy /\ vx <> 0 /\ vy <> 0) ->
  u_betax (b_tw b) <> 0 /\ u_betay (b_tw b) <> 0.
Proof. intros b (vx & vy & H1 & H2 & H3 & H4). unfold shows in H1, H2. cbn in H1, H2. injection H1 as <-. injection H2 as <-. split; assumption. Qed.

Theorem C21_rejected_partial : forall b s e,
  (exists vx vy, shows b "betax" vx /\ shows b "betay" vy /\ vx <> 0 /\ vy <> 0) ->
  nonzero_beta s -> snd (assign b s) = Err e ->
  fst (assign b s) = b.
Proof.
  intros [k n d ex ey em [bx ax by_ ay gx gy] sz dp q tr lo ids t c cu] s e HB Hs H.
  apply betas_nonzero in HB as [Hx Hy]. cbn in Hx, Hy.
  destruct s as [v|v|v|v]; cbn in Hs; unfold assign, set_betax, set_betay, set_alphax, set_alphay in *.
  - destruct (Rlt_dec v 0); [reflexivity|]. exfalso. destruct k; unfold assign_gx, assign_gy_from_x in H; cbn in H;
      rewrite pdiv_ok in H by assumption; cbn in H; try (rewrite pdiv_ok in H by assumption); discriminate.
  - destruct (Rlt_dec v 0); [reflexivity|]. exfalso. destruct k; unfold assign_gx, assign_gy in H; cbn in H;
      rewrite pdiv_ok in H by assumption; cbn in H; try (rewrite pdiv_ok in H by assumption); discriminate.
  - exfalso. unfold assign_gx in H; cbn in H. rewrite pdiv_ok in H by assumption. discriminate.
  - exfalso. unfold assign_gy in H; cbn in H. rewrite pdiv_ok in H by assumption. discriminate.
Qed.
Print Assumptions C21_rejected_partial.
Theorem C21_insert_settings : forall b v e,
  (snd (set_c b v) = Err e -> fst (set_c b v) = b) /\ (snd (set_t b v) = Err e -> fst (set_t b v) = b) /\
  fst (set_cutoff b v) = b.
Proof.
  intros b v e. unfold set_c, set_t, set_cutoff. destruct (Rlt_dec v 0); cbn; repeat split; intros; congruence.
Qed.
Print Assumptions C21_insert_settings.
Example C21_applies : nonzero_beta (Betax (-1)) /\ snd (assign (demo Standard 1 "KV" 1 0 1 0 false) (Betax (-1))) = Err ValueError /\
  snd (set_c (demo Nonlinear 1 "KV" 1 0 1 0 false) (-1)) = Err ValueError.
Proof.
  split; [cbn; lra|]. split; [unfold assign, set_betax|unfold set_c]; (destruct (Rlt_dec (-1) 0); [reflexivity|lra]).
Qed.

(** A beta of zero is refused after it has been stored. *)
Theorem C21_zero_beta_refuted : exists b e,
  new_standard 1 "KV" 1 1 1 0 1 0 1 0 false = Ok b /\ snd (assign b (Betax 0)) = Err e /\
  get_betax (fst (assign b (Betax 0))) <> get_betax b.
Proof.
  unfold new_standard, new_bunch. rewrite !pdiv_ok by lra. cbn [rbind]. eexists. exists ZeroDivisionError. split; [reflexivity|].
  unfold assign, set_betax. destruct (Rlt_dec 0 0); [lra|]. cbn [b_kind with_tw]. unfold assign_gx. cbn [b_tw with_tw set_bx u_betax].
  rewrite pdiv_zero. cbn. split; [reflexivity|]. lra.
Qed.
Print Assumptions C21_zero_beta_refuted.

(** ** C22: a quiet start has zero centroid *)
Theorem C22_quiet_partial : forall newton rnd f b b' v, quiet_routine newton rnd f ->
  b_quiet b = true -> shows b "betax" v -> 0 < v ->
  f b = (b', Ok tt) ->
  zero_centroid (b_trans b') /\ List.length (b_trans b') = b_npart b /\ b_ids b' = b_ids b /\ b_long b' = b_long b /\
  exists m, b_npart b = (4 * m)%nat.
Proof.
  intros newton rnd f b b' v HF Hq Hs Hv H. unfold shows in Hs. cbn in Hs. injection Hs as <-.
  destruct (routine_ok _ _ _ _ _ HF H) as (l & e & -> & HL & G). cbn [b_trans with_trans b_ids b_long with_emit with_emits].
  split; [eapply grouped_zero; eassumption|]. split; [exact HL|]. split; [reflexivity|]. split; [reflexivity|].
  destruct (grouped_multiple _ _ _ Hq G) as [m Hm]. exists m. lia.
Qed.
Print Assumptions C22_quiet_partial.

Definition half (_ : nat) : R := 1/2.
Definition root8 (_ : R -> res fl) (_ : fl) : res R := Ok (sqrt 8).

Lemma demo_kv_run : forall n q, n = 1%nat \/ n = 4%nat -> (q = true -> n = 4%nat) -> (n = 4%nat -> q = true) ->
  exists l, distribute_KV root8 half 3 (demo Standard n "KV" 1 0 1 0 q) = (with_trans (with_emit (demo Standard n "KV" 1 0 1 0 q) 4) l, Ok tt).
Proof.
  intros n q Hn Hq Hq'. unfold distribute_KV. destruct (Req_EM_T _ _) as [E|E]; [|exfalso; apply E; reflexivity].
  cbn [b_kind demo root8]. unfold root8.
  set (b := with_emit _ _).
  assert (K : forall fuel, exists p, kv_loop half (S (S fuel)) b (sqrt 8) (sqrt 8) 0 0 [] = Ok (appended b p)).
  { intros fuel. cbn [kv_loop]. replace (0 <? b_npart b)%nat with true by (symmetry; apply Nat.ltb_lt; cbn; lia).
    unfold compute_potential. cbn [b_kind b with_emit with_emits demo rbind].
    match goal with |- context [Rlt_dec ?v ?e] => destruct (Rlt_dec v e) as [Hv|Hv] end.
    2:{ exfalso. apply Hv. unfold half. cbn. lra. }
    replace (0 + (if b_quiet _ then 4 else 1) <? b_npart b)%nat with false.
    2:{ symmetry. apply Nat.ltb_ge. cbn. destruct q; [rewrite Hq by reflexivity; lia|]. destruct Hn; [lia|]. specialize (Hq' H). discriminate. }
    eexists. reflexivity. }
  change (match b_kind b with Standard => sqrt 8 | Nonlinear => b_c b end) with (sqrt 8).
  destruct (K 1%nat) as [p ->]. exists (appended b p). unfold store. rewrite appended_length.
  replace (group_len b) with (b_npart b).
  2:{ cbn. destruct q; [rewrite Hq by reflexivity; reflexivity|]. destruct Hn; [assumption|]. specialize (Hq' H). discriminate. }
  rewrite Nat.eqb_refl. replace (Nat.eqb (b_npart b) 0) with false by (symmetry; apply Nat.eqb_neq; cbn; lia). cbn [andb negb].
  unfold b. cbn [b_emitx demo]. rewrite Rmult_1_r. reflexivity.
Qed.

Example C22_applies : exists b', quiet_routine root8 half (distribute_KV root8 half 3) /\
  distribute_KV root8 half 3 (demo Standard 4 "KV" 1 0 1 0 true) = (b', Ok tt).
Proof.
  destruct (demo_kv_run 4 true) as [l H]; [right; reflexivity|reflexivity|reflexivity|]. eexists. split; [left; eexists; reflexivity|exact H].
Qed.

(** The linear Gaussian ignores the quiet flag. *)
Theorem C22_gaussian_refuted : exists randn b b', b_quiet b = true /\ (forall k, List.length (randn k) = b_npart b) /\
  distribute_Gaussian_standard randn b = (b', Ok tt) /\ ~ zero_centroid (b_trans b').
Proof.
  exists (fun _ => [1; 1; 1; 1]), (demo Standard 4 "Gaussian" 1 0 1 0 true). eexists. split; [reflexivity|]. split; [reflexivity|].
  split; [reflexivity|]. intros (xs & pxs & ys & pys & (H1 & _) & T & _). cbn in H1.
  rewrite nsqrt_ok in H1 by lra. cbn in H1. rewrite Rmult_1_r, sqrt_1 in H1. destruct xs as [|a [|b [|c [|d [|e r]]]]]; cbn in H1; try discriminate.
  injection H1 as <- <- <- <-. cbn in T. lra.
Qed.
Print Assumptions C22_gaussian_refuted.

(** A quiet start cannot be asked for when a NonlinearBunch is made. *)
Theorem C22_constructor_refuted : forall n d ex ey bx ax by_ ay sz dp queit t c cu b,
  new_nonlinear n d ex ey bx ax by_ ay sz dp queit t c cu = Ok b -> b_quiet b = false.
Proof.
  intros until b. unfold new_nonlinear, new_bunch. destruct (pdiv _ bx); cbn [rbind]; try discriminate.
  destruct (pdiv _ by_); cbn [rbind]; try discriminate. injection 1 as <-. reflexivity.
Qed.
Print Assumptions C22_constructor_refuted.

(** ** C23: KV particles lie on one invariant surface *)
Lemma hamiltonian_pot : forall b x px y py v, compute_potential b x y = Ok (Some v) ->
  compute_Hamiltonian b x px y py = Ok (Some (1/2 * (px ^ 2 + py ^ 2) + v)).
Proof.
  intros b x px y py v H. unfold compute_Hamiltonian. destruct (b_kind b) eqn:E.
  - unfold compute_potential in H. rewrite E in H. injection H as <-. reflexivity.
  - rewrite H. reflexivity.
Qed.

Lemma norm_x_scaled : forall be x, 0 < be -> norm_x be (x * sqrt be) = x.
Proof. intros be x H. unfold norm_x. field. apply Rgt_not_eq, sqrt_lt_R0, H. Qed.
Lemma norm_p_scaled : forall be a x p, 0 < be -> norm_p a be (x * sqrt be) ((p - a * x) / sqrt be) = p.
Proof. intros be a x p H. unfold norm_p. field. apply Rgt_not_eq, sqrt_lt_R0, H. Qed.

Lemma energy : forall h v u, v < h ->
  1/2 * ((sqrt (2 * (h - v)) * cos (2 * PI * u)) ^ 2 + (sqrt (2 * (h - v)) * sin (2 * PI * u)) ^ 2) + v = h.
Proof.
  intros h v u H. pose proof (sin2_cos2 (2 * PI * u)) as E. unfold Rsqr in E.
  assert (S2 : sqrt (2 * (h - v)) ^ 2 = 2 * (h - v)) by (apply pow2_sqrt; lra).
  set (s := sqrt (2 * (h - v))) in *. set (co := cos (2 * PI * u)) in *. set (si := sin (2 * PI * u)) in *.
  replace ((s * co) ^ 2 + (s * si) ^ 2) with (s ^ 2 * (si * si + co * co)) by ring. rewrite E, S2. field.
Qed.

(** A point with these normalised coordinates, up to signs. *)
Lemma ham_point : forall b be ax ay x px y py v,
  u_betax (b_tw b) = be -> u_betay (b_tw b) = be -> u_alphax (b_tw b) = ax -> u_alphay (b_tw b) = ay -> 0 < be ->
  compute_potential b x y = Ok (Some v) ->
  hamiltonian_is b {| c_x := Some (x * sqrt be); c_px := Some ((px - ax * x) / sqrt be);
                      c_y := Some (y * sqrt be); c_py := Some ((py - ay * y) / sqrt be) |} (1/2 * (px ^ 2 + py ^ 2) + v).
Proof.
  intros b be ax ay x px y py v E1 E2 E3 E4 Hb HP. eexists _, _, _, _. split; [reflexivity|].
  intros bx0 ax0 by0 ay0 S1 S2 S3 S4. unfold shows in *. cbn in S1, S2, S3, S4.
  injection S1 as <-. injection S2 as <-. injection S3 as <-. injection S4 as <-. rewrite E1, E2, E3, E4.
  rewrite !norm_x_scaled, !norm_p_scaled by assumption. apply hamiltonian_pot. exact HP.
Qed.

Lemma group_hamiltonian : forall b (H : R -> Prop) p, equal_betas b -> upright_if_quiet b -> made_at b H p ->
  exists h, H h /\ Forall (fun q => hamiltonian_is b q h) (appended b p).
Proof.
  intros b H p (be & Hb & S1 & S2) HU (h & x & y & v & u & HH & HP & Hv & ->). exists h. split; [exact HH|].
  unfold shows in S1, S2. cbn in S1, S2. injection S1 as S1. injection S2 as S2.
  rewrite make_particle_ok by lra. rewrite S1. pose proof (energy h v u Hv) as EN. cbv zeta.
  set (m := sqrt (2 * (h - v))) in *. set (co := cos (2 * PI * u)) in *. set (si := sin (2 * PI * u)) in *. clearbody m. rewrite <- EN.
  unfold appended. constructor.
  - apply ham_point; try reflexivity; assumption.
  - destruct (b_quiet b) eqn:Eq; [|constructor]. destruct (HU Eq) as [A1 A2]. unfold shows in A1, A2. cbn in A1, A2.
    injection A1 as A1. injection A2 as A2. rewrite A1, A2. unfold exact_centroids, fneg, fmap1. cbn [c_x c_px c_y c_py].
    assert (Hs : sqrt be <> 0) by (apply Rgt_not_eq, sqrt_lt_R0, Hb).
    assert (P1 : compute_potential b (- x) (- y) = Ok (Some v)) by (rewrite potential_even_x, potential_even_y; exact HP).
    repeat constructor.
    + replace (- (x * sqrt be)) with (- x * sqrt be) by ring. replace (- (y * sqrt be)) with (- y * sqrt be) by ring.
      replace (m * co - 0 * x) with (m * co - 0 * - x) by ring. replace (m * si - 0 * y) with (m * si - 0 * - y) by ring.
      apply ham_point; assumption.
    + replace (- (x * sqrt be)) with (- x * sqrt be) by ring. replace (- (y * sqrt be)) with (- y * sqrt be) by ring.
      replace (- ((m * co - 0 * x) / sqrt be)) with ((- (m * co) - 0 * - x) / sqrt be) by (field; exact Hs).
      replace (- ((m * si - 0 * y) / sqrt be)) with ((- (m * si) - 0 * - y) / sqrt be) by (field; exact Hs).
      replace ((m * co) ^ 2) with ((- (m * co)) ^ 2) by ring. replace ((m * si) ^ 2) with ((- (m * si)) ^ 2) by ring.
      apply ham_point; assumption.
    + replace (- ((m * co - 0 * x) / sqrt be)) with ((- (m * co) - 0 * x) / sqrt be) by (field; exact Hs).
      replace (- ((m * si - 0 * y) / sqrt be)) with ((- (m * si) - 0 * y) / sqrt be) by (field; exact Hs).
      replace ((m * co) ^ 2) with ((- (m * co)) ^ 2) by ring. replace ((m * si) ^ 2) with ((- (m * si)) ^ 2) by ring.
      apply ham_point; assumption.
Qed.

Lemma grouped_hamiltonian : forall b (H : R -> Prop) l, equal_betas b -> upright_if_quiet b -> grouped b (made_at b H) l ->
  Forall (fun q => exists h, H h /\ hamiltonian_is b q h) l.
Proof.
  intros b H l HE HU G. induction G; [constructor|]. apply Forall_app. split; [exact IHG|].
  destruct (group_hamiltonian b H p HE HU H0) as (h & Hh & HF). eapply Forall_impl; [|exact HF]. intros q Hq. exists h. split; assumption.
Qed.

Theorem C23_KV_partial : forall newton rnd fuel b b',
  equal_betas b -> upright_if_quiet b ->
  distribute_KV newton rnd fuel b = (b', Ok tt) ->
  List.length (b_trans b') = b_npart b /\
  Forall (fun p => hamiltonian_is b' p (b_emit b')) (b_trans b') /\
  b_emit b' = match b_kind b with Standard => 4 * b_emitx b | Nonlinear => b_emitx b end.
Proof.
  intros newton rnd fuel b b' HE HU H. apply KV_ok in H as (l & -> & HL & _ & G). cbn [b_trans with_trans b_emit with_emit with_emits].
  split; [exact HL|]. split; [|reflexivity].
  apply (grouped_hamiltonian b _ l HE HU) in G. eapply Forall_impl; [|exact G]. intros p (h & <- & Hh). exact Hh.
Qed.
Print Assumptions C23_KV_partial.

(** For the linear bunch the Hamiltonian is half the sum of the Courant-Snyder invariants. *)
Theorem C23_KV_invariants_partial : forall newton rnd fuel b b' bx ax by_ ay x px y py,
  b_kind b = Standard -> equal_betas b -> upright_if_quiet b ->
  distribute_KV newton rnd fuel b = (b', Ok tt) ->
  shows b "betax" bx -> shows b "alphax" ax -> shows b "betay" by_ -> shows b "alphay" ay ->
  In {| c_x := Some x; c_px := Some px; c_y := Some y; c_py := Some py |} (b_trans b') ->
  courant_snyder ax bx x px + courant_snyder ay by_ y py = 2 * (4 * b_emitx b).
Proof.
  intros newton rnd fuel b b' bx ax by_ ay x px y py HK HE HU H S1 S2 S3 S4 HI.
  destruct (C23_KV_partial _ _ _ _ _ HE HU H) as (_ & HF & HEm). rewrite HK in HEm.
  rewrite Forall_forall in HF. destruct (HF _ HI) as (x1 & px1 & y1 & py1 & EP & Hh). injection EP as <- <- <- <-.
  apply KV_ok in H as (l & -> & _ & _ & _).
  specialize (Hh bx ax by_ ay S1 S2 S3 S4). unfold compute_Hamiltonian in Hh. cbn [b_kind with_trans with_emit with_emits] in Hh. rewrite HK in Hh.
  injection Hh as Hh. cbn [b_emit with_trans with_emit with_emits] in Hh. rewrite <- Hh. clear HEm HF Hh.
  destruct HE as (be & Hb & T1 & T2). unfold shows in *. rewrite T1 in S1. rewrite T2 in S3. injection S1 as <-. injection S3 as <-.
  unfold courant_snyder, norm_x, norm_p. assert (Hs : sqrt be ^ 2 = be) by (apply pow2_sqrt; lra).
  assert (Hs0 : 0 < sqrt be) by (apply sqrt_lt_R0; exact Hb). set (s := sqrt be) in *. clearbody s. subst be. field. lra.
Qed.
Print Assumptions C23_KV_invariants_partial.
Example C23_applies : exists b', equal_betas (demo Standard 4 "KV" 1 0 1 0 true) /\ upright_if_quiet (demo Standard 4 "KV" 1 0 1 0 true) /\
  distribute_KV root8 half 3 (demo Standard 4 "KV" 1 0 1 0 true) = (b', Ok tt).
Proof.
  destruct (demo_kv_run 4 true) as [l H]; [right; reflexivity|reflexivity|reflexivity|]. eexists.
  split; [exists 1; repeat split; lra|]. split; [intros _; split; reflexivity|exact H].
Qed.

(** Different beta functions: the y plane is scaled with betax. *)
Definition quarter (k : nat) : R := if Nat.eqb k 1 then 1/4 else if Nat.eqb k 2 then 0 else 1/2.
Lemma sqrt8_half : (2 * (1/2 - 1/4) * sqrt 8) ^ 2 = 2.
Proof. replace (2 * (1/2 - 1/4) * sqrt 8) with (sqrt 8 / 2) by field. unfold Rdiv. rewrite Rpow_mult_distr, pow2_sqrt by lra. field. Qed.

Lemma quarter_run : forall (bx ax by_ ay : R) (q : bool) (n : nat), 0 < bx -> (n = if q then 4%nat else 1%nat) ->
  distribute_KV root8 quarter 3 (demo Standard n "KV" bx ax by_ ay q) =
  (with_trans (with_emit (demo Standard n "KV" bx ax by_ ay q) (4 * 1))
     (appended (demo Standard n "KV" bx ax by_ ay q)
        {| c_x := Some (0 * sqrt bx); c_px := Some (sqrt 6 / sqrt bx);
           c_y := Some (sqrt 8 / 2 * sqrt bx); c_py := Some ((0 - ay * (sqrt 8 / 2)) / sqrt bx) |}), Ok tt).
Proof.
  intros bx ax by_ ay q n Hb Hn. unfold distribute_KV. destruct (Req_EM_T _ _) as [E|E]; [|exfalso; apply E; reflexivity].
  unfold root8. cbn [b_kind demo b_emitx]. set (b := with_emit _ (4 * 1)).
  assert (K : kv_loop quarter 3 b (sqrt 8) (sqrt 8) 0 0 [] = Ok (appended b
     {| c_x := Some (0 * sqrt bx); c_px := Some (sqrt 6 / sqrt bx);
        c_y := Some (sqrt 8 / 2 * sqrt bx); c_py := Some ((0 - ay * (sqrt 8 / 2)) / sqrt bx) |})).
  { cbn [kv_loop]. replace (0 <? b_npart b)%nat with true by (symmetry; apply Nat.ltb_lt; cbn; destruct q; lia).
    unfold compute_potential. cbn [b_kind b with_emit with_emits demo rbind].
    change (quarter (0 + 1)) with (1/4). change (quarter 0) with (1/2). change (quarter (0 + 2)) with 0.
    rewrite sqrt8_half. replace (2 * (1 / 2 - 1 / 2) * sqrt 8) with 0 by ring. replace (2 * (1 / 2 - 1 / 4) * sqrt 8) with (sqrt 8 / 2) by field.
    replace (1 / 2 * (0 ^ 2 + 2)) with 1 by field.
    match goal with |- context [Rlt_dec ?v ?e] => destruct (Rlt_dec v e) as [Hv|Hv] end.
    2:{ exfalso. apply Hv. cbn. lra. }
    replace (0 + (if b_quiet _ then 4 else 1) <? b_npart b)%nat with false.
    2:{ symmetry. apply Nat.ltb_ge. cbn. rewrite Hn. destruct q; lia. }
    cbn [app]. f_equal. f_equal. rewrite make_particle_ok by (cbn; exact Hb). cbn [b_emit b with_emit with_emits b_tw demo u_betax u_alphax u_alphay].
    rewrite Rmult_0_r, cos_0, sin_0. replace (2 * (4 * 1 - 1)) with 6 by ring. rewrite !Rmult_0_r, Rmult_1_r, Rminus_0_r. reflexivity. }
  change (match b_kind b with Standard => sqrt 8 | Nonlinear => b_c b end) with (sqrt 8).
  rewrite K. unfold store. rewrite appended_length.
  replace (Nat.eqb (group_len b) (b_npart b)) with true by (symmetry; apply Nat.eqb_eq; cbn; rewrite Hn; destruct q; reflexivity).
  replace (Nat.eqb (group_len b) 0) with false by (symmetry; apply Nat.eqb_neq; unfold group_len; cbn; destruct q; lia).
  reflexivity.
Qed.

Theorem C23_unequal_betas_refuted : exists rnd b b' p,
  b_quiet b = false /\ shows b "betax" 1 /\ shows b "betay" 4 /\
  distribute_KV root8 rnd 3 b = (b', Ok tt) /\ In p (b_trans b') /\
  ~ hamiltonian_is b' p (b_emit b').
Proof.
  exists quarter, (demo Standard 1 "KV" 1 0 4 0 false). eexists. eexists. split; [reflexivity|]. split; [reflexivity|]. split; [reflexivity|].
  rewrite quarter_run by (lra || reflexivity). split; [reflexivity|]. split; [left; reflexivity|].
  intros (x & px & y & py & EP & Hh). injection EP as <- <- <- <-.
  specialize (Hh 1 0 4 0 eq_refl eq_refl eq_refl eq_refl). unfold compute_Hamiltonian in Hh.
  cbn [b_kind with_trans with_emit with_emits demo b_emit] in Hh. injection Hh as Hh. unfold norm_x, norm_p in Hh.
  rewrite sqrt_1 in Hh. replace (sqrt 4) with 2 in Hh by (replace 4 with (2 ^ 2) by ring; rewrite sqrt_pow2; lra).
  assert (S6 : sqrt 6 ^ 2 = 6) by (apply pow2_sqrt; lra). assert (S8 : sqrt 8 ^ 2 = 8) by (apply pow2_sqrt; lra).
  replace (1 / 2 * ((0 * (0 * 1) / 1 + 1 * (sqrt 6 / 1)) ^ 2 + (0 * (sqrt 8 / 2 * 1) / 2 + 2 * ((0 - 0 * (sqrt 8 / 2)) / 1)) ^ 2) +
   1 / 2 * ((0 * 1 / 1) ^ 2 + (sqrt 8 / 2 * 1 / 2) ^ 2)) with (1/2 * sqrt 6 ^ 2 + sqrt 8 ^ 2 / 32) in Hh by field. lra.
Qed.
Print Assumptions C23_unequal_betas_refuted.

(** A tilted ellipse with a quiet start: the flipped copies leave the surface. *)
Theorem C23_quiet_tilted_refuted : exists rnd b b' p,
  equal_betas b /\ b_quiet b = true /\ shows b "alphay" 1 /\
  distribute_KV root8 rnd 3 b = (b', Ok tt) /\ In p (b_trans b') /\
  ~ hamiltonian_is b' p (b_emit b').
Proof.
  exists quarter, (demo Standard 4 "KV" 1 0 1 1 true). eexists. eexists. split; [exists 1; repeat split; lra|]. split; [reflexivity|]. split; [reflexivity|].
  rewrite quarter_run by (lra || reflexivity). split; [reflexivity|]. split; [right; left; reflexivity|].
  intros (x & px & y & py & EP & Hh). unfold fneg, fmap1 in EP. cbn [c_x c_px c_y c_py] in EP. injection EP as <- <- <- <-.
  specialize (Hh 1 0 1 1 eq_refl eq_refl eq_refl eq_refl). unfold compute_Hamiltonian in Hh.
  cbn [b_kind with_trans with_emit with_emits demo b_emit] in Hh. injection Hh as Hh. unfold norm_x, norm_p in Hh.
  rewrite sqrt_1 in Hh.
  assert (S6 : sqrt 6 ^ 2 = 6) by (apply pow2_sqrt; lra). assert (S8 : sqrt 8 ^ 2 = 8) by (apply pow2_sqrt; lra).
  match type of Hh with ?lhs = _ => replace lhs with (1/2 * (sqrt 6 ^ 2 + sqrt 8 ^ 2) + sqrt 8 ^ 2 / 8) in Hh by field end. lra.
Qed.
Print Assumptions C23_quiet_tilted_refuted.

(** ** C24: the total emittance is left alone by the Gaussian routines *)
Theorem C24_emittance_partial : forall newton rnd inner fuel randn b b',
  (distribute_Gaussian_nonlinear newton rnd inner fuel b = (b', Ok tt) -> b_emit b' = b_emit b) /\
  (forall r, distribute_Gaussian_standard randn b = (b', r) -> b_emit b' = b_emit b).
Proof.
  intros newton rnd inner fuel randn b b'. split.
  - intros H. unfold distribute_Gaussian_nonlinear in H. destruct (gaussian_loop _ _ _ _ _ _ _ _ _ _) as [b1 [l| |]]; try discriminate.
    apply store_ok in H as (-> & _). reflexivity.
  - intros r H. unfold distribute_Gaussian_standard in H. injection H as <- _. reflexivity.
Qed.
Print Assumptions C24_emittance_partial.

Lemma half_draw_H : forall fuel, draw_H half (S (S fuel)) (S (S fuel)) 4 (10 ^ 10) 0 = Ok (-1 * ln (1/2 * (1/2)), 2%nat).
Proof.
  intros fuel. cbn [draw_H draw_two]. destruct (Rlt_dec 4 (10 ^ 10)); [|exfalso; lra].
  unfold half. destruct (Rle_dec (1/2 * (1/2)) 0); [exfalso; lra|]. cbn [rbind].
  destruct (Rlt_dec 4 (-1 * ln (1 / 2 * (1 / 2)))) as [Hc|Hc]; [|reflexivity]. exfalso.
  assert (ln (1/2 * (1/2)) >= -4); [|lra].
  assert (E4 : 4 < exp 4) by (pose proof (exp_ineq1 4 ltac:(lra)); lra).
  replace (1/2 * (1/2)) with (/ 4) by field. rewrite ln_Rinv by lra. assert (ln 4 < 4); [|lra].
  rewrite <- (ln_exp 4) at 2. apply ln_increasing; lra.
Qed.

(** scipy's newton raises RuntimeError when it does not converge; the emittance is then the
    temporary one. *)
Theorem C24_crash_refuted : exists newton rnd b b', b_kind b = Nonlinear /\
  distribute_Gaussian_nonlinear newton rnd 2 1 b = (b', Err RuntimeError) /\ b_emit b' <> b_emit b.
Proof.
  exists (fun _ _ => Err RuntimeError), half, (demo Nonlinear 1 "Gaussian" 1 0 1 0 false). eexists. split; [reflexivity|].
  unfold distribute_Gaussian_nonlinear. cbn [gaussian_loop]. 
  change (b_cutoff (demo Nonlinear 1 "Gaussian" 1 0 1 0 false)) with 4. rewrite half_draw_H. cbn [rbind].
  replace (0 <? b_npart _)%nat with true by reflexivity. split; [reflexivity|]. cbn.
  replace (1/2 * (1/2)) with (/ 4) by field. rewrite ln_Rinv by lra. intros H.
  assert (L : ln 4 = 1) by lra. pose proof (exp_le_3) as E3. pose proof (exp_ln 4 ltac:(lra)) as E4. rewrite L in E4. lra.
Qed.
Print Assumptions C24_crash_refuted.

Definition two_of (_ : R -> res fl) (_ : fl) : res R := Ok 2.
Example C24_applies : exists b', distribute_Gaussian_nonlinear two_of half 3 2 (demo Nonlinear 1 "Gaussian" 1 0 1 0 false) = (b', Ok tt).
Proof.
  unfold distribute_Gaussian_nonlinear. cbn [gaussian_loop]. set (b := demo _ _ _ _ _ _ _ _).
  replace (0 <? b_npart b)%nat with true by reflexivity. change (b_cutoff b) with 4. rewrite half_draw_H. unfold two_of. cbn [rbind].
  set (h := b_emit b * _).
  assert (Hln : 0 < ln 4) by (rewrite <- ln_1; apply ln_increasing; lra).
  assert (Hh : 0 < h). { unfold h. cbn. replace (1/2 * (1/2)) with (/ 4) by field. rewrite ln_Rinv by lra. lra. }
  assert (Hh2 : h <= 10 ^ 10).
  { unfold h. cbn [b_emit b demo]. replace (1/2 * (1/2)) with (/ 4) by field. rewrite ln_Rinv by lra. assert (ln 4 < 4); [|lra].
    rewrite <- (ln_exp 4) at 2. apply ln_increasing; [lra|]. pose proof (exp_ineq1 4 ltac:(lra)); lra. }
  cbn [trial_loop]. destruct (Rle_dec h (10 ^ 10)); [|contradiction].
  unfold compute_potential. cbn [b_kind b with_emit with_emits demo b_t]. destruct (Req_EM_T 0 0) as [_|]; [|contradiction]. cbn [rbind].
  unfold half. match goal with |- context [Rle_dec h ?v] => destruct (Rle_dec h v) as [Hc|Hc] end.
  { exfalso. replace (1 / 2 * ((2 * (1 / 2 - 1 / 2) * b_c (with_emits b (b_emitx b) (b_emity b) h)) ^ 2 + (2 * (1 / 2 - 1 / 2) * 2) ^ 2) + 1 * 0) with 0 in Hc by ring. lra. }
  match goal with |- context [Rlt_dec ?v h] => destruct (Rlt_dec v h) as [Hd|Hd] end.
  2:{ exfalso. apply Rnot_le_lt in Hc. contradiction. }
  match goal with |- context [(?a <? ?c)%nat] => replace (a <? c)%nat with false by reflexivity end.
  unfold store. cbn [app appended b_quiet with_emit with_emits b demo List.length b_npart Nat.eqb andb negb]. eexists. reflexivity.
Qed.

(** ** C25: the nonlinear potential is defined off its two singular points, and even *)
Theorem C25_potential : forall b x y, b_kind b = Nonlinear -> 0 < b_c b ->
  (~ (y = 0 /\ (x = b_c b \/ x = - b_c b)) -> exists v, compute_potential b x y = Ok (Some v)) /\
  (b_t b <> 0 -> y = 0 -> x = b_c b \/ x = - b_c b -> compute_potential b x y = Ok None) /\
  compute_potential b (- x) y = compute_potential b x y /\
  compute_potential b x (- y) = compute_potential b x y.
Proof.
  intros b x y HK Hc.
  assert (D : forall a, a / b_c b = 1 -> a = b_c b). { intros a E. apply Rmult_eq_reg_r with (/ b_c b); [|apply Rinv_neq_0_compat; lra]. rewrite Rinv_r by lra. exact E. }
  assert (D' : forall a, a / b_c b = -1 -> a = - b_c b). { intros a E. apply Rmult_eq_reg_r with (/ b_c b); [|apply Rinv_neq_0_compat; lra]. rewrite Ropp_mult_distr_l_reverse, Rinv_r by lra. exact E. }
  split; [|split; [|split; [apply potential_even_x|apply potential_even_y]]].
  - intros H. destruct (Req_EM_T (b_t b) 0) as [Et|Et].
    + unfold compute_potential. rewrite HK. destruct (Req_EM_T (b_t b) 0); [|contradiction]. eexists. reflexivity.
    + rewrite potential_nl by (assumption || lra). destruct (elliptic_finite (x / b_c b) (y / b_c b)) as [e ->].
      * intros [Ey [Ex|Ex]]; apply H; (split; [|auto]).
        -- apply Rmult_eq_reg_r with (/ b_c b); [|apply Rinv_neq_0_compat; lra]. rewrite Rmult_0_l. exact Ey.
        -- apply Rmult_eq_reg_r with (/ b_c b); [|apply Rinv_neq_0_compat; lra]. rewrite Rmult_0_l. exact Ey.
      * eexists. reflexivity.
  - intros Ht Hy Hx. rewrite potential_nl by (assumption || lra). rewrite elliptic_singular; [reflexivity| |].
    + rewrite Hy. field. lra.
    + destruct Hx as [->| ->]; [left|right]; field; lra.
Qed.
Print Assumptions C25_potential.
Definition demo_t : bunch := with_insert (demo Nonlinear 1 "KV" 1 0 1 0 false) (1/10) (1/100).
Example C25_applies : b_kind demo_t = Nonlinear /\ 0 < b_c demo_t /\ b_t demo_t <> 0 /\ ~ (1 = 0 /\ (1 = b_c demo_t \/ 1 = - b_c demo_t)).
Proof. cbn. repeat split; lra. Qed.

(** ** C79: settings given to set_transverse_coordinates are stored under their own names *)
Definition given (o : option R) (default : R) : R := match o with Some v => v | None => default end.
Definition valid_beta (o : option R) : Prop := match o with Some v => 0 < v | None => True end.

Lemma optional_assign : forall b s v mk, pos_tw (b_tw b) ->
  (forall w, assign b (mk w) = s b w) -> (forall w, v = Some w -> positive_beta (mk w)) ->
  optional s v b = (match v with Some w => with_tw b (step_tw (b_kind b) (b_tw b) (mk w)) | None => b end, Ok tt).
Proof.
  intros b s v mk HP HA HV. destruct v as [w|]; [|reflexivity]. cbn [optional]. rewrite <- HA. apply assign_step; [exact HP|apply HV; reflexivity].
Qed.

Lemma frame_KV : forall newton rnd fuel b b' r, distribute_KV newton rnd fuel b = (b', r) ->
  b_tw b' = b_tw b /\ b_emitx b' = b_emitx b /\ b_emity b' = b_emity b /\ b_ids b' = b_ids b /\ b_long b' = b_long b.
Proof.
  intros newton rnd fuel b b' r H. unfold distribute_KV in H.
  destruct (Req_EM_T _ _); [|injection H as <- _; repeat split].
  destruct (newton _ _); try (injection H as <- _; repeat split).
  destruct (kv_loop _ _ _ _ _ _ _ _); try (injection H as <- _; repeat split).
  apply store_frame in H as [l ->]. repeat split.
Qed.

Theorem C79_stored_partial : forall newton rnd randn fuel ex ey bx ax ay b b' r vx vy,
  shows b "betax" vx -> 0 < vx -> shows b "betay" vy -> 0 < vy -> valid_beta bx -> b_kind b = Standard ->
  set_transverse_standard newton rnd randn fuel ex ey bx ax None ay b = (b', r) ->
  get_betax b' = given bx (get_betax b) /\ get_alphax b' = given ax (get_alphax b) /\
  get_alphay b' = given ay (get_alphay b) /\ shows b' "betay" vy /\
  b_emitx b' = given ex (b_emitx b) /\ b_emity b' = given ey (b_emity b) /\
  b_ids b' = b_ids b /\ b_long b' = b_long b.
Proof.
  intros newton rnd randn fuel ex ey bx ax ay b b' r vx vy S1 H1 S2 H2 HV HK H. unfold shows in S1, S2. cbn in S1, S2.
  injection S1 as S1. injection S2 as S2. unfold set_transverse_standard in H.
  rewrite (optional_assign b set_betax bx Betax) in H; [|split; lra|reflexivity|intros w ->; exact HV]. cbn [then_] in H.
  set (b1 := match bx with Some w => _ | None => b end) in H.
  assert (P1 : pos_tw (b_tw b1) /\ b_kind b1 = Standard /\ u_betax (b_tw b1) = given bx (get_betax b) /\ u_alphax (b_tw b1) = get_alphax b /\
    u_alphay (b_tw b1) = get_alphay b /\ u_betay (b_tw b1) = vy /\ b_emitx b1 = b_emitx b /\ b_emity b1 = b_emity b /\ b_ids b1 = b_ids b /\ b_long b1 = b_long b).
  { unfold b1. destruct bx as [w|]; cbn in HV |- *; rewrite ?HK; unfold pos_tw; cbn; repeat split; try lra; try assumption; reflexivity. }
  clearbody b1. destruct P1 as (PP & K1 & A1 & A2 & A3 & A4 & A5 & A6 & A7 & A8).
  rewrite (optional_assign b1 set_alphax ax Alphax) in H; [|exact PP|reflexivity|intros; exact I]. cbn [then_] in H.
  set (b2 := match ax with Some w => _ | None => b1 end) in H.
  assert (P2 : pos_tw (b_tw b2) /\ b_kind b2 = Standard /\ u_betax (b_tw b2) = given bx (get_betax b) /\ u_alphax (b_tw b2) = given ax (get_alphax b) /\
    u_alphay (b_tw b2) = get_alphay b /\ u_betay (b_tw b2) = vy /\ b_emitx b2 = b_emitx b /\ b_emity b2 = b_emity b /\ b_ids b2 = b_ids b /\ b_long b2 = b_long b).
  { destruct PP as [Q1 Q2]. unfold b2. destruct ax as [w|]; cbn; rewrite ?K1; unfold pos_tw; cbn; repeat split; try assumption. }
  clearbody b2. destruct P2 as (PP2 & K2 & B1 & B2 & B3 & B4 & B5 & B6 & B7 & B8).
  cbn [optional then_] in H.
  rewrite (optional_assign b2 set_alphay ay Alphay) in H; [|exact PP2|reflexivity|intros; exact I]. cbn [then_] in H.
  set (b3 := match ay with Some w => _ | None => b2 end) in H.
  assert (P3 : u_betax (b_tw b3) = given bx (get_betax b) /\ u_alphax (b_tw b3) = given ax (get_alphax b) /\
    u_alphay (b_tw b3) = given ay (get_alphay b) /\ u_betay (b_tw b3) = vy /\ b_emitx b3 = b_emitx b /\ b_emity b3 = b_emity b /\ b_ids b3 = b_ids b /\ b_long b3 = b_long b).
  { unfold b3. destruct ay as [w|]; cbn; rewrite ?K2; cbn; repeat split; assumption. }
  clearbody b3. destruct P3 as (C1 & C2 & C3 & C4 & C5 & C6 & C7 & C8).
  assert (F : forall b4 : bunch, (if String.eqb (b_dist b4) "Gaussian" then distribute_Gaussian_standard randn b4
       else if String.eqb (b_dist b4) "KV" then distribute_KV newton rnd fuel b4 else (b4, Ok tt)) = (b', r) ->
     b_tw b' = b_tw b4 /\ b_emitx b' = b_emitx b4 /\ b_emity b' = b_emity b4 /\ b_ids b' = b_ids b4 /\ b_long b' = b_long b4).
  { intros b4 HF. destruct (String.eqb _ "Gaussian"); [unfold distribute_Gaussian_standard in HF; injection HF as <- _; repeat split|].
    destruct (String.eqb _ "KV"); [exact (frame_KV _ _ _ _ _ _ HF)|]. injection HF as <- _. repeat split. }
  assert (G : b_tw b' = b_tw b3 /\ b_emitx b' = given ex (b_emitx b3) /\ b_emity b' = given ey (b_emity b3) /\ b_ids b' = b_ids b3 /\ b_long b' = b_long b3).
  { destruct ex as [ex|], ey as [ey|]; cbn [optional assign_emitx assign_emity then_] in H; apply F in H; exact H. }
  destruct G as (G1 & G2 & G3 & G4 & G5). unfold get_betax, get_alphax, get_alphay, shows in *. cbn [print_Twiss printed String.eqb Ascii.eqb Bool.eqb].
  rewrite G1, G2, G3, G4, G5, C1, C2, C3, C4, C5, C6, C7, C8. repeat split; reflexivity.
Qed.
Print Assumptions C79_stored_partial.
Example C79_applies : exists b', set_transverse_standard root8 half (fun _ => [1]) 3 (Some 2) None (Some 3) (Some 1) None None
    (demo Standard 1 "Gaussian" 1 0 1 0 false) = (b', Ok tt) /\ valid_beta (Some 3) /\ get_betax b' = 3 /\ b_emitx b' = 2.
Proof.
  unfold set_transverse_standard. cbn [optional then_]. change (set_betax (demo Standard 1 "Gaussian" 1 0 1 0 false) 3) with (assign (demo Standard 1 "Gaussian" 1 0 1 0 false) (Betax 3)).
  rewrite assign_step by (cbn; unfold pos_tw; cbn; lra). cbn [then_].
  match goal with |- context [set_alphax ?b 1] => change (set_alphax b 1) with (assign b (Alphax 1)); rewrite assign_step by (cbn; unfold pos_tw; cbn; lra) end.
  cbn [then_ optional assign_emitx]. eexists. split; [reflexivity|]. split; [cbn; lra|split; reflexivity].
Qed.

(** The keyword betay is stored in betax. *)
Theorem C79_betay_refuted : exists b b', b_kind b = Standard /\
  set_transverse_standard root8 half (fun _ => [1]) 3 None None None None (Some 4) None b = (b', Ok tt) /\
  shows b "betax" 1 /\ shows b "betay" 1 /\ ~ shows b' "betay" 4 /\ shows b' "betax" 4.
Proof.
  exists (demo Standard 1 "Gaussian" 1 0 1 0 false). unfold set_transverse_standard. cbn [optional then_].
  change (set_betax (demo Standard 1 "Gaussian" 1 0 1 0 false) 4) with (assign (demo Standard 1 "Gaussian" 1 0 1 0 false) (Betax 4)).
  rewrite assign_step by (cbn; unfold pos_tw; cbn; lra). cbn [then_]. eexists. split; [reflexivity|]. split; [reflexivity|].
  split; [reflexivity|]. split; [reflexivity|]. split; [|reflexivity]. unfold shows. cbn. intros H. injection H as H. lra.
Qed.
Print Assumptions C79_betay_refuted.

(** No value of the cutoff can be assigned, and none can be given to the derived class's
    set_transverse_coordinates. *)
Theorem C79_cutoff_refuted : forall newton rnd inner fuel v b,
  snd (set_cutoff b v) = Err NameError /\
  snd (set_transverse_nonlinear newton rnd inner fuel None None None None (Some v) b) = Err NameError.
Proof. intros. split; reflexivity. Qed.
Print Assumptions C79_cutoff_refuted.

(** ** C80: the Hamiltonians of waterbag and truncated Gaussian bunches are bounded *)
Theorem C80_waterbag_partial : forall newton rnd inner fuel b b',
  (forall k, 0 <= rnd k < 1) -> 0 < b_emit b -> b_emit b <= 10 ^ 10 ->
  equal_betas b -> upright_if_quiet b ->
  distribute_waterbag newton rnd inner fuel b = (b', Ok tt) ->
  List.length (b_trans b') = b_npart b /\
  Forall (fun p => exists h, 0 < h < b_emit b /\ hamiltonian_is b' p h) (b_trans b').
Proof.
  intros newton rnd inner fuel b b' HR He He2 HE HU H. unfold distribute_waterbag in H.
  destruct (waterbag_loop _ _ _ _ _ _ _ _ _) as [l| |] eqn:EL; try discriminate.
  apply store_ok in H as (-> & HL & _). cbn [b_trans with_trans]. split; [exact HL|].
  apply (waterbag_loop_grouped _ _ _ _ _ (fun h => 0 < h < b_emit b)) in EL as [G _]; [|  |constructor|reflexivity].
  - apply (grouped_hamiltonian b _ l HE HU) in G. exact G.
  - intros k Hk. assert (0 < sqrt (rnd k)) by (apply sqrt_lt_R0; exact Hk).
    assert (sqrt (rnd k) < 1). { rewrite <- sqrt_1. apply sqrt_lt_1; [lra|lra|apply HR]. }
    split; [split|]; nra.
Qed.
Print Assumptions C80_waterbag_partial.

Theorem C80_gaussian_partial : forall newton rnd inner fuel b b',
  (forall k, 0 <= rnd k < 1) -> 0 < b_emit b -> b_cutoff b < 10 ^ 10 -> b_emit b * b_cutoff b <= 10 ^ 10 ->
  equal_betas b -> upright_if_quiet b ->
  distribute_Gaussian_nonlinear newton rnd inner fuel b = (b', Ok tt) ->
  List.length (b_trans b') = b_npart b /\
  Forall (fun p => exists h, 0 < h <= b_emit b * b_cutoff b /\ hamiltonian_is b' p h) (b_trans b').
Proof.
  intros newton rnd inner fuel b b' HR He Hc He2 HE HU H. unfold distribute_Gaussian_nonlinear in H.
  destruct (gaussian_loop _ _ _ _ _ _ _ _ _ _) as [b1 [l| |]] eqn:EL; try discriminate.
  destruct (gaussian_loop_frame _ _ _ _ _ _ _ _ _ _ _ _ EL) as [e He1]. subst b1.
  apply store_ok in H as (-> & HL & _). cbn [b_trans with_trans]. split; [exact HL|].
  apply (gaussian_loop_grouped _ _ _ _ _ _ (fun h => 0 < h <= b_emit b * b_cutoff b)) in EL as [G _]; [|  |constructor|reflexivity].
  - apply (grouped_hamiltonian b _ l HE HU) in G. exact G.
  - intros th pos' HD. apply draw_H_spec in HD as [H1 [H2|(i & j & H2 & H3)]]; [rewrite H2 in H1; exfalso; lra|].
    assert (0 < fst th).
    { rewrite H3. assert (ln (rnd i * rnd j) < 0); [|lra]. rewrite <- ln_1. apply ln_increasing; [exact H2|].
      pose proof (HR i). pose proof (HR j). nra. }
    split; [split|]; nra.
Qed.
Print Assumptions C80_gaussian_partial.
Example C80_applies : exists b', (forall k, 0 <= half k < 1) /\ equal_betas (demo Nonlinear 1 "Gaussian" 1 0 1 0 false) /\
  distribute_Gaussian_nonlinear two_of half 3 2 (demo Nonlinear 1 "Gaussian" 1 0 1 0 false) = (b', Ok tt) /\
  b_emit (demo Nonlinear 1 "Gaussian" 1 0 1 0 false) * b_cutoff (demo Nonlinear 1 "Gaussian" 1 0 1 0 false) <= 10 ^ 10.
Proof.
  destruct C24_applies as [b' H]. exists b'. split; [intros; unfold half; lra|]. split; [exists 1; repeat split; lra|]. split; [exact H|cbn; lra].
Qed.
Example C80_waterbag_applies : exists b',
  distribute_waterbag two_of half 3 2 (demo Nonlinear 1 "waterbag" 1 0 1 0 false) = (b', Ok tt).
Proof.
  unfold distribute_waterbag. cbn [waterbag_loop draw_positive]. set (b := demo _ _ _ _ _ _ _ _).
  replace (0 <? b_npart b)%nat with true by reflexivity. unfold half at 1. destruct (Rle_dec (1/2) 0); [exfalso; lra|].
  unfold two_of. cbn [rbind]. set (h := b_emit b * sqrt (half 0)).
  assert (0 < sqrt (half 0)) by (apply sqrt_lt_R0; unfold half; lra).
  assert (sqrt (half 0) < 1). { rewrite <- sqrt_1. apply sqrt_lt_1; unfold half; lra. }
  assert (Hh : 0 < h) by (unfold h; cbn; lra). assert (Hh2 : h <= 10 ^ 10) by (unfold h; cbn [b_emit b demo]; lra).
  cbn [trial_loop]. destruct (Rle_dec h (10 ^ 10)); [|contradiction].
  unfold compute_potential. cbn [b_kind b demo b_t]. destruct (Req_EM_T 0 0) as [_|]; [|contradiction]. cbn [rbind].
  match goal with |- context [Rle_dec h ?v] => destruct (Rle_dec h v) as [Hc|Hc] end.
  { exfalso. unfold half in Hc. replace (1 / 2 * ((2 * (1 / 2 - 1 / 2) * b_c b) ^ 2 + (2 * (1 / 2 - 1 / 2) * 2) ^ 2) + 1 * 0) with 0 in Hc by ring. lra. }
  cbn [rbind]. match goal with |- context [Rlt_dec ?v h] => destruct (Rlt_dec v h) as [Hd|Hd] end.
  2:{ exfalso. apply Rnot_le_lt in Hc. contradiction. }
  match goal with |- context [(?a <? ?c)%nat] => replace (a <? c)%nat with false by reflexivity end.
  unfold store. cbn [app appended b_quiet b demo List.length b_npart Nat.eqb andb negb]. eexists. reflexivity.
Qed.

(** Different beta functions: a particle with more than twice the Hamiltonian allowed. *)
Definition upward (k : nat) : R := if Nat.eqb k 3 then 1/4 else 1/2.
(** The distribution asked for by its name is the one made: the bounds above hold for the bunches
    of set_transverse_coordinates; another name makes nothing. *)
Theorem C80_named_partial : forall newton rnd randn inner fuel b b',
  (forall k, 0 <= rnd k < 1) -> 0 < b_emit b -> b_emit b <= 10 ^ 10 -> b_cutoff b < 10 ^ 10 -> b_emit b * b_cutoff b <= 10 ^ 10 ->
  equal_betas b -> upright_if_quiet b ->
  (set_transverse_nonlinear newton rnd inner fuel None None None None None b = (b', Ok tt) ->
   (b_dist b = "KV"%string -> Forall (fun p => hamiltonian_is b' p (b_emit b')) (b_trans b')) /\
   (b_dist b = "waterbag"%string -> Forall (fun p => exists h, 0 < h < b_emit b /\ hamiltonian_is b' p h) (b_trans b')) /\
   (b_dist b = "Gaussian"%string -> Forall (fun p => exists h, 0 < h <= b_emit b * b_cutoff b /\ hamiltonian_is b' p h) (b_trans b')) /\
   (b_dist b <> "KV"%string -> b_dist b <> "waterbag"%string -> b_dist b <> "Gaussian"%string -> b' = b)) /\
  (set_transverse_standard newton rnd randn fuel None None None None None None b = (b', Ok tt) ->
   (b_dist b = "KV"%string -> Forall (fun p => hamiltonian_is b' p (b_emit b')) (b_trans b')) /\
   (b_dist b <> "KV"%string -> b_dist b <> "Gaussian"%string -> b' = b)).
Proof.
  intros newton rnd randn inner fuel b b' HR He He2 Hc Hc2 HE HU. split; intros H.
  - unfold set_transverse_nonlinear in H. cbn [optional then_] in H. repeat split; intros D; try rewrite D in H; try (cbn [String.eqb Ascii.eqb Bool.eqb] in H).
    + exact (proj1 (proj2 (C23_KV_partial newton rnd fuel b b' HE HU H))).
    + exact (proj2 (C80_waterbag_partial newton rnd inner fuel b b' HR He He2 HE HU H)).
    + exact (proj2 (C80_gaussian_partial newton rnd inner fuel b b' HR He Hc Hc2 HE HU H)).
    + intros D2 D3. apply String.eqb_neq in D, D2, D3. rewrite D, D2, D3 in H. congruence.
  - unfold set_transverse_standard in H. cbn [optional then_] in H. split; intros D; try rewrite D in H; try (cbn [String.eqb Ascii.eqb Bool.eqb] in H).
    + exact (proj1 (proj2 (C23_KV_partial newton rnd fuel b b' HE HU H))).
    + intros D2. apply String.eqb_neq in D, D2. rewrite D, D2 in H. congruence.
Qed.
Print Assumptions C80_named_partial.

Theorem C80_unequal_betas_refuted : exists rnd b b' p h, (forall k, 0 <= rnd k < 1) /\
  b_quiet b = false /\ shows b "betax" 1 /\ shows b "betay" 4 /\
  distribute_waterbag two_of rnd 3 2 b = (b', Ok tt) /\ In p (b_trans b') /\
  hamiltonian_is b' p h /\ 2 * b_emit b < h.
Proof.
  exists upward, (demo Nonlinear 1 "waterbag" 1 0 4 0 false).
  set (b := demo _ _ _ _ _ _ _ _). set (hh := b_emit b * sqrt (1/2)).
  assert (S0 : 7/10 < sqrt (1/2)) by (apply Rsqr_incrst_0; [rewrite Rsqr_sqrt by lra; unfold Rsqr; lra|lra|apply sqrt_pos]).
  assert (S1 : sqrt (1/2) < 1) by (apply Rsqr_incrst_0; [rewrite Rsqr_sqrt by lra; unfold Rsqr; lra|apply sqrt_pos|lra]).
  assert (Hh : 0 < hh) by (unfold hh; cbn; lra). assert (Hh2 : hh <= 10 ^ 10) by (unfold hh; cbn [b_emit b demo]; lra).
  assert (R : exists l, waterbag_loop two_of upward 3 2 b 0 0 None [] = Ok l /\
    l = [{| c_x := Some 0; c_px := Some 0; c_y := Some 0; c_py := Some (sqrt (2 * hh)) |}]).
  { cbn [waterbag_loop draw_positive].
    replace (0 <? b_npart b)%nat with true by reflexivity. change (upward 0) with (1/2).
    destruct (Rle_dec (1/2) 0); [exfalso; lra|].
    unfold two_of. cbn [rbind]. fold hh. 
    cbn [trial_loop]. destruct (Rle_dec hh (10 ^ 10)); [|contradiction].
    unfold compute_potential. cbn [b_kind b demo b_t]. destruct (Req_EM_T 0 0) as [_|]; [|contradiction]. cbn [rbind].
    change (upward (0 + 1)) with (1/2). change (upward (0 + 1 + 1)) with (1/2).
    replace (2 * (1 / 2 - 1 / 2)) with 0 by field. rewrite !Rmult_0_l.
    replace (1 / 2 * (0 ^ 2 + 0 ^ 2) + 1 * 0) with 0 by ring.
    destruct (Rle_dec hh 0); [exfalso; lra|]. cbn [rbind].
    destruct (Rlt_dec 0 hh); [|contradiction].
    match goal with |- context [(?a <? ?c)%nat] => replace (a <? c)%nat with false by reflexivity end.
    eexists. split; [reflexivity|]. cbn [app]. unfold appended. cbn [b_quiet b demo].
    f_equal. change (upward (0 + 1 + 2)) with (1/4).
    rewrite make_particle_ok by (cbn; lra). cbn [b_tw b demo u_betax u_alphax u_alphay].
    rewrite sqrt_1. replace (2 * PI * (1 / 4)) with (PI / 2) by field. rewrite cos_PI2, sin_PI2.
    replace (2 * (hh - 0)) with (2 * hh) by ring.
    f_equal; f_equal; field. }
  destruct R as (l & R & El). unfold distribute_waterbag. rewrite R, El. unfold store. cbn [List.length b demo b_npart Nat.eqb andb negb].
  eexists. eexists. exists (4 * hh). split; [intros k; unfold upward; destruct (Nat.eqb k 3); lra|].
  split; [reflexivity|]. split; [reflexivity|]. split; [reflexivity|]. split; [reflexivity|].
  split; [left; reflexivity|]. split.
  - eexists _, _, _, _. split; [reflexivity|]. intros bx ax by_ ay E1 E2 E3 E4.
    unfold shows in *. cbn in E1, E2, E3, E4. injection E1 as <-. injection E2 as <-. injection E3 as <-. injection E4 as <-.
    unfold compute_Hamiltonian, compute_potential. cbn [b_kind with_trans b demo b_t].
    destruct (Req_EM_T 0 0) as [_|]; [|contradiction]. unfold norm_x, norm_p.
    rewrite sqrt_1. replace (sqrt 4) with 2 by (replace 4 with (2 ^ 2) by ring; rewrite sqrt_pow2; lra).
    cbn [rbind]. assert (S : sqrt (2 * hh) ^ 2 = 2 * hh) by (apply pow2_sqrt; lra). 
    cbn [fmap1]. f_equal. f_equal.
    match goal with |- ?l = _ => replace l with (2 * sqrt (2 * hh) ^ 2) by field end. rewrite S. ring.
  - unfold hh. cbn [b_emit b demo]. lra.
Qed.
Print Assumptions C80_unequal_betas_refuted.

(** ** C81: the linear Gaussian bunch is matched *)
Lemma scaled_cov : forall u v a b, List.length u = List.length v ->
  covariance (map (fun x => x * a) u) (map (fun x => x * b) v) = a * b * covariance u v.
Proof.
  intros u v a b HL. unfold covariance. rewrite map_length.
  replace (combine (map (fun x => x * a) u) (map (fun x => x * b) v)) with (map (fun p => (fst p * a, snd p * b)) (combine u v)).
  2:{ revert v HL. induction u as [|x u IH]; intros [|y v] HL; try discriminate; [reflexivity|]. cbn. f_equal. apply IH. injection HL as HL. exact HL. }
  rewrite map_map.
  assert (M : forall l c, mean (map (fun x => x * c) l) = mean l * c).
  { intros l c. unfold mean. rewrite map_length. replace (total (map (fun x => x * c) l)) with (total l * c); [unfold Rdiv; ring|].
    induction l as [|x l IH]; [cbn; ring|]. cbn [map]. rewrite !total_cons, <- IH. ring. }
  rewrite !M. replace (total (map (fun x => (fst (fst x * a, snd x * b) - mean u * a) * (snd (fst x * a, snd x * b) - mean v * b)) (combine u v)))
    with (a * b * total (map (fun xy => (fst xy - mean u) * (snd xy - mean v)) (combine u v))); [unfold Rdiv; ring|].
  induction (combine u v) as [|p l IH]; [cbn; ring|]. cbn [map]. rewrite !total_cons, <- IH. cbn [fst snd]. ring.
Qed.

Lemma combine4_columns : forall n (r0 r1 r2 r3 : list R) s0 s1 s2 s3, List.length r0 = n -> List.length r1 = n -> List.length r2 = n -> List.length r3 = n ->
  columns (map (fun p => {| c_x := fmul (fst (fst p)) (Some s0); c_px := fmul (snd (fst p)) (Some s1);
                            c_y := fmul (fst (snd p)) (Some s2); c_py := fmul (snd (snd p)) (Some s3) |})
               (combine (combine r0 r1) (combine r2 r3)))
    (map (fun x => x * s0) r0) (map (fun x => x * s1) r1) (map (fun x => x * s2) r2) (map (fun x => x * s3) r3).
Proof.
  induction n as [|n IH]; intros [|a0 r0] [|a1 r1] [|a2 r2] [|a3 r3] s0 s1 s2 s3 H0 H1 H2 H3; try discriminate.
  - repeat split.
  - injection H0 as H0. injection H1 as H1. injection H2 as H2. injection H3 as H3.
    destruct (IH r0 r1 r2 r3 s0 s1 s2 s3 H0 H1 H2 H3) as (A & B & C & D). unfold columns in *. cbn [combine map]. 
    cbn [combine map] in A, B, C, D. rewrite A, B, C, D. repeat split.
Qed.

Definition gaussian_draws (randn : nat -> list R) (n : nat) : Prop :=
  (forall k, List.length (randn k) = n) /\ unit_plane (randn 0%nat) (randn 1%nat) /\ unit_plane (randn 2%nat) (randn 3%nat).

Lemma gaussian_moments : forall randn b b', gaussian_draws randn (b_npart b) -> pos_tw (b_tw b) -> cons_x (b_tw b) -> cons_y (b_tw b) ->
  0 <= b_emitx b -> 0 <= b_emity b -> distribute_Gaussian_standard randn b = (b', Ok tt) ->
  exists xs pxs ys pys, columns (b_trans b') xs pxs ys pys /\
    covariance xs xs = b_emitx b * u_betax (b_tw b) /\ covariance pxs pxs = b_emitx b * u_gammax (b_tw b) /\ covariance xs pxs = 0 /\
    covariance ys ys = b_emity b * u_betay (b_tw b) /\ covariance pys pys = b_emity b * u_gammay (b_tw b) /\ covariance ys pys = 0.
Proof.
  intros randn b b' (HL & (U1 & U2 & U3) & (V1 & V2 & V3)) [Px Py] Cx Cy Ex Ey H. unfold distribute_Gaussian_standard in H.
  unfold cons_x in Cx. unfold cons_y in Cy.
  assert (Gx : 0 < u_gammax (b_tw b)). { pose proof (pow2_ge_0 (u_alphax (b_tw b))). nra. }
  assert (Gy : 0 < u_gammay (b_tw b)). { pose proof (pow2_ge_0 (u_alphay (b_tw b))). nra. }
  rewrite !nsqrt_ok in H by nra. injection H as <-. cbn [b_trans with_trans].
  eexists _, _, _, _. split; [apply (combine4_columns (b_npart b)); apply HL|].
  rewrite !scaled_cov by (rewrite !HL; reflexivity). rewrite U1, U2, U3, V1, V2, V3.
  rewrite !sqrt_sqrt by nra. repeat split; ring.
Qed.

Theorem C81_gaussian_partial : forall randn b b' bx by_, gaussian_draws randn (b_npart b) ->
  consistent_x b -> consistent_y b -> shows b "betax" bx -> shows b "betay" by_ -> 0 < bx -> 0 < by_ ->
  shows b "alphax" 0 -> shows b "alphay" 0 -> 0 <= b_emitx b -> 0 <= b_emity b ->
  distribute_Gaussian_standard randn b = (b', Ok tt) ->
  exists xs pxs ys pys, columns (b_trans b') xs pxs ys pys /\
    matched 0 bx (b_emitx b) xs pxs /\ matched 0 by_ (b_emity b) ys pys.
Proof.
  intros randn b b' bx by_ HD CX CY S1 S2 Hx Hy S3 S4 Ex Ey H.
  apply consistent_y_inv in CY.
  assert (CX' : cons_x (b_tw b)). { destruct CX as (be & al & ga & A1 & A2 & A3 & A). unfold shows in *. cbn in A1, A2, A3. injection A1 as <-. injection A2 as <-. injection A3 as <-. exact A. }
  unfold shows in *. cbn in S1, S2, S3, S4. injection S1 as S1. injection S2 as S2. injection S3 as S3. injection S4 as S4.
  destruct (gaussian_moments randn b b' HD) as (xs & pxs & ys & pys & HC & M1 & M2 & M3 & M4 & M5 & M6); try assumption.
  { split; lra. }
  exists xs, pxs, ys, pys. split; [exact HC|]. unfold matched. unfold cons_x in CX'. unfold cons_y in CY. rewrite S3, S1 in CX'. rewrite S4, S2 in CY.
  rewrite M1, M2, M3, M4, M5, M6, S1, S2.
  assert (u_gammax (b_tw b) = (1 + 0 ^ 2) / bx) as -> by (apply Rmult_eq_reg_r with bx; [rewrite CX'; field; lra|lra]).
  assert (u_gammay (b_tw b) = (1 + 0 ^ 2) / by_) as -> by (apply Rmult_eq_reg_r with by_; [rewrite CY; field; lra|lra]).
  repeat split; ring.
Qed.
Print Assumptions C81_gaussian_partial.

Definition four_draws (k : nat) : list R := if Nat.even k then [1; 1; -1; -1] else [1; -1; 1; -1].
Lemma four_draws_ok : gaussian_draws four_draws 4.
Proof.
  split; [intros k; unfold four_draws; destruct (Nat.even k); reflexivity|].
  assert (U : unit_plane [1; 1; -1; -1] [1; -1; 1; -1]).
  { unfold unit_plane, covariance, mean, total. cbn. repeat split; field. }
  split; exact U.
Qed.
Example C81_applies : exists b', gaussian_draws four_draws (b_npart (demo Standard 4 "Gaussian" 2 0 3 0 false)) /\
  distribute_Gaussian_standard four_draws (demo Standard 4 "Gaussian" 2 0 3 0 false) = (b', Ok tt) /\
  consistent_x (demo Standard 4 "Gaussian" 2 0 3 0 false) /\ consistent_y (demo Standard 4 "Gaussian" 2 0 3 0 false).
Proof.
  eexists. split; [exact four_draws_ok|]. split; [reflexivity|]. split; [apply consistent_x_iff|apply consistent_y_iff]; unfold cons_x, cons_y; cbn; field.
Qed.

(** With a nonzero alpha the correlation is missing and the emittance is too large. *)
Theorem C81_tilted_refuted : exists randn b b', gaussian_draws randn (b_npart b) /\ consistent_x b /\
  shows b "betax" 1 /\ shows b "alphax" 1 /\ distribute_Gaussian_standard randn b = (b', Ok tt) /\
  forall xs pxs ys pys, columns (b_trans b') xs pxs ys pys -> ~ matched 1 1 (b_emitx b) xs pxs.
Proof.
  set (b := demo Standard 4 "Gaussian" 1 1 1 0 false).
  assert (CX : cons_x (b_tw b)) by (unfold cons_x; cbn; field). assert (CY : cons_y (b_tw b)) by (unfold cons_y; cbn; field).
  exists four_draws, b. eexists. split; [exact four_draws_ok|]. split; [apply consistent_x_iff; exact CX|].
  split; [reflexivity|]. split; [reflexivity|]. split; [reflexivity|].
  intros xs pxs ys pys HC [_ [HM _]].
  destruct (gaussian_moments four_draws b _ four_draws_ok ltac:(split; cbn; lra) CX CY ltac:(cbn; lra) ltac:(cbn; lra) eq_refl)
    as (xs' & pxs' & ys' & pys' & (A & B & _) & _ & _ & M & _).
  destruct HC as (A' & B' & _).
  assert (I : forall (u v : list R), map Some u = map Some v -> u = v).
  { induction u as [|x u IH]; intros [|y v] E; try discriminate; [reflexivity|]. injection E as -> E. f_equal. apply IH, E. }
  rewrite (I xs' xs) in M by congruence. rewrite (I pxs' pxs) in M by congruence. rewrite M in HM. cbn in HM. lra.
Qed.
Print Assumptions C81_tilted_refuted.

(** ** C82: particle identifiers and the other coordinates *)
Theorem C82_longitudinal : forall randn stdz dpop b b' r,
  (forall k, List.length (randn k) = b_npart b) ->
  set_longitudinal randn stdz dpop b = (b', r) ->
  r = Ok tt /\ List.length (b_long b') = b_npart b /\ b_trans b' = b_trans b /\ b_ids b' = b_ids b /\
  b_stdz b' = given stdz (b_stdz b) /\ b_dpop b' = given dpop (b_dpop b) /\
  forall k, (k < b_npart b)%nat -> nth k (b_long b') (0, 0) =
    (nth k (randn 0%nat) 0 * given stdz (b_stdz b), nth k (randn 1%nat) 0 * given dpop (b_dpop b)).
Proof.
  intros randn stdz dpop b b' r HL H. unfold set_longitudinal in H. injection H as <- <-. cbn [b_long with_long b_trans b_ids b_stdz b_dpop].
  split; [reflexivity|]. rewrite map_length, combine_length, !HL, Nat.min_id. repeat split.
  intros k Hk. fold (given stdz (b_stdz b)). fold (given dpop (b_dpop b)).
  set (f := fun p : R * R => (fst p * given stdz (b_stdz b), snd p * given dpop (b_dpop b))).
  rewrite (nth_indep _ (0, 0) (f (0, 0))).
  2:{ rewrite map_length, combine_length, !HL, Nat.min_id. exact Hk. }
  rewrite (map_nth f), combine_nth by (rewrite !HL; reflexivity). reflexivity.
Qed.
Print Assumptions C82_longitudinal.
Example C82_applies : (forall k : nat, List.length ((fun _ => [1; -1]) k) = b_npart (demo Standard 2 "KV" 1 0 1 0 false)) /\
  b_long (fst (set_longitudinal (fun _ => [1; -1]) (Some 3) None (demo Standard 2 "KV" 1 0 1 0 false))) = [(1 * 3, 1 * 0); (-1 * 3, -1 * 0)].
Proof. split; reflexivity. Qed.

(** C79: a new bunch has the settings it was given under their own names, the sum of the two
    emittances as total emittance, all coordinates zero and the identifiers 0..N-1. *)
Theorem C79_constructor : forall n dist ex ey bx ax by_ ay sz dp q t c cu b,
  (new_standard n dist ex ey bx ax by_ ay sz dp q = Ok b \/ new_nonlinear n dist ex ey bx ax by_ ay sz dp q t c cu = Ok b) ->
  b_npart b = n /\ b_dist b = dist /\ b_emitx b = ex /\ b_emity b = ey /\ b_emit b = ex + ey /\
  shows b "betax" bx /\ shows b "alphax" ax /\ shows b "betay" by_ /\ shows b "alphay" ay /\
  shows b "gammax" ((1 + ax ^ 2) / bx) /\ shows b "gammay" ((1 + ay ^ 2) / by_) /\
  b_stdz b = sz /\ b_dpop b = dp /\
  (new_standard n dist ex ey bx ax by_ ay sz dp q = Ok b -> b_quiet b = q) /\
  (new_nonlinear n dist ex ey bx ax by_ ay sz dp q t c cu = Ok b -> b_t b = t /\ b_c b = c /\ b_cutoff b = cu) /\
  b_trans b = repeat {| c_x := Some 0; c_px := Some 0; c_y := Some 0; c_py := Some 0 |} n /\
  b_long b = repeat (0, 0) n /\ b_ids b = seq 0 n.
Proof.
  intros n dist ex ey bx ax by_ ay sz dp q t c cu b H.
  unfold new_standard, new_nonlinear, new_bunch, pdiv in *.
  destruct (Req_EM_T bx 0); cbn [rbind] in *; [destruct H; discriminate|].
  destruct (Req_EM_T by_ 0); cbn [rbind] in *; [destruct H; discriminate|].
  destruct H as [H|H]; injection H as <-; cbn; repeat match goal with |- _ /\ _ => split end;
    try reflexivity; intros K; first [discriminate | repeat split; reflexivity].
Qed.
Print Assumptions C79_constructor.
Example C79_constructor_applies : exists b, new_standard 3 "KV" 1 2 3 0 4 1 1 0 true = Ok b.
Proof. unfold new_standard, new_bunch. rewrite !pdiv_ok by lra. cbn [rbind]. eexists. reflexivity. Qed.

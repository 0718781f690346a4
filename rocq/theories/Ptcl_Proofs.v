From Coq Require Import List Reals Lra Lia Bool Arith ZArith String.
From Verif Require Import PyBase Stats_Model Stats_Spec Stats_Proofs Jacobi_Proofs Decor_Proofs.
From Verif Require Import Twiss_Model Twiss_Spec Twiss_Proofs Ptcl_Model Ptcl_Spec.
Import ListNotations.
Open Scope R_scope.

(* ---------- histories ---------- *)
Lemma array_after_spec : forall N b, is_beam N b -> (0 < N)%nat -> array_after b = recentre_first b.
Proof.
  intros N b Hb HN. unfold array_after.
  rewrite calc_variance6d_spec by exact (is_beam_nonempty N b Hb HN). reflexivity.
Qed.

Lemma recentre_beam : forall N b, is_beam N b -> is_beam N (recentre_first b).
Proof.
  intros N b [Hl Hf]. split; [unfold recentre_first; rewrite map_length; exact Hl|].
  unfold recentre_first. apply Forall_map. eapply Forall_impl; [|exact Hf].
  intros [|x r] H; exact H.
Qed.

Lemma calc_twiss_array : forall N b b' t, is_beam N b -> (0 < N)%nat ->
  calc_twiss6d b = Ok (b', t) -> b' = recentre_first b.
Proof.
  intros N b b' t Hb HN H. unfold calc_twiss6d in H.
  destruct (correlations_spec N b Hb HN) as (m & E & _). rewrite E in H. cbn [rbind fst snd] in H.
  repeat match type of H with
  | rbind ?x _ = _ => destruct x; cbn [rbind] in H; try discriminate
  end. inversion H. reflexivity.
Qed.

Lemma rms_array : forall N b b' l, is_beam N b -> (0 < N)%nat -> calc_rms6d b = Ok (b', l) ->
  b' = recentre_first b /\ l = map (fun r => sqrt (variance r)) b.
Proof.
  intros N b b' l Hb HN H. unfold calc_rms6d in H.
  rewrite calc_variance6d_spec in H by exact (is_beam_nonempty N b Hb HN). cbn [rbind fst snd] in H.
  inversion H. split; [reflexivity|]. rewrite map_map. reflexivity.
Qed.

Lemma calc_twiss_ends : forall b, calc_twiss6d b <> Diverges.
Proof.
  intros b. unfold calc_twiss6d, calc_correlations6d.
  assert (V : forall b, calc_variance6d b <> Diverges).
  { induction b0 as [|r b0 IH]; cbn [calc_variance6d]; [discriminate|].
    unfold variance_row. destruct r as [|x r]; cbn [rbind]; [discriminate|].
    destruct (welford 1 x 0 r). cbn [rbind]. destruct (calc_variance6d b0); cbn [rbind]; try discriminate.
    contradiction. }
  assert (P : forall m k, plane_twiss m k <> Diverges).
  { intros m k. unfold plane_twiss, msqrt, pdiv. destruct (Rle_dec _ 0); [discriminate|].
    destruct (Rlt_dec _ 0); cbn [rbind]; [discriminate|].
    destruct (Req_EM_T _ 0); cbn [rbind]; discriminate. }
  assert (T : forall a b e, new_twiss a b e <> Diverges).
  { intros. unfold new_twiss, pdiv. destruct (Req_EM_T _ 0); cbn [rbind]; discriminate. }
  specialize (V b). destruct (calc_variance6d b) as [vr| |]; cbn [rbind]; try discriminate; [|contradiction].
  cbn [fst snd].
  repeat match goal with
  | |- context [rbind (plane_twiss ?m ?k) _] =>
      let H := fresh in pose proof (P m k) as H; destruct (plane_twiss m k) as [[[? ?] ?]| |];
      cbn [rbind]; try discriminate; try contradiction
  end.
  repeat match goal with
  | |- context [rbind (new_twiss ?a ?b ?e) _] =>
      let H := fresh in pose proof (T a b e) as H; destruct (new_twiss a b e);
      cbn [rbind]; try discriminate; try contradiction
  end.
Qed.

Lemma peak_array : forall c p m q N b, is_beam N b -> (0 < N)%nat ->
  match get_peak_current_rms c p m q b with
  | Ok (b', _) => b' = recentre_first b | Err _ => True | Diverges => False end.
Proof.
  intros c p m q N b Hb HN. unfold get_peak_current_rms, calc_rms6d.
  rewrite calc_variance6d_spec by exact (is_beam_nonempty N b Hb HN). cbn [rbind fst snd].
  assert (D : forall x y, pdiv x y <> Diverges) by (intros; unfold pdiv; destruct (Req_EM_T _ 0); discriminate).
  assert (M : forall x, msqrt x <> Diverges) by (intros; unfold msqrt; destruct (Rlt_dec _ 0); discriminate).
  assert (B : get_beta0 p m <> Diverges).
  { unfold get_beta0, get_gamma0, get_beta0_gamma0.
    destruct (pdiv p m) as [bg| |] eqn:E1; cbn [rbind]; try discriminate; [|exact (fun _ => D _ _ E1)].
    destruct (msqrt _) as [g| |] eqn:E2; cbn [rbind]; try discriminate; [apply D|exact (fun _ => M _ E2)]. }
  destruct (get_beta0 p m) as [b0| |]; cbn [rbind]; auto.
Qed.

Lemma ask_spec : forall c N o q, is_beam N (pb_array o) -> (0 < N)%nat ->
  pb_array (fst (ask c o q)) = (if needs_spread q then recentre_first (pb_array o) else pb_array o) /\
  pb_design_p (fst (ask c o q)) = pb_design_p o /\
  pb_charge (fst (ask c o q)) = pb_charge o /\
  pb_mass (fst (ask c o q)) = pb_mass o /\
  (q <> CalcTwiss -> pb_twiss (fst (ask c o q)) = pb_twiss o).
Proof.
  intros c N o q Hb HN. destruct q; cbn [ask needs_spread fst]; try (repeat split; reflexivity).
  - pose proof (calc_twiss_ends (pb_array o)) as D.
    destruct (calc_twiss6d (pb_array o)) as [[b' t]|e|] eqn:E; cbn [fst]; [| |contradiction].
    + rewrite (calc_twiss_array N _ b' t Hb HN E). repeat split; try reflexivity. intros H; contradiction.
    + rewrite (array_after_spec N) by assumption. repeat split; reflexivity.
  - destruct (calc_rms6d (pb_array o)) as [[b' l]|e|] eqn:E; cbn [fst].
    + destruct (rms_array N _ b' l Hb HN E) as [-> _]. repeat split; reflexivity.
    + rewrite (array_after_spec N) by assumption. repeat split; reflexivity.
    + exfalso. unfold calc_rms6d in E.
      rewrite calc_variance6d_spec in E by exact (is_beam_nonempty N _ Hb HN). discriminate.
  - pose proof (peak_array c (pb_design_p o) (pb_mass o) (pb_charge o) N (pb_array o) Hb HN) as P.
    destruct (get_peak_current_rms _ _ _ _ _) as [[b' i]|e|]; cbn [fst]; [| |destruct P].
    + subst b'. repeat split; reflexivity.
    + rewrite (array_after_spec N) by assumption. repeat split; reflexivity.
Qed.

Lemma mean_rest : forall x xs, INR (List.length (x :: xs)) * (mean (x :: xs) - mean xs) = x - mean xs.
Proof.
  intros x xs. destruct xs as [|y ys].
  - rewrite mean_single. cbn [List.length INR]. unfold mean. cbn [total fold_right]. unfold Rdiv. ring.
  - set (l := y :: ys). assert (H : 0 < INR (List.length l)) by (apply INR_len_pos; discriminate).
    unfold mean. rewrite total_cons. change (List.length (x :: l)) with (S (List.length l)).
    rewrite S_INR. field. lra.
Qed.

(* ---------- construction ---------- *)
Lemma cov_scale : forall a c u w, covariance (map (fun x => x * a) u) (map (fun x => x * c) w) =
  a * c * covariance u w.
Proof.
  intros a c u w. unfold covariance. rewrite !mean_scale, map_length.
  assert (H : forall mu mw, total (map (fun xy => (fst xy - mu * a) * (snd xy - mw * c))
      (combine (map (fun x => x * a) u) (map (fun x => x * c) w))) =
      a * c * total (map (fun xy => (fst xy - mu) * (snd xy - mw)) (combine u w))).
  { intros mu mw. revert w. induction u as [|x u IH]; intros [|y w]; cbn [map combine];
      try (cbn [total fold_right]; ring).
    rewrite !total_cons, IH. cbn [fst snd]. ring. }
  rewrite H. unfold Rdiv. ring.
Qed.

Lemma sub_avg_quiet : forall N b, is_beam N b -> (0 < N)%nat -> first_on_centroid b ->
  first_on_centroid (sub_avg6d b).
Proof.
  intros N b Hb HN Hf r Hr. rewrite sub_avg_spec in Hr by exact (is_beam_nonempty N b Hb HN).
  apply in_map_iff in Hr. destruct Hr as (r0 & <- & Hr0). specialize (Hf r0 Hr0).
  destruct r0 as [|x r0]; [exact I|]. cbn [map].
  change (x - mean (x :: r0) = mean (map (fun y => y - mean (x :: r0)) (x :: r0))).
  rewrite mean_sub by discriminate. rewrite <- Hf. reflexivity.
Qed.

Lemma finite_rows_spec : forall (A : list R -> bool) (h : list R -> list R) rs b,
  finite_rows (map (fun r => if A r then None else Some (h r)) rs) = Some b ->
  b = map h rs /\ Forall (fun r => A r = false) rs.
Proof.
  intros A h. induction rs as [|r rs IH]; intros b H; cbn [map finite_rows] in H.
  - inversion H. split; [reflexivity|constructor].
  - destruct (A r) eqn:Ea; [discriminate|].
    destruct (finite_rows _) as [b1|] eqn:Eb; [|discriminate]. inversion H; subst b.
    destruct (IH b1 eq_refl) as [-> F]. split; [reflexivity|]. constructor; assumption.
Qed.

Lemma cleaned_unit : forall N b0 rows b, is_beam N b0 -> (0 < N)%nat -> first_on_centroid b0 ->
  clean_phase_space_6d b0 = Ok rows -> finite_rows rows = Some b ->
  is_beam N b /\ first_on_centroid b /\
  (forall i, (i < 6)%nat -> mean (row b i) = 0) /\
  (forall i j, (i < 6)%nat -> (j < 6)%nat ->
     covariance (row b i) (row b j) = if Nat.eqb i j then 1 else 0).
Proof.
  intros N b0 rows b Hb0 HN Hf0 Hc Hr. unfold clean_phase_space_6d in Hc.
  destruct (sub_avg_beam N b0 Hb0 HN) as [Hb1 Hm1]. pose proof (sub_avg_quiet N b0 Hb0 HN Hf0) as Hf1.
  destruct (rm_correlations6d (sub_avg6d b0)) as [b2| |] eqn:E; cbn [rbind] in Hc; try discriminate.
  destruct (rm_decorrelates N _ b2 Hb1 HN Hf1 E) as (v & l & Ho & [Hb2 Hcell] & Hcov).
  assert (Hz : forall j, (j < 6)%nat -> mean (row (sub_avg6d b0) j) = 0 /\ cell (sub_avg6d b0) j 0 = 0).
  { intros j Hj. assert (HIn : In (row (sub_avg6d b0) j) (sub_avg6d b0)) by (apply nth_In; destruct Hb1; lia).
    rewrite Forall_forall in Hm1. pose proof (Hm1 _ HIn) as M. split; [exact M|].
    specialize (Hf1 _ HIn). rewrite <- hd_cell. pose proof (is_beam_row_len N _ j Hb1 Hj) as L.
    destruct (row (sub_avg6d b0) j) as [|x r]; [simpl in L; lia|]. cbn [hd]. congruence. }
  assert (Hz2 : forall i, (i < 6)%nat -> mean (row b2 i) = 0 /\ hd 0 (row b2 i) = 0).
  { intros i Hi. split.
    - rewrite (mean_cell N) by assumption.
      assert (Em : mu N (cell b2 i) = mu N (fun k => sum6 (fun j => v j i * cell (sub_avg6d b0) j k))).
      { unfold mu. f_equal. apply tot_ext. intros k Hk. apply Hcell; assumption. }
      rewrite Em, mu_sum6. unfold sum6. rewrite <- !(mean_cell N) by (try assumption; lia).
      rewrite !(fun j Hj => proj1 (Hz j Hj)) by lia. ring.
    - rewrite hd_cell. unfold cell. rewrite Hcell by assumption. unfold sum6.
      fold (cell (sub_avg6d b0) 0 0) (cell (sub_avg6d b0) 1 0) (cell (sub_avg6d b0) 2 0)
           (cell (sub_avg6d b0) 3 0) (cell (sub_avg6d b0) 4 0) (cell (sub_avg6d b0) 5 0).
      rewrite !(fun j Hj => proj2 (Hz j Hj)) by lia. ring. }
  pose proof (is_beam_nonempty N b2 Hb2 HN) as Hne2.
  assert (Hrows : forall r, In r b2 -> exists i, (i < 6)%nat /\ r = row b2 i).
  { intros r HIn. destruct (In_nth b2 r [] HIn) as (i & Hi & <-). exists i. destruct Hb2 as [Hl _].
    split; [lia|reflexivity]. }
  assert (Es : sub_avg6d b2 = b2).
  { rewrite sub_avg_spec by exact Hne2. rewrite <- (map_id b2) at 2. apply map_ext_in. intros r HIn.
    destruct (Hrows r HIn) as (i & Hi & ->). rewrite (proj1 (Hz2 i Hi)).
    rewrite <- (map_id (row b2 i)) at 2. apply map_ext. intros. ring. }
  rewrite Es, normalize_rows in Hc by exact Hne2. inversion Hc; subst rows; clear Hc.
  assert (Hh : exists F : list R -> bool,
     (forall r, F r = false -> sqrt (variance r) <> 0) /\
     map (fun r => if Req_EM_T (sqrt (variance r)) 0 then None
       else Some (map (fun x => x * (1 / sqrt (variance r))) match r with [] => [] | _ :: xs => mean r :: xs end)) b2 =
     map (fun r => if F r then None
       else Some (map (fun x => x * (1 / sqrt (variance r))) r)) b2).
  { exists (fun r => if Req_EM_T (sqrt (variance r)) 0 then true else false). split.
    - intros r. destruct (Req_EM_T (sqrt (variance r)) 0); [discriminate|auto].
    - apply map_ext_in. intros r HIn. destruct (Req_EM_T (sqrt (variance r)) 0); [reflexivity|].
      f_equal. f_equal. destruct (Hrows r HIn) as (i & Hi & ->). destruct (Hz2 i Hi) as [Z1 Z2].
      rewrite Z1. destruct (row b2 i) as [|x xs]; [reflexivity|]. cbn [hd] in Z2. rewrite Z2. reflexivity. }
  destruct Hh as (F & HF & Eh). rewrite Eh in Hr.
  destruct (finite_rows_spec F (fun r => map (fun x => x * (1 / sqrt (variance r))) r) b2 b Hr) as [Eb Hs].
  assert (Hrow : forall i, (i < 6)%nat -> row b i = map (fun x => x * (1 / sqrt (variance (row b2 i)))) (row b2 i)).
  { intros i Hi. subst b. unfold row. rewrite (nth_indep _ [] ((fun r => map (fun x => x * (1 / sqrt (variance r))) r) []))
      by (rewrite map_length; destruct Hb2; lia). exact (map_nth _ b2 [] i). }
  assert (Hbm : is_beam N b).
  { subst b. destruct Hb2 as [L F2]. split; [rewrite map_length; exact L|]. apply Forall_map.
    eapply Forall_impl; [|exact F2]. intros r H. cbv beta. rewrite map_length. exact H. }
  assert (Hmz : forall i, (i < 6)%nat -> mean (row b i) = 0).
  { intros i Hi. rewrite Hrow by exact Hi. rewrite mean_scale, (proj1 (Hz2 i Hi)). ring. }
  split; [exact Hbm|]. split; [|split; [exact Hmz|]].
  - intros r HIn. destruct (In_nth b r [] HIn) as (i & Hi & <-). fold (row b i).
    assert (Hi6 : (i < 6)%nat) by (destruct Hbm; lia). pose proof (Hmz i Hi6) as M.
    destruct (row b i) as [|x r'] eqn:Er; [exact I|]. rewrite M.
    assert (Hd : hd 0 (row b i) = 0).
    { rewrite Hrow by exact Hi6. destruct (Hz2 i Hi6) as [_ Z2]. destruct (row b2 i) as [|y ys]; [reflexivity|].
      cbn [map hd]. cbn [hd] in Z2. rewrite Z2. ring. }
    rewrite Er in Hd. exact Hd.
  - intros i j Hi Hj. rewrite !Hrow by assumption. rewrite cov_scale.
    destruct (Nat.eqb i j) eqn:Eij.
    + apply Nat.eqb_eq in Eij. subst j. rewrite <- variance_covariance.
      rewrite Forall_forall in Hs. assert (Hn : sqrt (variance (row b2 i)) <> 0).
      { apply HF. apply Hs. apply nth_In. destruct Hb2; lia. }
      pose proof (pow2_sqrt (variance (row b2 i)) (variance_nonneg _)) as P.
      rewrite <- P at 3. field. exact Hn.
    + pose proof (Hcov i j Hi Hj) as Z. rewrite Eij in Z. rewrite Z. ring.
Qed.

From Coq Require Import List Reals Lra Lia Psatz Bool Arith ZArith.
From Verif Require Import PyBase Stats_Model Stats_Spec.
Import ListNotations.
Open Scope R_scope.

Lemma total_app : forall a b, total (a ++ b) = total a + total b.
Proof. induction a as [|x a IH]; intros b; simpl; [ring|]. rewrite IH. ring. Qed.

Lemma total_single : forall x, total [x] = x.
Proof. intros. unfold total. simpl. ring. Qed.

Lemma total_cons : forall x l, total (x :: l) = x + total l.
Proof. reflexivity. Qed.

Lemma total_map_plus {A} : forall (f g : A -> R) l,
  total (map (fun x => f x + g x) l) = total (map f l) + total (map g l).
Proof. induction l as [|x l IH]; simpl; [ring|]. rewrite IH. ring. Qed.

Lemma total_map_scal {A} : forall (f : A -> R) c l,
  total (map (fun x => c * f x) l) = c * total (map f l).
Proof. induction l as [|x l IH]; simpl; [ring|]. rewrite IH. ring. Qed.

Lemma total_map_const {A} : forall c (l : list A),
  total (map (fun _ => c) l) = INR (length l) * c.
Proof. induction l as [|x l IH]; [simpl; ring|]. cbn [map total fold_right length]. fold (total (map (fun _ : A => c) l)). rewrite IH, S_INR. ring. Qed.

Lemma total_ext {A} : forall (f g : A -> R) l, (forall x, In x l -> f x = g x) ->
  total (map f l) = total (map g l).
Proof. intros f g l H. f_equal. apply map_ext_in. exact H. Qed.

Lemma total_nonneg {A} : forall (f : A -> R) l, (forall x, In x l -> 0 <= f x) -> 0 <= total (map f l).
Proof.
  induction l as [|x l IH]; intros H; simpl; [lra|].
  assert (0 <= f x) by (apply H; left; reflexivity).
  assert (0 <= total (map f l)) by (apply IH; intros; apply H; right; assumption). lra.
Qed.

Lemma rsum_total : forall l, rsum l = total l.
Proof. reflexivity. Qed.

Lemma INR_len_pos {A} : forall (l : list A), l <> [] -> 0 < INR (length l).
Proof. intros [|x l] H; [contradiction|]. apply lt_0_INR. simpl. lia. Qed.

Definition ssq (l : list R) : R := total (map (fun x => (x - mean l) ^ 2) l).

Lemma ssq_expand : forall l, l <> [] ->
  ssq l = total (map (fun x => x ^ 2) l) - total l ^ 2 / INR (length l).
Proof.
  intros l Hl. pose proof (INR_len_pos l Hl) as Hn. unfold ssq.
  assert (H : forall m, total (map (fun x => (x - m) ^ 2) l) =
    total (map (fun x => x ^ 2) l) - 2 * m * total l + INR (length l) * m ^ 2).
  { intros m. clear Hl Hn. induction l as [|x l IH]; [simpl; ring|].
    cbn [map total fold_right]. fold (total (map (fun x => (x - m) ^ 2) l)). rewrite IH.
    cbn [length]. rewrite S_INR. fold (total l). fold (total (map (fun x => x ^ 2) l)). ring. }
  rewrite H. unfold mean. field. lra.
Qed.

Lemma ssq_nonneg : forall l, 0 <= ssq l.
Proof. intros l. unfold ssq. apply total_nonneg. intros; apply pow2_ge_0. Qed.

Lemma welford_spec : forall xs pre, pre <> [] ->
  welford (length pre) (mean pre) (ssq pre) xs = (mean (pre ++ xs), ssq (pre ++ xs)).
Proof.
  induction xs as [|x xs IH]; intros pre Hp; cbn [welford].
  - rewrite app_nil_r. reflexivity.
  - pose proof (INR_len_pos pre Hp) as Hn.
    assert (Hlen : length (pre ++ [x]) = S (length pre)) by (rewrite app_length; simpl; lia).
    assert (Hm : mean pre + (x - mean pre) / INR (length pre + 1) = mean (pre ++ [x])).
    { unfold mean. rewrite Hlen, plus_INR, !S_INR, total_app, total_single. change (INR 0) with 0. field. lra. }
    assert (Hs : ssq pre + (x - mean (pre ++ [x])) * (x - mean pre) = ssq (pre ++ [x])).
    { rewrite !ssq_expand by (try assumption; destruct pre; discriminate).
      rewrite map_app, !total_app. unfold mean. rewrite Hlen, S_INR, total_app.
      cbn [map]. rewrite !total_single. field. lra. }
    rewrite Hm, Hs. rewrite <- Hlen. rewrite IH by (destruct pre; discriminate).
    rewrite <- app_assoc. reflexivity.
Qed.

Lemma mean_single : forall x, mean [x] = x.
Proof. intros. unfold mean. simpl. field. Qed.

Lemma ssq_single : forall x, ssq [x] = 0.
Proof. intros. unfold ssq. rewrite mean_single. simpl. ring. Qed.

Lemma variance_row_spec : forall x xs,
  variance_row (x :: xs) = Ok (mean (x :: xs) :: xs, variance (x :: xs)).
Proof.
  intros. unfold variance_row.
  pose proof (welford_spec xs [x] ltac:(discriminate)) as H.
  rewrite mean_single, ssq_single in H. cbn [length app] in H.
  rewrite H. reflexivity.
Qed.

Lemma calc_variance6d_spec : forall b, Forall (fun r => r <> []) b ->
  calc_variance6d b = Ok (recentre_first b, map variance b).
Proof.
  induction b as [|r b IH]; intros H; [reflexivity|].
  inversion H as [|? ? Hr Hb]; subst. destruct r as [|x xs]; [contradiction|].
  cbn [calc_variance6d]. rewrite variance_row_spec. cbn [rbind]. rewrite IH by assumption.
  reflexivity.
Qed.

Lemma is_beam_nonempty : forall N b, is_beam N b -> (0 < N)%nat -> Forall (fun r => r <> []) b.
Proof.
  intros N b [_ H] HN. eapply Forall_impl; [|exact H]. intros r Hr Hc. subst r. simpl in Hr. lia.
Qed.

Lemma variance_nonneg : forall l, 0 <= variance l.
Proof.
  intros l. destruct l as [|x l].
  - unfold variance. simpl. unfold Rdiv. rewrite Rmult_0_l. lra.
  - unfold variance. apply Rmult_le_pos; [apply ssq_nonneg|].
    left. apply Rinv_0_lt_compat. apply INR_len_pos. discriminate.
Qed.

Lemma avg_row_spec : forall r, r <> [] -> avg_row r = Some (mean r).
Proof.
  intros r Hr. unfold avg_row, ndiv. pose proof (INR_len_pos r Hr).
  destruct (Req_EM_T _ _); [lra|]. reflexivity.
Qed.

Lemma sub_avg_spec : forall b, Forall (fun r => r <> []) b ->
  sub_avg6d b = map (fun r => map (fun x => x - mean r) r) b.
Proof.
  unfold sub_avg6d, calc_avg6d. induction b as [|r b IH]; intros H; [reflexivity|].
  inversion H as [|? ? Hr Hb]; subst. cbn [map]. rewrite avg_row_spec by assumption.
  cbn [sub_rows]. rewrite IH by assumption. reflexivity.
Qed.

Lemma total_sub : forall a l, total (map (fun x => x - a) l) = total l - INR (length l) * a.
Proof.
  induction l as [|x l IH]; [simpl; ring|]. cbn [map total fold_right length].
  fold (total (map (fun x => x - a) l)). rewrite IH, S_INR. fold (total l). ring.
Qed.

Lemma mean_sub : forall a l, l <> [] -> mean (map (fun x => x - a) l) = mean l - a.
Proof.
  intros a l Hl. pose proof (INR_len_pos l Hl). unfold mean. rewrite map_length, total_sub. field. lra.
Qed.

Lemma mean_scale : forall a l, mean (map (fun x => x * a) l) = mean l * a.
Proof.
  intros a l. unfold mean. rewrite map_length.
  replace (total (map (fun x => x * a) l)) with (a * total l).
  - unfold Rdiv. ring.
  - induction l as [|x l IH]; simpl; [ring|]. simpl in IH. rewrite <- IH. ring.
Qed.

Lemma variance_scale : forall a l, variance (map (fun x => x * a) l) = variance l * a ^ 2.
Proof.
  intros a l. unfold variance. rewrite map_length, map_map, mean_scale.
  replace (total (map (fun x => (x * a - mean l * a) ^ 2) l)) with (a ^ 2 * total (map (fun x => (x - mean l) ^ 2) l)).
  - unfold Rdiv. ring.
  - rewrite <- total_map_scal. apply total_ext. intros. ring.
Qed.

(** variance after moving the first particle to the centroid *)
Lemma variance_recentred : forall x xs,
  let l := x :: xs in let n := INR (length l) in
  variance (mean l :: xs) = variance l - (1 / n + 1 / n ^ 2) * (x - mean l) ^ 2.
Proof.
  intros x xs l n.
  assert (Hn : 0 < n) by (apply INR_len_pos; discriminate).
  change (variance (mean l :: xs)) with (ssq (mean l :: xs) / n).
  change (variance l) with (ssq l / n).
  rewrite !ssq_expand by discriminate.
  change (INR (length (mean l :: xs))) with n. change (INR (length l)) with n.
  cbn [map]. unfold l. cbn [map].
  cbn [total fold_right].
  fold (total xs). fold (total (map (fun y => y ^ 2) xs)).
  unfold mean. change (length (x :: xs)) with (length l). fold n.
  cbn [total fold_right]. fold (total xs).
  field. lra.
Qed.

Lemma corr_acc_spec : forall a b acc ma mb,
  corr_acc acc a b ma mb = acc + total (map (fun xy => (fst xy - ma) * (snd xy - mb)) (combine a b)).
Proof.
  induction a as [|x a IH]; intros [|y b] acc ma mb; simpl; try ring.
  rewrite IH. simpl. ring.
Qed.

Lemma nth_map_mean : forall b i, (i < length b)%nat -> Forall (fun r => r <> []) b ->
  nth i (calc_avg6d b) None = Some (mean (nth i b [])).
Proof.
  intros b i Hi Hb. unfold calc_avg6d.
  rewrite (nth_indep _ None (avg_row [])) by (rewrite map_length; exact Hi).
  rewrite map_nth. apply avg_row_spec. rewrite Forall_forall in Hb. apply Hb. apply nth_In. exact Hi.
Qed.

Lemma row_recentre : forall b i, (i < length b)%nat ->
  nth i (recentre_first b) [] = match nth i b [] with [] => [] | _ :: xs => mean (nth i b []) :: xs end.
Proof.
  intros b i Hi. unfold recentre_first.
  set (f := fun r : list R => match r with [] => [] | _ :: xs => mean r :: xs end).
  rewrite (nth_indep _ [] (f [])) by (rewrite map_length; exact Hi).
  rewrite map_nth. unfold f. destruct (nth i b []); reflexivity.
Qed.

Lemma is_beam_row_len : forall N b i, is_beam N b -> (i < 6)%nat -> length (row b i) = N.
Proof.
  intros N b i [Hl Hf] Hi. rewrite Forall_forall in Hf. apply Hf. apply nth_In. lia.
Qed.

Lemma correlations_spec : forall N b, is_beam N b -> (0 < N)%nat ->
  exists m, calc_correlations6d b = Ok (recentre_first b, m) /\
  (forall i, (i < 6)%nat -> m i i = variance (row b i)) /\
  (forall i j, (i < 6)%nat -> (j < 6)%nat -> i <> j ->
     m i j = covariance (row b i) (row b j)
             - (hd 0 (row b i) - mean (row b i)) * (hd 0 (row b j) - mean (row b j)) / INR N).
Proof.
  intros N b Hb HN. pose proof (is_beam_nonempty N b Hb HN) as Hne.
  unfold calc_correlations6d. rewrite calc_variance6d_spec by assumption. cbn [rbind fst snd].
  eexists. split; [reflexivity|]. pose proof Hb as [Hl Hf].
  split.
  - intros i Hi. rewrite Nat.eqb_refl.
    rewrite (nth_indep _ 0 (variance [])) by (rewrite map_length; lia). rewrite map_nth. reflexivity.
  - intros i j Hi Hj Hij. apply Nat.eqb_neq in Hij. rewrite Hij.
    rewrite !nth_map_mean by (try assumption; lia).
    rewrite !row_recentre by lia.
    fold (row b i). fold (row b j).
    pose proof (is_beam_row_len N b i Hb Hi) as Li. pose proof (is_beam_row_len N b j Hb Hj) as Lj.
    pose proof (is_beam_row_len N b 0 Hb ltac:(lia)) as L0. fold (row b 0). rewrite L0.
    rewrite corr_acc_spec. unfold covariance. rewrite Li.
    destruct (row b i) as [|xi ri] eqn:Ei; [simpl in Li; lia|].
    destruct (row b j) as [|xj rj] eqn:Ej; [simpl in Lj; lia|].
    set (mi := mean (xi :: ri)). set (mj := mean (xj :: rj)).
    cbn [combine map total fold_right fst snd hd].
    fold (total (map (fun xy : R * R => (fst xy - mi) * (snd xy - mj)) (combine ri rj))).
    assert (0 < INR N) by (apply lt_0_INR; lia). field. lra.
Qed.

(** Lemmas about the plots of beams. *)
From Coq Require Import List Reals Bool Arith String Ascii ZArith Lia Lra.
From Verif Require Import PyBase PyDict Sample_Model Plot_Model Plot_Spec Plot_Proofs Plot_Props Beam_Model Beam_Spec.
Import ListNotations.
Open Scope R_scope.

Lemma edges_of_eq : forall data n, (0 < n)%nat -> data <> [] -> exists lo hi, data_range data lo hi /\ edges_of data n = map (edge lo hi n) (seq 0 (S n)).
Proof.
  intros data n N D. destruct (np_histogram_ok data (Z.of_nat n) ltac:(lia) D) as [lo [hi [R E]]]. exists lo, hi. split; [exact R|].
  cbn zeta in E. rewrite Nat2Z.id in E. unfold np_histogram in E. destruct (Z.of_nat n <? 1)%Z eqn:B; [discriminate|].
  rewrite Nat2Z.id in E. unfold edges_of. destruct (hist_range data) as [a b]. now injection E.
Qed.
Lemma edge_le : forall lo hi n i, lo < hi -> (0 < n)%nat -> (i <= n)%nat -> lo <= edge lo hi n i <= hi.
Proof.
  intros lo hi n i L N I. unfold edge. assert (0 < INR n) by now apply lt_0_INR. assert (0 <= INR i) by apply pos_INR. assert (INR i <= INR n) by now apply le_INR.
  assert (E : INR i * ((hi - lo) / INR n) = (INR i / INR n) * (hi - lo)) by (field; lra). rewrite E.
  assert (0 <= INR i / INR n) by (apply Rmult_le_pos; [lra|left; now apply Rinv_0_lt_compat]).
  assert (INR i / INR n <= 1) by (apply (Rmult_le_reg_r (INR n)); [lra|]; unfold Rdiv; rewrite Rmult_assoc, Rinv_l by lra; lra). nra.
Qed.
Lemma smallest_edges : forall lo hi n, lo < hi -> (0 < n)%nat -> smallest (map (edge lo hi n) (seq 0 (S n))) = lo.
Proof.
  intros lo hi n L N. cbn [seq map smallest]. destruct (np_min_spec (map (edge lo hi n) (seq 1 n)) (edge lo hi n 0)) as [A B].
  specialize (B _ (or_introl eq_refl)). rewrite edge_0 in B. change (edge lo hi n 0 :: map (edge lo hi n) (seq 1 n)) with (map (edge lo hi n) (seq 0 (S n))) in A.
  apply in_map_iff in A. destruct A as [i [E I]]. apply in_seq in I. pose proof (edge_le lo hi n i L N ltac:(lia)). rewrite edge_0 in *. lra.
Qed.
Lemma largest_edges : forall lo hi n, lo < hi -> (0 < n)%nat -> largest (map (edge lo hi n) (seq 0 (S n))) = hi.
Proof.
  intros lo hi n L N. cbn [seq map largest]. destruct (np_max_spec (map (edge lo hi n) (seq 1 n)) (edge lo hi n 0)) as [A B].
  change (edge lo hi n 0 :: map (edge lo hi n) (seq 1 n)) with (map (edge lo hi n) (seq 0 (S n))) in A, B.
  assert (I : In (edge lo hi n n) (map (edge lo hi n) (seq 0 (S n)))) by (apply in_map, in_seq; lia). specialize (B _ I). rewrite edge_n in B by exact N.
  apply in_map_iff in A. destruct A as [i [E J]]. apply in_seq in J. pose proof (edge_le lo hi n i L N ltac:(lia)). lra.
Qed.
Lemma in_bin_of_eq : forall lo hi n i x, (i < n)%nat -> in_bin_of (map (edge lo hi n) (seq 0 (S n))) n i x = in_bin_b (edge lo hi n) n i x.
Proof. intros lo hi n i x I. unfold in_bin_of, in_bin_b. now rewrite !nth_edges by lia. Qed.
Lemma map_fst_combine : forall (A B : Type) (l : list A) (r : list B), List.length l = List.length r -> map fst (combine l r) = l.
Proof. induction l as [|a l IH]; intros [|b r] H; try discriminate; [reflexivity|]. injection H as H. cbn. f_equal. now apply IH. Qed.
Lemma map_snd_combine : forall (A B : Type) (l : list A) (r : list B), List.length l = List.length r -> map snd (combine l r) = r.
Proof. induction l as [|a l IH]; intros [|b r] H; try discriminate; [reflexivity|]. injection H as H. cbn. f_equal. now apply IH. Qed.
Lemma nth_map_seq : forall (A : Type) (f : nat -> A) n i d, (i < n)%nat -> nth i (map f (seq 0 n)) d = f i.
Proof. intros A f n i d I. rewrite (nth_indep _ d (f 0%nat)) by (rewrite map_length, seq_length; exact I). rewrite map_nth, seq_nth by exact I. reflexivity. Qed.

(** every point is in one cell *)
Lemma cell_sum : forall (f g : nat -> bool) is js, list_sum (map (fun j => list_sum (map (fun i => b2n (f i && g j)) is)) js) =
  (list_sum (map (fun i => b2n (f i)) is) * list_sum (map (fun j => b2n (g j)) js))%nat.
Proof.
  intros f g is js. induction js as [|j js IH]; [cbn; lia|].
  cbn [map list_sum fold_right]. change (fold_right Nat.add 0%nat) with list_sum. rewrite IH.
  assert (E : list_sum (map (fun i => b2n (f i && g j)) is) = (list_sum (map (fun i => b2n (f i)) is) * b2n (g j))%nat).
  { clear. induction is as [|i is IH]; [reflexivity|]. cbn [map list_sum fold_right]. change (fold_right Nat.add 0%nat) with list_sum. rewrite IH. destruct (f i), (g j); cbn [b2n andb]; lia. }
  rewrite E. lia.
Qed.
Lemma list_sum_map_ext : forall (A : Type) (f g : A -> nat) l, (forall a, f a = g a) -> list_sum (map f l) = list_sum (map g l).
Proof. intros. f_equal. now apply map_ext. Qed.
Lemma cells_total : forall (f g : nat -> R -> bool) n (pts : list (R * R)),
  (forall p, In p pts -> list_sum (map (fun i => b2n (f i (fst p))) (seq 0 n)) = 1%nat /\ list_sum (map (fun j => b2n (g j (snd p))) (seq 0 n)) = 1%nat) ->
  list_sum (map (fun j => list_sum (map (fun i => List.length (filter (fun p => f i (fst p) && g j (snd p)) pts)) (seq 0 n))) (seq 0 n)) = List.length pts.
Proof.
  intros f g n pts. induction pts as [|p pts IH]; intros H.
  - cbn. clear. rewrite (list_sum_map_ext _ _ (fun _ => 0%nat)); [induction (seq 0 n); cbn; [reflexivity|assumption]|]. intros j. induction (seq 0 n); cbn; [reflexivity|assumption].
  - rewrite (list_sum_map_ext _ _ (fun j => (list_sum (map (fun i => b2n (f i (fst p) && g j (snd p))) (seq 0 n)) + list_sum (map (fun i => List.length (filter (fun p => f i (fst p) && g j (snd p)) pts)) (seq 0 n)))%nat)).
    + rewrite list_sum_plus, cell_sum, IH by (intros q Q; apply H; now right). destruct (H p (or_introl eq_refl)) as [-> ->]. reflexivity.
    + intros j. rewrite <- list_sum_plus. apply list_sum_map_ext. intros i. cbn [filter]. destruct (f i (fst p) && g j (snd p)); reflexivity.
Qed.

Lemma density_ok : forall xs ys bins, List.length xs = List.length ys -> xs <> [] -> (1 <= bins)%Z ->
  exists im, density xs ys bins = Ok im /\ shows (rows im) (left im) (right im) (bottom im) (top im) (Z.to_nat bins) (combine xs ys).
Proof.
  intros xs ys bins L NX B. assert (NY : ys <> []) by (intros ->; destruct xs; [contradiction|discriminate]). set (n := Z.to_nat bins). assert (N : (0 < n)%nat) by lia.
  destruct (edges_of_eq xs n N NX) as [lx [hx [RX EX]]]. destruct (edges_of_eq ys n N NY) as [ly [hy [RY EY]]].
  destruct (data_range_in _ _ _ RX) as [LX IX]. destruct (data_range_in _ _ _ RY) as [LY IY].
  unfold density, histogram2d. rewrite L, Nat.eqb_refl. cbn [negb]. destruct (bins <? 1)%Z eqn:C; [apply Z.ltb_lt in C; lia|]. fold n. cbn [rbind]. eexists. split; [reflexivity|].
  cbn [rows left right bottom top]. rewrite EX, EY, !smallest_edges, !largest_edges by assumption. unfold shows. rewrite map_fst_combine, map_snd_combine by assumption.
  split; [exact RX|split; [exact RY|]]. unfold transpose. fold n. split; [now rewrite map_length, seq_length|]. split.
  { apply Forall_forall. intros row I. apply in_map_iff in I. destruct I as [j [<- _]]. now rewrite !map_length, seq_length. }
  assert (P : forall i j, (i < n)%nat -> (j < n)%nat ->
    nth j (map (fun j => List.length (filter (fun xy => in_bin_of (map (edge lx hx n) (seq 0 (S n))) n i (fst xy) && in_bin_of (map (edge ly hy n) (seq 0 (S n))) n j (snd xy)) (combine xs ys))) (seq 0 n)) 0%nat =
    List.length (filter (fun xy => in_bin_b (edge lx hx n) n i (fst xy) && in_bin_b (edge ly hy n) n j (snd xy)) (combine xs ys))).
  { intros i j I J. rewrite nth_map_seq by exact J. f_equal. apply filter_ext. intros [x y]. cbn [fst snd]. now rewrite !in_bin_of_eq by assumption. }
  split.
  - intros i j I J. rewrite nth_map_seq by exact J. rewrite map_map, nth_map_seq by exact I. rewrite P by assumption. apply num_filter. intros [x y]. cbn [fst snd].
    rewrite andb_true_iff, !in_bin_b_spec by exact N. reflexivity.
  - rewrite map_map. rewrite (map_ext_in _ (fun j => list_sum (map (fun i => List.length (filter (fun xy => in_bin_b (edge lx hx n) n i (fst xy) && in_bin_b (edge ly hy n) n j (snd xy)) (combine xs ys))) (seq 0 n)))).
    + apply (cells_total (in_bin_b (edge lx hx n) n) (in_bin_b (edge ly hy n) n)). intros [x y] Q. cbn [fst snd]. split; (apply one_bin; [exact N|intros k K; now apply edge_mono|]); rewrite edge_0, edge_n by exact N.
      * apply IX. eapply in_combine_l, Q.
      * apply IY. eapply in_combine_r, Q.
    + intros j J. apply in_seq in J. rewrite map_map. f_equal. apply map_ext_in. intros i I. apply in_seq in I. apply P; lia.
Qed.

Lemma np_average_eq : forall l, np_average l = average l.
Proof. intros l. unfold np_average, average. now rewrite np_sum_sum. Qed.
Lemma centred_eq : forall l, centred l = deviations l.
Proof. intros l. unfold centred, deviations. now rewrite np_average_eq. Qed.
Lemma sum_shift : forall l a, sum (map (fun x => x - a) l) = sum l - INR (List.length l) * a.
Proof. induction l as [|x l IH]; intros a; [cbn; ring|]. cbn [map sum fold_right List.length]. fold (sum (map (fun x => x - a) l)). fold (sum l). rewrite IH, S_INR. ring. Qed.
Lemma average_deviations : forall l, l <> [] -> average (deviations l) = 0.
Proof.
  intros l N. unfold deviations, average at 1. rewrite sum_shift, map_length. unfold average. field. apply not_0_INR. destruct l; [contradiction|discriminate].
Qed.
Lemma deviations_again : forall l, deviations (deviations l) = deviations l.
Proof.
  intros l. destruct (list_eq_dec Req_EM_T l []) as [->|N]; [reflexivity|]. unfold deviations at 1. rewrite (average_deviations l N). rewrite <- (map_id (deviations l)) at 2. apply map_ext. intros x. lra.
Qed.

Lemma histogram_ok : forall data n, data <> [] -> (1 <= n)%nat -> forall b, bins_given b n ->
  exists centres counts, get_histogram_points data b = Ok (centres, counts) /\ histogram (combine centres (map INR counts)) n data.
Proof.
  intros data n D N b B. destruct (C32_histogram data b n D N B) as [lo [hi [cs [ks [E [R [W [C [L [K T]]]]]]]]]]. exists cs, ks. split; [exact E|].
  exists lo, hi, ks. rewrite C. auto.
Qed.
Lemma bins_256 : bins_given 256 256.
Proof. unfold bins_given. rewrite INR_IZR_INZ. change (Z.of_nat 256) with 256%Z. lra. Qed.
Lemma combine_swap : forall (a b : list R), combine a b = swapped (combine b a).
Proof. induction a as [|x a IH]; intros [|y b]; try reflexivity. unfold swapped in *. cbn. f_equal. apply IH. Qed.
Lemma scaled_neq : forall c l, l <> [] -> scaled c l <> [].
Proof. intros c [|x l] H; [contradiction|discriminate]. Qed.
Lemma scaled_length : forall c l, List.length (scaled c l) = List.length l.
Proof. intros. apply map_length. Qed.

(** the page with a number that is not negative *)
Lemma entry_nth : forall (A : Type) (l : list A) k p, nth_error l k = Some p -> entry l (Z.of_nat k) = Ok p.
Proof.
  intros A l k p E. unfold entry. assert (k < List.length l)%nat by (apply nth_error_Some; congruence).
  destruct (Z.of_nat k <? 0)%Z eqn:C; [apply Z.ltb_lt in C; lia|]. destruct (0 <=? Z.of_nat k)%Z eqn:A'; [|apply Z.leb_gt in A'; lia].
  destruct (Z.of_nat k <? Z.of_nat (List.length l))%Z eqn:B; [|apply Z.ltb_ge in B; lia]. cbn [andb]. now rewrite Nat2Z.id, E.
Qed.
Lemma filter_nth : forall (A : Type) (g : A -> bool) (l : list A) k p, Forall (fun q => g q = true) (firstn (S k) l) -> nth_error l k = Some p -> nth_error (filter g l) k = Some p.
Proof.
  intros A g l. induction l as [|a l IH]; intros k p F E; [destruct k; discriminate|]. cbn [firstn] in F. inversion F as [|? ? G F']; subst. cbn [filter]. rewrite G. destruct k as [|k]; [exact E|]. cbn. apply IH; [exact F'|exact E].
Qed.
Lemma get_page_nth : forall f k p, nth_error (pages f) k = Some p -> Forall (fun q => (0 < row_count q)%nat) (firstn (S k) (pages f)) -> get_page f (Z.of_nat k) = Ok p.
Proof.
  intros f k p E F. unfold get_page. apply entry_nth. apply filter_nth; [|exact E]. revert F. apply Forall_impl. intros q Q. destruct (row_count q); [lia|reflexivity].
Qed.
Lemma get_params_nth : forall f k p, nth_error (pages f) k = Some p -> get_params f (Z.of_nat k) = Ok (params p).
Proof. intros f k p E. unfold get_params. now rewrite (entry_nth _ _ _ _ E). Qed.

Lemma current_ok : forall t q, t <> [] -> exists bins cur, get_current_from_t (centred t) q 256 = Ok (bins, map Some cur) /\
  current (combine bins cur) 256 (q / INR (List.length t)) (deviations t).
Proof.
  intros t q N. assert (C : centred t <> []) by (destruct t; [contradiction|discriminate]).
  destruct (C32_charge (centred t) q 256 256 C ltac:(lia) bins_256) as [lo [hi [cs [cur [ks [E [R [W [EC [L1 [L2 [K _]]]]]]]]]]]].
  rewrite centred_eq in *. change (map (fun x => x - average (deviations t)) (deviations t)) with (deviations (deviations t)) in *. rewrite deviations_again in *.
  exists cs, cur. split; [exact E|]. exists lo, hi, ks. split; [exact R|split; [exact L2|]].
  assert (LT : List.length (deviations t) = List.length t) by apply map_length. split.
  - rewrite EC. f_equal. apply (nth_ext _ _ 0 (q / INR (List.length t) * INR 0 / ((hi - lo) / INR 256))); [rewrite map_length; congruence|]. intros i I. rewrite L1 in I.
    rewrite (map_nth (fun c => q / INR (List.length t) * INR c / ((hi - lo) / INR 256)) ks 0%nat). destruct (K i I) as [_ ->]. now rewrite LT.
  - split; [intros i I; apply (K i I)|].
    destruct (C32_histogram (deviations t) 256 256) as [lo' [hi' [cs' [ks' [E' [R' [W' [EC' [L' [K' T']]]]]]]]]]; [exact C|lia|apply bins_256|].
    assert (X : lo' = lo /\ hi' = hi).
    { clear - R R' . destruct R as [[A1 [A2 [A3 A4]]]|[v [A1 [A2 [-> ->]]]]]; destruct R' as [[B1 [B2 [B3 B4]]]|[u [B1 [B2 [-> ->]]]]].
      - pose proof (A4 _ B2). pose proof (A4 _ B3). pose proof (B4 _ A2). pose proof (B4 _ A3). split; lra.
      - exfalso. pose proof (B2 _ A2). pose proof (B2 _ A3). lra.
      - exfalso. pose proof (A2 _ B2). pose proof (A2 _ B3). lra.
      - destruct (deviations t) as [|x l]; [contradiction|]. pose proof (A2 x (or_introl eq_refl)). pose proof (B2 x (or_introl eq_refl)). split; congruence. }
    destruct X as [-> ->]. rewrite <- T'. f_equal. apply (nth_ext _ _ 0%nat 0%nat); [congruence|]. intros i I. rewrite L2 in I. destruct (K i I) as [U _]. specialize (K' i I).
    clear - U K'. revert U K'. generalize (nth i ks 0%nat) as a. generalize (nth i ks' 0%nat) as b. intros b a U. revert b. induction U; intros b H'; inversion H'; subst; try contradiction; auto.
Qed.
Lemma finite_some : forall l, finite (map Some l) = Some l.
Proof. induction l as [|x l IH]; [reflexivity|]. cbn. now rewrite IH. Qed.

(** Histograms and currents do not depend on the origin, the units or the order of the data (property C130). *)
From Coq Require Import List Reals Lra Lia Psatz Bool Arith ZArith Permutation.
From Verif Require Import PyBase Sample_Model Plot_Model.
Import ListNotations.
Open Scope R_scope.

(** k times the data plus c *)
Definition moved (k c : R) (l : list R) : list R := map (fun x => k * x + c) l.
(** not all entries are the same *)
Definition spread_out (l : list R) : Prop := exists a b, In a l /\ In b l /\ a <> b.

Lemma fold_min_moved : forall k c l x, 0 < k -> fold_left Rmin (moved k c l) (k * x + c) = k * fold_left Rmin l x + c.
Proof.
  intros k c l. induction l as [|a l IH]; intros x K; [reflexivity|]. cbn [moved map fold_left]. fold (moved k c l).
  replace (Rmin (k * x + c) (k * a + c)) with (k * Rmin x a + c); [now apply IH|]. unfold Rmin. destruct (Rle_dec x a), (Rle_dec (k * x + c) (k * a + c)); nra.
Qed.
Lemma fold_max_moved : forall k c l x, 0 < k -> fold_left Rmax (moved k c l) (k * x + c) = k * fold_left Rmax l x + c.
Proof.
  intros k c l. induction l as [|a l IH]; intros x K; [reflexivity|]. cbn [moved map fold_left]. fold (moved k c l).
  replace (Rmax (k * x + c) (k * a + c)) with (k * Rmax x a + c); [now apply IH|]. unfold Rmax. destruct (Rle_dec x a), (Rle_dec (k * x + c) (k * a + c)); nra.
Qed.
Lemma fold_min_low : forall l x, fold_left Rmin l x <= x /\ forall a, In a l -> fold_left Rmin l x <= a.
Proof.
  induction l as [|b l IH]; intros x; cbn; [split; [lra|contradiction]|]. destruct (IH (Rmin x b)) as [I1 I2]. pose proof (Rmin_l x b). pose proof (Rmin_r x b).
  split; [lra|]. intros a [<-|H1]; [lra|auto].
Qed.
Lemma fold_max_high : forall l x, x <= fold_left Rmax l x /\ forall a, In a l -> a <= fold_left Rmax l x.
Proof.
  induction l as [|b l IH]; intros x; cbn; [split; [lra|contradiction]|]. destruct (IH (Rmax x b)) as [I1 I2]. pose proof (Rmax_l x b). pose proof (Rmax_r x b).
  split; [lra|]. intros a [<-|H1]; [lra|auto].
Qed.
Lemma spread_range : forall x l, spread_out (x :: l) -> np_min x l <> np_max x l.
Proof.
  intros x l (a & b & Ha & Hb & N) E. unfold np_min, np_max in E. destruct (fold_min_low l x) as [L1 L2]. destruct (fold_max_high l x) as [M1 M2].
  assert (G : forall z, In z (x :: l) -> z = fold_left Rmin l x).
  { intros z [<-|Hz]; [lra|]. pose proof (L2 z Hz). pose proof (M2 z Hz). lra. }
  apply N. now rewrite (G a Ha), (G b Hb).
Qed.

Lemma range_moved : forall k c l, 0 < k -> l <> [] -> (k = 1 \/ spread_out l) ->
  hist_range (moved k c l) = (k * fst (hist_range l) + c, k * snd (hist_range l) + c).
Proof.
  intros k c [|x l] K N S; [contradiction|]. cbn [moved map hist_range]. fold (moved k c l). unfold np_min, np_max. rewrite fold_min_moved, fold_max_moved by exact K.
  fold (np_min x l) (np_max x l). destruct (Req_EM_T (k * np_min x l + c) (k * np_max x l + c)) as [E|E]; destruct (Req_EM_T (np_min x l) (np_max x l)) as [F|F]; cbn [fst snd].
  - destruct S as [->|S]; [f_equal; ring|]. now apply spread_range in S.
  - exfalso. apply F. nra.
  - exfalso. apply E. now rewrite F.
  - reflexivity.
Qed.
Lemma linspace_moved : forall k c a b n, linspace (k * a + c) (k * b + c) n = moved k c (linspace a b n).
Proof.
  intros k c a b n. unfold linspace. destruct n as [|[|n]]; [reflexivity|reflexivity|]. unfold moved. rewrite map_map. apply map_ext. intros j. unfold Rdiv. ring.
Qed.
Lemma linspace_length : forall a b n, List.length (linspace a b n) = n.
Proof. intros a b n. unfold linspace. destruct n as [|[|n]]; [reflexivity|reflexivity|]. now rewrite map_length, seq_length. Qed.
Lemma nth_moved : forall k c l i, (i < List.length l)%nat -> nth i (moved k c l) 0 = k * nth i l 0 + c.
Proof.
  intros k c l i H. unfold moved. rewrite (nth_indep _ 0 (k * 0 + c)) by (now rewrite map_length). apply (map_nth (fun x => k * x + c)).
Qed.
Lemma count_moved : forall k c edges n i l, 0 < k -> List.length edges = S n -> (i < n)%nat ->
  bin_count (moved k c edges) n i (moved k c l) = bin_count edges n i l.
Proof.
  intros k c edges n i l K L H. unfold bin_count. rewrite !nth_moved by lia. set (a := nth i edges 0). set (b := nth (S i) edges 0).
  induction l as [|x l IH]; [reflexivity|]. cbn [moved map filter]. fold (moved k c l).
  assert (G : forall (p q : R) (T : Type) (u v : T), (if Rle_dec (k * p + c) (k * q + c) then u else v) = (if Rle_dec p q then u else v))
    by (intros; destruct (Rle_dec (k * p + c) (k * q + c)), (Rle_dec p q); (reflexivity || nra)).
  assert (G' : forall (p q : R) (T : Type) (u v : T), (if Rlt_dec (k * p + c) (k * q + c) then u else v) = (if Rlt_dec p q then u else v))
    by (intros; destruct (Rlt_dec (k * p + c) (k * q + c)), (Rlt_dec p q); (reflexivity || nra)).
  rewrite !G, G'. destruct (if Rle_dec a x then _ else _); cbn [List.length]; now rewrite IH.
Qed.
Lemma histogram_moved : forall k c l bins, 0 < k -> l <> [] -> (k = 1 \/ spread_out l) ->
  np_histogram (moved k c l) bins = match np_histogram l bins with Ok (n, e) => Ok (n, moved k c e) | Err e => Err e | Diverges => Diverges end.
Proof.
  intros k c l bins K N S. unfold np_histogram. destruct (bins <? 1)%Z; [reflexivity|]. rewrite (range_moved k c l K N S).
  destruct (hist_range l) as [lo hi]. cbn [fst snd]. rewrite linspace_moved. f_equal. f_equal. apply map_ext_in. intros i Hi. apply in_seq in Hi.
  apply count_moved; [exact K|apply linspace_length|lia].
Qed.
Lemma centres_moved : forall k c e, central_bins (moved k c e) = moved k c (central_bins e).
Proof.
  intros k c e. assert (L : List.length (moved k c e) = List.length e) by apply map_length. unfold central_bins. rewrite L.
  change (moved k c (map (fun i => (nth (S i) e 0 + nth i e 0) / 2) (seq 0 (List.length e - 1))))
    with (map (fun x => k * x + c) (map (fun i => (nth (S i) e 0 + nth i e 0) / 2) (seq 0 (List.length e - 1)))). rewrite map_map. apply map_ext_in. intros i Hi. apply in_seq in Hi.
  rewrite !nth_moved by lia. field.
Qed.

(** A histogram of data in other units or from another origin: the same counts, the positions likewise. *)
Theorem C130_points : forall k c l n, 0 < k -> l <> [] -> (k = 1 \/ spread_out l) ->
  get_histogram_points (moved k c l) n =
  match get_histogram_points l n with Ok (x, counts) => Ok (moved k c x, counts) | Err e => Err e | Diverges => Diverges end.
Proof.
  intros k c l n K N S. unfold get_histogram_points. rewrite (histogram_moved k c l _ K N S). destruct (np_histogram l (py_int n)) as [[cs e]| |]; cbn; [|reflexivity|reflexivity].
  now rewrite centres_moved.
Qed.
Print Assumptions C130_points.

Lemma np_sum_moved : forall k c l, np_sum (moved k c l) = k * np_sum l + INR (List.length l) * c.
Proof.
  intros k c l. induction l as [|x l IH]; [cbn; ring|]. cbn [moved map np_sum]. fold (moved k c l). rewrite IH. cbn [List.length]. rewrite S_INR. ring.
Qed.
Lemma centred_moved : forall k c l, map (fun t => t - np_average (moved k c l)) (moved k c l) = moved k 0 (map (fun t => t - np_average l) l).
Proof.
  intros k c l. destruct l as [|x l]; [reflexivity|]. set (m := x :: l). unfold moved at 2 3. rewrite !map_map. apply map_ext. intros t.
  unfold np_average. rewrite np_sum_moved. unfold moved. rewrite map_length. assert (INR (List.length m) <> 0) by (apply not_0_INR; discriminate). field. exact H.
Qed.
Lemma pdiv_length : forall q k c (l : list R), pdiv q (INR (List.length (moved k c l))) = pdiv q (INR (List.length l)).
Proof. intros. unfold moved. now rewrite map_length. Qed.

(** The current does not depend on when the bunch arrives. *)
Theorem C130_arrival : forall l c q n, get_current_from_t (moved 1 c l) q n = get_current_from_t l q n.
Proof.
  intros l c q n. unfold get_current_from_t. rewrite pdiv_length, centred_moved.
  replace (moved 1 0 (map (fun t => t - np_average l) l)) with (map (fun t => t - np_average l) l); [reflexivity|].
  unfold moved. rewrite map_map. apply map_ext. intros t. ring.
Qed.
Print Assumptions C130_arrival.

(** k times the charge, k times the current. *)
Theorem C130_charge : forall l k q n,
  get_current_from_t l (k * q) n =
  match get_current_from_t l q n with Ok (t, i) => Ok (t, map (fmap1 (Rmult k)) i) | Err e => Err e | Diverges => Diverges end.
Proof.
  intros l k q n. unfold get_current_from_t, pdiv. destruct (Req_EM_T (INR (List.length l)) 0) as [E|E]; [reflexivity|]. cbn [rbind].
  destruct (np_histogram _ (py_int n)) as [[cs e]| |]; cbn; [|reflexivity|reflexivity]. do 2 f_equal. rewrite map_map. apply map_ext. intros j. unfold ndiv.
  destruct (Req_EM_T (nth 1 e 0 - nth 0 e 0) 0); [reflexivity|]. cbn [fmap1]. f_equal. field. split; assumption.
Qed.
Print Assumptions C130_charge.

Lemma spread_centred : forall l a, spread_out l -> spread_out (map (fun t => t - a) l).
Proof.
  intros l a (x & y & Hx & Hy & N). exists (x - a), (y - a). split; [now apply (in_map (fun t => t - a))|]. split; [now apply (in_map (fun t => t - a))|]. lra.
Qed.
(** A bunch k times as long has a k-th of the current. *)
Theorem C130_stretch_partial : forall l k c q n, 0 < k -> spread_out l ->
  get_current_from_t (moved k c l) q n =
  match get_current_from_t l q n with Ok (t, i) => Ok (map (Rmult k) t, map (fmap1 (fun x => x / k)) i) | Err e => Err e | Diverges => Diverges end.
Proof.
  intros l k c q n K SO. unfold get_current_from_t. rewrite pdiv_length, centred_moved.
  assert (N : map (fun t => t - np_average l) l <> []) by (destruct SO as (a & _ & Ha & _); destruct l; [contradiction|discriminate]).
  rewrite (histogram_moved k 0 _ _ K N) by (right; now apply spread_centred).
  destruct (pdiv q _) as [p| |]; cbn [rbind]; [|reflexivity|reflexivity]. unfold np_histogram.
  destruct (py_int n <? 1)%Z eqn:B; [reflexivity|]. destruct (hist_range (map (fun t => t - np_average l) l)) as [lo hi].
  apply Z.ltb_ge in B. cbn [rbind]. rewrite centres_moved. set (e := linspace lo hi (S (Z.to_nat (py_int n)))).
  assert (L : (2 <= List.length e)%nat) by (unfold e; rewrite linspace_length; lia). rewrite !nth_moved by lia. do 2 f_equal.
  - unfold moved. apply map_ext. intros x. ring.
  - rewrite !map_map. apply map_ext. intros j. unfold ndiv.
    destruct (Req_EM_T (k * nth 1 e 0 + 0 - (k * nth 0 e 0 + 0)) 0) as [E|E]; destruct (Req_EM_T (nth 1 e 0 - nth 0 e 0) 0) as [F|F]; cbn [fmap1]; try reflexivity.
    + exfalso. apply F. nra.
    + exfalso. apply E. nra.
    + f_equal. field. repeat split; lra.
Qed.
Print Assumptions C130_stretch_partial.

(** When all particles arrive at once the result stays as it is, whatever the unit of time. *)
Lemma average_same : forall t m, np_average (repeat t (S m)) = t.
Proof.
  intros t m. unfold np_average. rewrite repeat_length. assert (E : forall j, np_sum (repeat t j) = INR j * t).
  { induction j as [|j IH]; [cbn; ring|]. cbn [repeat np_sum]. rewrite IH, S_INR. ring. }
  rewrite E. field. apply not_0_INR. discriminate.
Qed.
Theorem C130_stretch_refuted : forall t m k q n, get_current_from_t (moved k 0 (repeat t m)) q n = get_current_from_t (repeat t m) q n.
Proof.
  intros t [|m] k q n; [reflexivity|]. unfold get_current_from_t. rewrite pdiv_length, centred_moved.
  replace (moved k 0 (map (fun t0 => t0 - np_average (repeat t (S m))) (repeat t (S m)))) with (map (fun t0 => t0 - np_average (repeat t (S m))) (repeat t (S m))); [reflexivity|].
  unfold moved. rewrite map_map. apply map_ext_in. intros x Hx. apply repeat_spec in Hx. subst x. rewrite average_same. ring.
Qed.
Print Assumptions C130_stretch_refuted.

(** ---------- order of the particles ---------- *)
Lemma fold_min_perm : forall l m, Permutation l m -> forall x, fold_left Rmin l x = fold_left Rmin m x.
Proof.
  intros l m P. induction P; intros z; cbn; [reflexivity|apply IHP| |now rewrite IHP1].
  f_equal. rewrite <- !Rmin_assoc. f_equal. apply Rmin_comm.
Qed.
Lemma fold_max_perm : forall l m, Permutation l m -> forall x, fold_left Rmax l x = fold_left Rmax m x.
Proof.
  intros l m P. induction P; intros z; cbn; [reflexivity|apply IHP| |now rewrite IHP1].
  f_equal. rewrite <- !Rmax_assoc. f_equal. apply Rmax_comm.
Qed.
Lemma min_head : forall x l, np_min x l = fold_left Rmin (x :: l) x.
Proof. intros. unfold np_min. cbn. now rewrite Rmin_left by lra. Qed.
Lemma max_head : forall x l, np_max x l = fold_left Rmax (x :: l) x.
Proof. intros. unfold np_max. cbn. now rewrite Rmax_left by lra. Qed.
Lemma fold_min_start : forall l x y, In x l -> In y l -> fold_left Rmin l x = fold_left Rmin l y.
Proof.
  intros l x y Hx Hy. assert (G : forall l z w, fold_left Rmin l (Rmin z w) = Rmin w (fold_left Rmin l z)).
  { induction l0 as [|a l0 IH]; intros z w; cbn; [apply Rmin_comm|]. rewrite <- IH. f_equal. rewrite <- !Rmin_assoc. f_equal. apply Rmin_comm. }
  destruct (fold_min_low l x) as [_ A]. destruct (fold_min_low l y) as [_ B]. specialize (A y Hy). specialize (B x Hx).
  pose proof (G l x y) as E1. pose proof (G l y x) as E2. rewrite Rmin_comm in E2. rewrite E1 in E2.
  rewrite (Rmin_right y), (Rmin_right x) in E2 by assumption. exact E2.
Qed.
Lemma fold_max_start : forall l x y, In x l -> In y l -> fold_left Rmax l x = fold_left Rmax l y.
Proof.
  intros l x y Hx Hy. assert (G : forall l z w, fold_left Rmax l (Rmax z w) = Rmax w (fold_left Rmax l z)).
  { induction l0 as [|a l0 IH]; intros z w; cbn; [apply Rmax_comm|]. rewrite <- IH. f_equal. rewrite <- !Rmax_assoc. f_equal. apply Rmax_comm. }
  destruct (fold_max_high l x) as [_ A]. destruct (fold_max_high l y) as [_ B]. specialize (A y Hy). specialize (B x Hx).
  pose proof (G l x y) as E1. pose proof (G l y x) as E2. rewrite Rmax_comm in E2. rewrite E1 in E2.
  rewrite (Rmax_right y), (Rmax_right x) in E2 by assumption. exact E2.
Qed.
Lemma range_perm : forall l m, Permutation l m -> hist_range l = hist_range m.
Proof.
  intros [|x l] [|y m] P; [reflexivity|apply Permutation_nil in P; discriminate|apply Permutation_sym, Permutation_nil in P; discriminate|].
  cbn [hist_range]. assert (Hy : In y (x :: l)) by (eapply Permutation_in; [apply Permutation_sym; exact P|now left]).
  assert (E1 : np_min x l = np_min y m). { rewrite !min_head, <- (fold_min_perm _ _ P y). apply fold_min_start; [now left|exact Hy]. }
  assert (E2 : np_max x l = np_max y m). { rewrite !max_head, <- (fold_max_perm _ _ P y). apply fold_max_start; [now left|exact Hy]. }
  now rewrite E1, E2.
Qed.
Lemma count_perm : forall e n i l m, Permutation l m -> bin_count e n i l = bin_count e n i m.
Proof.
  intros e n i l m P. unfold bin_count. match goal with |- context [filter ?g _] => set (f := g) end. clearbody f.
  induction P; cbn; [reflexivity|destruct (f x); cbn; congruence|destruct (f x), (f y); reflexivity|congruence].
Qed.
Lemma histogram_perm : forall l m bins, Permutation l m -> np_histogram l bins = np_histogram m bins.
Proof.
  intros l m bins P. unfold np_histogram. rewrite (range_perm l m P). destruct (bins <? 1)%Z; [reflexivity|]. destruct (hist_range m) as [lo hi].
  f_equal. f_equal. apply map_ext. intros i. now apply count_perm.
Qed.
Lemma sum_perm : forall l m, Permutation l m -> np_sum l = np_sum m.
Proof. intros l m P. induction P; cbn; lra. Qed.

Theorem C130_order : forall l m q n, Permutation l m ->
  get_histogram_points l n = get_histogram_points m n /\ get_current_from_t l q n = get_current_from_t m q n.
Proof.
  intros l m q n P. split.
  - unfold get_histogram_points. now rewrite (histogram_perm l m _ P).
  - unfold get_current_from_t. rewrite (Permutation_length P). assert (A : np_average l = np_average m) by (unfold np_average; now rewrite (sum_perm l m P), (Permutation_length P)).
    rewrite A. now rewrite (histogram_perm _ _ (py_int n) (Permutation_map (fun t => t - np_average m) P)).
Qed.
Print Assumptions C130_order.

(** Three particles meet the hypotheses. *)
Example C130_applies : spread_out [1; 2; 4] /\ moved 2 1 [1; 2; 4] = [3; 5; 9] /\ Permutation [1; 2; 4] [4; 1; 2] /\
  exists t i, get_current_from_t [1; 2; 4] 3 2 = Ok (t, i).
Proof.
  split; [exists 1, 2; cbn; repeat split; [auto|auto|lra]|]. split; [cbn; f_equal; [ring|f_equal; [ring|f_equal; ring]]|].
  split; [apply Permutation_sym; apply (Permutation_cons_append [1; 2] 4)|].
  unfold get_current_from_t, pdiv. destruct (Req_EM_T (INR (List.length [1; 2; 4])) 0) as [E|E]; [cbn in E; lra|]. cbn [rbind]. unfold np_histogram.
  assert (Q : py_int 2 = 2%Z). { unfold py_int. destruct (Rlt_dec 2 0); [lra|]. unfold Int_part. replace (up 2) with 3%Z; [reflexivity|]. apply tech_up; lra. }
  rewrite Q. cbn [Z.ltb Z.compare Pos.compare Pos.compare_cont]. destruct (hist_range _) as [lo hi]. cbn [rbind]. eexists. eexists. reflexivity.
Qed.

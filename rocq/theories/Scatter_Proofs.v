(** Lemmas about phase space objects, scatter plots and contour levels. *)
From Coq Require Import List Reals Bool Arith String Ascii ZArith Lia Lra.
From Verif Require Import PyBase PyDict Sample_Model Stats_Model Plot_Model Plot_Spec Plot_Proofs Plot_Props Beam_Model Beam_Spec Beam_Proofs Scatter_Model Scatter_Spec.
Import ListNotations.
Open Scope R_scope.

(* ------------------------------------------------------------------ *)
Lemma limits_ok : forall l, l <> [] -> exists lo hi, limits l = Ok (lo, hi) /\ symmetric_range lo hi l.
Proof.
  intros [|x r] N; [contradiction|]. unfold limits. destruct (np_min_spec r x) as [IL ML]. destruct (np_max_spec r x) as [IH MH].
  pose proof (ML _ IH) as LE. destruct (Rlt_dec (np_max x r) (- np_min x r)) as [C|C]; eexists; eexists; (split; [reflexivity|]).
  - assert (np_min x r < 0) by lra. split; [rewrite Rabs_left by lra; ring|]. intros y Y. specialize (ML y Y). specialize (MH y Y). rewrite Rabs_left by lra. lra.
  - split; [reflexivity|]. intros y Y. specialize (ML y Y). specialize (MH y Y). lra.
Qed.

Lemma prefix_short : forall n s, (String.length s <= n)%nat -> prefix_of n s = s.
Proof. induction n as [|n IH]; intros [|c s] H; cbn in *; try reflexivity; [lia|]. f_equal. apply IH. lia. Qed.
Lemma set_nth_length : forall (A : Type) (l : list A) n x, List.length (set_nth l n x) = List.length l.
Proof. intros A l. induction l as [|a l IH]; intros [|n] x; cbn; auto. Qed.
Lemma set_nth_same : forall (A : Type) (l : list A) n x, (n < List.length l)%nat -> nth_error (set_nth l n x) n = Some x.
Proof. intros A l. induction l as [|a l IH]; intros [|n] x H; cbn in *; try lia; [reflexivity|]. apply IH. lia. Qed.
Lemma set_nth_other : forall (A : Type) (l : list A) n k x, n <> k -> nth_error (set_nth l n x) k = nth_error l k.
Proof. intros A l. induction l as [|a l IH]; intros [|n] [|k] x H; cbn; try reflexivity; try congruence. apply IH. congruence. Qed.

(* ------------------------------------------------------------------ *)
Lemma rfloor_bounds : forall x, IZR (rfloor x) <= x < IZR (rfloor x) + 1.
Proof. intros x. unfold rfloor. rewrite minus_IZR. destruct (archimed x). lra. Qed.
Lemma round_near : forall x, Rabs (IZR (round_half_even x) - x) <= / 2.
Proof.
  intros x. unfold round_half_even. pose proof (rfloor_bounds x). destruct (Rlt_dec _ _); [apply Rabs_le; lra|]. destruct (Rlt_dec _ _); [rewrite plus_IZR; apply Rabs_le; lra|].
  destruct (Z.even _); [|rewrite plus_IZR]; apply Rabs_le; lra.
Qed.
Lemma py_round_3 : forall x, three_decimals x (py_round x 3).
Proof.
  intros x. unfold py_round. assert (P : powerRZ 10 3 = 1000) by (unfold powerRZ; change (Pos.to_nat 3) with 3%nat; cbn [pow]; lra). rewrite P. split; [eexists; reflexivity|].
  pose proof (round_near (x * 1000)) as H. replace (IZR (round_half_even (x * 1000)) / 1000 - x) with ((IZR (round_half_even (x * 1000)) - x * 1000) * / 1000) by field.
  rewrite Rabs_mult, (Rabs_right (/ 1000)) by lra. lra.
Qed.

(** the peak of a field, from its extremes *)
Lemma peak_extremes : forall x r, peak (x :: r) (Rmax (Rabs (np_max x r)) (Rabs (np_min x r))).
Proof.
  intros x r. destruct (np_min_spec r x) as [IL ML]. destruct (np_max_spec r x) as [IH MH]. split.
  - unfold Rmax. destruct (Rle_dec _ _); eauto.
  - intros y Y. specialize (ML y Y). specialize (MH y Y). unfold Rmax. destruct (Rle_dec _ _); unfold Rabs in *; repeat destruct (Rcase_abs _); lra.
Qed.
Lemma peak_unique : forall l a b, peak l a -> peak l b -> a = b.
Proof. intros l a b [[x [I E]] A] [[y [J F]] B]. specialize (A y J). specialize (B x I). lra. Qed.

(* ------------------------------------------------------------------ *)
Lemma hist_max_le : forall h b, (forall row c, In row h -> In c row -> (c <= b)%nat) -> (hist_max h <= b)%nat.
Proof.
  intros h b H. unfold hist_max. assert (F : forall c, In c (List.concat h) -> (c <= b)%nat) by (intros c I; apply in_concat in I; destruct I as [r [R I]]; eauto).
  clear H. induction (List.concat h) as [|c l IH]; cbn; [lia|]. apply Nat.max_lub; [apply F; now left|apply IH; intros; apply F; now right].
Qed.
Lemma hist_max_ge : forall h row c, In row h -> In c row -> (c <= hist_max h)%nat.
Proof.
  intros h row c R C. unfold hist_max. assert (I : In c (List.concat h)) by (apply in_concat; eauto). clear R C.
  induction (List.concat h) as [|d l IH]; [destruct I|]. cbn. destruct I as [->|I]; [lia|]. specialize (IH I). lia.
Qed.
Lemma list_sum_le : forall l b, (forall c, In c l -> (c <= b)%nat) -> (list_sum l <= List.length l * b)%nat.
Proof. induction l as [|c l IH]; intros b H; [cbn; lia|]. cbn [list_sum fold_right List.length]. fold (list_sum l). specialize (IH b (fun d D => H d (or_intror D))). specialize (H c (or_introl eq_refl)). cbn. lia. Qed.

(** the histogram and its image *)
Lemma histogram_image : forall xs ys bins, List.length xs = List.length ys -> xs <> [] -> (1 <= bins)%Z ->
  exists h ex ey im, histogram2d xs ys bins = Ok (h, ex, ey) /\ density xs ys bins = Ok im /\ rows im = transpose (Z.to_nat bins) h /\
    shows (rows im) (left im) (right im) (bottom im) (top im) (Z.to_nat bins) (combine xs ys) /\ List.length h = Z.to_nat bins /\ Forall (fun r => List.length r = Z.to_nat bins) h.
Proof.
  intros xs ys bins L N B. destruct (density_ok xs ys bins L N B) as [im [E S]].
  unfold density in E. destruct (histogram2d xs ys bins) as [[[h ex] ey]| |] eqn:H; try discriminate. exists h, ex, ey, im. split; [reflexivity|]. cbn [rbind] in E.
  split; [unfold density; rewrite H; exact E|]. injection E as <-. cbn [rows]. split; [reflexivity|]. split; [exact S|].
  unfold histogram2d in H. destruct (negb _); [discriminate|]. destruct (bins <? 1)%Z; [discriminate|]. injection H as <- _ _. split; [now rewrite map_length, seq_length|].
  apply Forall_forall. intros r R. apply in_map_iff in R. destruct R as [i [<- _]]. now rewrite map_length, seq_length.
Qed.
Lemma in_transpose : forall n h row c, List.length h = n -> Forall (fun r => List.length r = n) h -> In row (transpose n h) -> In c row -> exists r, In r h /\ In c r.
Proof.
  intros n h row c L F R C. unfold transpose in R. apply in_map_iff in R. destruct R as [j [<- J]]. apply in_seq in J. apply in_map_iff in C. destruct C as [r [<- R]]. exists r. split; [exact R|].
  apply nth_In. rewrite Forall_forall in F. rewrite (F r R). lia.
Qed.
Lemma transpose_in : forall n h r c, List.length h = n -> Forall (fun r => List.length r = n) h -> In r h -> In c r -> exists row, In row (transpose n h) /\ In c row.
Proof.
  intros n h r c L F R C. rewrite Forall_forall in F. pose proof (F r R) as LR. destruct (In_nth r c 0%nat C) as [j [J E]]. exists (map (fun row => nth j row 0%nat) h). split.
  - unfold transpose. apply in_map_iff. exists j. split; [reflexivity|apply in_seq; lia].
  - apply in_map_iff. eauto.
Qed.
Lemma list_sum_in : forall l c, In c l -> (c <= list_sum l)%nat.
Proof. induction l as [|d l IH]; intros c []; cbn [list_sum fold_right]; fold (list_sum l); [subst; lia|]. specialize (IH c H). lia. Qed.

Lemma max_bounds : forall xs ys bins h ex ey, List.length xs = List.length ys -> xs <> [] -> (1 <= bins)%Z -> histogram2d xs ys bins = Ok (h, ex, ey) ->
  (hist_max h <= List.length xs)%nat /\ (List.length xs <= Z.to_nat bins * Z.to_nat bins * hist_max h)%nat.
Proof.
  intros xs ys bins h ex ey L N B E. destruct (histogram_image xs ys bins L N B) as [h' [ex' [ey' [im [E' [_ [RI [SH [LH FH]]]]]]]]]. rewrite E in E'. injection E' as <- <- <-.
  destruct SH as [_ [_ [LR [FR [_ TO]]]]]. rewrite combine_length, <- L, Nat.min_id in TO. set (n := Z.to_nat bins) in *. split.
  - apply hist_max_le. intros r c R C. destruct (transpose_in n h r c LH FH R C) as [row [RR CC]]. rewrite <- RI in RR. rewrite <- TO.
    transitivity (list_sum row); [now apply list_sum_in|]. apply list_sum_in. now apply in_map.
  - rewrite <- TO. transitivity (List.length (map (@list_sum) (rows im)) * (n * hist_max h))%nat.
    + apply list_sum_le. intros c C. apply in_map_iff in C. destruct C as [row [<- R]]. rewrite Forall_forall in FR. rewrite <- (FR row R). apply list_sum_le. intros c C.
      rewrite RI in R. destruct (in_transpose n h row c LH FH R C) as [r [R' C']]. now apply (hist_max_ge h r c).
    + rewrite map_length, LR. lia.
Qed.

Lemma increasing_linspace : forall a b n, a < b -> (2 <= n)%nat -> increasing (linspace a b n) = true /\ exists x y r, linspace a b n = x :: y :: r.
Proof.
  intros a b n AB N. destruct n as [|[|m]]; [lia|lia|]. unfold linspace.
  assert (W : 0 < (b - a) / INR (S (S m) - 1)) by (apply Rdiv_lt_0_compat; [lra|apply lt_0_INR; lia]). set (w := (b - a) / INR (S (S m) - 1)) in *. split.
  - assert (G : forall k s, increasing (map (fun k => a + INR k * w) (seq s k)) = true).
    { induction k as [|[|k] IH]; intros s; [reflexivity|reflexivity|]. specialize (IH (S s)). cbn [seq map] in *. change (increasing (?x :: ?y :: ?r)) with ((if Rlt_dec x y then true else false) && increasing (y :: r)).
      rewrite IH, andb_true_r. destruct (Rlt_dec _ _) as [|Q]; [reflexivity|]. exfalso. apply Q. rewrite S_INR. lra. }
    apply G.
  - cbn [seq map]. eauto.
Qed.
Lemma linspace_not_increasing : forall a b n, b <= a -> (2 <= n)%nat -> increasing (linspace a b n) = false.
Proof.
  intros a b n AB N. destruct n as [|[|m]]; [lia|lia|]. unfold linspace. cbn [seq map]. cbn [increasing]. destruct (Rlt_dec _ _) as [Q|]; [|reflexivity]. exfalso.
  assert (W : (b - a) / INR (S (S m) - 1) <= 0) by (unfold Rdiv; assert (0 < / INR (S (S m) - 1)) by (apply Rinv_0_lt_compat, lt_0_INR; lia); nra). cbn [INR] in Q. lra.
Qed.
Lemma kept_filter : forall (A : Type) (f : A -> bool) (P : A -> Prop) l, (forall x, f x = true <-> P x) -> kept P l (filter f l).
Proof.
  intros A f P l H. induction l as [|x l IH]; cbn; [constructor|]. destruct (f x) eqn:E; [apply k_yes; [now apply H|exact IH]|apply k_no; [|exact IH]]. intros X. apply H in X. congruence.
Qed.

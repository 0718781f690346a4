From Coq Require Import List Reals Bool Arith String Ascii ZArith Lia Lra.
From Verif Require Import PyBase PyDict Sample_Model Sample_Proofs Plot_Model Plot_Spec.
Import ListNotations.
Open Scope R_scope.

(* ---------------- histogram ---------------- *)
Definition edge (lo hi : R) (n k : nat) : R := lo + INR k * ((hi - lo) / INR n).

Lemma edges_nth : forall lo hi n k, (0 < n)%nat -> (k <= n)%nat ->
  nth k (linspace lo hi (S n)) 0 = edge lo hi n k.
Proof.
  intros lo hi n k Hn Hk. unfold linspace.
  destruct n as [|n]; [lia|].
  erewrite nth_indep by (rewrite map_length, seq_length; lia).
  rewrite (map_nth (fun k0 => lo + INR k0 * ((hi - lo) / INR (S (S n) - 1)))).
  rewrite seq_nth by lia. reflexivity.
  Unshelve. exact 0%nat.
Qed.

Lemma edges_len : forall lo hi n, List.length (linspace lo hi (S n)) = S n.
Proof. intros. apply Sample_Proofs.linspace_len. Qed.

Definition in_bin_b (e : nat -> R) (n i : nat) (x : R) : bool :=
  if Rle_dec (e i) x then
    if Rlt_dec x (e (S i)) then true
    else if (S i =? n)%nat then (if Rle_dec x (e (S i)) then true else false) else false
  else false.

Definition b2n (b : bool) : nat := if b then 1%nat else 0%nat.

Lemma half_open : forall (e : nat -> R) n k x, (forall i, (i < n)%nat -> e i < e (S i)) -> (k < n)%nat -> e 0%nat <= x ->
  list_sum (map (fun i => b2n (in_bin_b e n i x)) (seq 0 k)) = b2n (if Rlt_dec x (e k) then true else false).
Proof.
  intros e n k x M Hk H0. induction k as [|k IH].
  - cbn. destruct (Rlt_dec x (e 0%nat)); [lra|reflexivity].
  - rewrite seq_S, map_app, list_sum_app, IH by lia. cbn [map list_sum plus].
    unfold list_sum; cbn [fold_right]. rewrite Nat.add_0_r.
    unfold in_bin_b. pose proof (M k ltac:(lia)).
    destruct (S k =? n)%nat eqn:E; [apply Nat.eqb_eq in E; lia|].
    destruct (Rlt_dec x (e k)), (Rle_dec (e k) x), (Rlt_dec x (e (S k))); cbn; try lra; reflexivity.
Qed.

Lemma one_bin : forall (e : nat -> R) n x, (0 < n)%nat -> (forall i, (i < n)%nat -> e i < e (S i)) -> e 0%nat <= x <= e n ->
  list_sum (map (fun i => b2n (in_bin_b e n i x)) (seq 0 n)) = 1%nat.
Proof.
  intros e n x Hn M [H0 H1]. destruct n as [|m]; [lia|].
  rewrite seq_S, map_app, list_sum_app, (half_open e (S m) m x M) by (try lia; lra).
  unfold list_sum; cbn [map fold_right plus]. unfold in_bin_b. rewrite Nat.eqb_refl.
  pose proof (M m ltac:(lia)).
  destruct (Rlt_dec x (e m)), (Rle_dec (e m) x), (Rlt_dec x (e (S m))), (Rle_dec x (e (S m))); cbn; try lra; reflexivity.
Qed.

Lemma list_sum_plus : forall {A} (f g : A -> nat) l,
  list_sum (map (fun i => (f i + g i)%nat) l) = (list_sum (map f l) + list_sum (map g l))%nat.
Proof. induction l as [|a l IH]; cbn; [reflexivity|]. unfold list_sum in *. cbn. rewrite IH. lia. Qed.

Lemma counts_total : forall (e : nat -> R) n data, (0 < n)%nat -> (forall i, (i < n)%nat -> e i < e (S i)) ->
  (forall x, In x data -> e 0%nat <= x <= e n) ->
  list_sum (map (fun i => List.length (filter (in_bin_b e n i) data)) (seq 0 n)) = List.length data.
Proof.
  intros e n data Hn M. induction data as [|x l IH]; intros H.
  - cbn. clear. induction (seq 0 n) as [|a l IH]; cbn; [reflexivity|exact IH].
  - rewrite (map_ext _ (fun i => (b2n (in_bin_b e n i x) + List.length (filter (in_bin_b e n i) l))%nat)).
    2:{ intros i. cbn. destruct (in_bin_b e n i x); reflexivity. }
    rewrite list_sum_plus, one_bin by (auto; apply H; left; reflexivity).
    rewrite IH by (intros; apply H; right; assumption). reflexivity.
Qed.

Lemma bin_count_eq : forall lo hi n i data, (0 < n)%nat -> (i < n)%nat ->
  bin_count (linspace lo hi (S n)) n i data = List.length (filter (in_bin_b (edge lo hi n) n i) data).
Proof.
  intros lo hi n i data Hn Hi. unfold bin_count, in_bin_b.
  rewrite !edges_nth by lia. reflexivity.
Qed.

Lemma edge_mono : forall lo hi n i, lo < hi -> (i < n)%nat -> edge lo hi n i < edge lo hi n (S i).
Proof.
  intros. unfold edge. rewrite S_INR.
  assert (0 < (hi - lo) / INR n) by (apply Rdiv_lt_0_compat; [lra|apply lt_0_INR; lia]). nra.
Qed.

Lemma edge_0 : forall lo hi n, edge lo hi n 0 = lo.
Proof. intros. unfold edge. cbn. ring. Qed.
Lemma edge_n : forall lo hi n, (0 < n)%nat -> edge lo hi n n = hi.
Proof. intros. unfold edge. field. apply not_0_INR; lia. Qed.

Lemma np_min_spec : forall l x, In (np_min x l) (x :: l) /\ (forall y, In y (x :: l) -> np_min x l <= y).
Proof.
  unfold np_min. induction l as [|a l IH]; intros x; cbn [fold_left].
  - split; [left; reflexivity|]. intros y [->|[]]; lra.
  - destruct (IH (Rmin x a)) as [I M]. split.
    + destruct I as [I|I]; [|right; right; exact I].
      rewrite <- I. unfold Rmin. destruct (Rle_dec x a); [left|right; left]; reflexivity.
    + pose proof (M (Rmin x a) (or_introl eq_refl)).
      intros y [->|[->|Hy]].
      * pose proof (Rmin_l y a); lra.
      * pose proof (Rmin_r x y); lra.
      * apply M; right; exact Hy.
Qed.

Lemma np_max_spec : forall l x, In (np_max x l) (x :: l) /\ (forall y, In y (x :: l) -> y <= np_max x l).
Proof.
  unfold np_max. induction l as [|a l IH]; intros x; cbn [fold_left].
  - split; [left; reflexivity|]. intros y [->|[]]; lra.
  - destruct (IH (Rmax x a)) as [I M]. split.
    + destruct I as [I|I]; [|right; right; exact I].
      rewrite <- I. unfold Rmax. destruct (Rle_dec x a); [right; left|left]; reflexivity.
    + pose proof (M (Rmax x a) (or_introl eq_refl)).
      intros y [->|[->|Hy]].
      * pose proof (Rmax_l y a); lra.
      * pose proof (Rmax_r x y); lra.
      * apply M; right; exact Hy.
Qed.

Lemma hist_range_spec : forall data, data <> [] ->
  data_range data (fst (hist_range data)) (snd (hist_range data)).
Proof.
  intros [|x l] H; [congruence|]. clear H. cbn.
  destruct (np_min_spec l x) as [I1 M1], (np_max_spec l x) as [I2 M2].
  destruct (Req_EM_T (np_min x l) (np_max x l)) as [E|E]; cbn.
  - right. exists (np_min x l). split; [discriminate|]. split.
    + intros y Hy. pose proof (M1 y Hy). pose proof (M2 y Hy). lra.
    + split; [reflexivity|]. rewrite E; reflexivity.
  - left. pose proof (M1 _ I2). split; [lra|]. split; [exact I1|]. split; [exact I2|].
    intros y Hy. split; [apply M1|apply M2]; exact Hy.
Qed.

Lemma data_range_in : forall l lo hi, data_range l lo hi -> lo < hi /\ forall x, In x l -> lo <= x <= hi.
Proof.
  intros l lo hi [(H & _ & _ & M)|(v & _ & E & -> & ->)]; split; auto; [lra|].
  intros x Hx. rewrite (E x Hx). lra.
Qed.

Lemma in_bin_b_spec : forall lo hi n i x, (0 < n)%nat ->
  in_bin_b (edge lo hi n) n i x = true <-> in_bin lo ((hi - lo) / INR n) n i x.
Proof.
  intros lo hi n i x Hn. unfold in_bin_b, in_bin.
  change (lo + INR i * ((hi - lo) / INR n)) with (edge lo hi n i).
  change (lo + INR (S i) * ((hi - lo) / INR n)) with (edge lo hi n (S i)).
  change (lo + INR n * ((hi - lo) / INR n)) with (edge lo hi n n).
  destruct (Rle_dec (edge lo hi n i) x) as [A|A].
  2:{ split; [discriminate|tauto]. }
  destruct (Rlt_dec x (edge lo hi n (S i))) as [B|B].
  { split; auto. }
  destruct (S i =? n)%nat eqn:E.
  - apply Nat.eqb_eq in E. rewrite E in *.
    destruct (Rle_dec x (edge lo hi n n)) as [C|C].
    + split; [intros _|reflexivity]. split; [exact A|right]. split; [reflexivity|lra].
    + split; [discriminate|]. intros [_ [D|[_ D]]]; lra.
  - apply Nat.eqb_neq in E. split; [discriminate|]. intros [_ [D|[D _]]]; [lra|congruence].
Qed.

Lemma num_filter : forall {A} (f : A -> bool) (P : A -> Prop) l, (forall x, f x = true <-> P x) ->
  num P l (List.length (filter f l)).
Proof.
  intros A f P l H. induction l as [|x l IH]; cbn; [constructor|].
  destruct (f x) eqn:E; cbn.
  - apply num_yes; [apply H; exact E|exact IH].
  - apply num_no; [|exact IH]. intros X. apply H in X. congruence.
Qed.

Lemma np_histogram_ok : forall data b, (1 <= b)%Z -> data <> [] ->
  exists lo hi, data_range data lo hi /\
  let n := Z.to_nat b in
  np_histogram data b = Ok (map (fun i => List.length (filter (in_bin_b (edge lo hi n) n i) data)) (seq 0 n),
                            map (edge lo hi n) (seq 0 (S n))).
Proof.
  intros data b Hb Hd. exists (fst (hist_range data)), (snd (hist_range data)).
  split; [apply hist_range_spec; exact Hd|].
  unfold np_histogram. destruct (b <? 1)%Z eqn:E; [apply Z.ltb_lt in E; lia|].
  destruct (hist_range data) as [lo hi]. cbn [fst snd]. cbn zeta.
  assert (Hn : (0 < Z.to_nat b)%nat) by lia.
  set (n := Z.to_nat b) in *. f_equal. f_equal.
  - apply map_ext_in. intros i Hi. apply in_seq in Hi. apply bin_count_eq; lia.
  - apply nth_ext with (d := 0) (d' := 0).
    + rewrite edges_len, map_length, seq_length. reflexivity.
    + intros k Hk. rewrite edges_len in Hk. rewrite edges_nth by lia.
      erewrite nth_indep with (d' := edge lo hi n 0) by (rewrite map_length, seq_length; lia).
      rewrite map_nth, seq_nth by lia. reflexivity.
Qed.

Lemma nth_edges : forall lo hi n k, (k <= n)%nat -> nth k (map (edge lo hi n) (seq 0 (S n))) 0 = edge lo hi n k.
Proof.
  intros. erewrite nth_indep with (d' := edge lo hi n 0) by (rewrite map_length, seq_length; lia).
  rewrite map_nth, seq_nth by lia. reflexivity.
Qed.

Lemma central_spec : forall lo hi n, (0 < n)%nat ->
  central_bins (map (edge lo hi n) (seq 0 (S n))) =
  map (fun i => lo + (INR i + / 2) * ((hi - lo) / INR n)) (seq 0 n).
Proof.
  intros lo hi n Hn. unfold central_bins. rewrite map_length, seq_length.
  replace (S n - 1)%nat with n by lia.
  apply map_ext_in. intros i Hi. apply in_seq in Hi. rewrite !nth_edges by lia.
  unfold edge. rewrite S_INR. field. apply not_0_INR; lia.
Qed.

Lemma sum_counts : forall (q w : R) (l : list nat), w <> 0 ->
  sum (map (fun c => INR c * q / w * w) l) = q * INR (list_sum l).
Proof.
  intros q w l Hw. induction l as [|c l IH]; cbn [map sum fold_right].
  - unfold list_sum. cbn. ring.
  - unfold sum in IH. cbn [fold_right]. rewrite IH.
    change (list_sum (c :: l)) with (c + list_sum l)%nat. rewrite plus_INR. field. exact Hw.
Qed.

Lemma np_sum_sum : forall l, np_sum l = sum l.
Proof. induction l as [|x l IH]; cbn; [reflexivity|rewrite IH; reflexivity]. Qed.

(* ---------------- mapping ---------------- *)
Lemma invert_inner : forall (key : string) els inv el,
  dget string_dec (fold_left (fun inv0 e => dset string_dec inv0 e key) els inv) el =
  if in_dec string_dec el els then Some key else dget string_dec inv el.
Proof.
  induction els as [|e els IH]; intros inv el; cbn [fold_left]; [reflexivity|].
  rewrite IH. destruct (in_dec string_dec el els) as [I|I].
  - destruct (in_dec string_dec el (e :: els)) as [J|J]; [reflexivity|exfalso; apply J; right; exact I].
  - destruct (string_dec el e) as [->|N].
    + rewrite dget_dset_same. destruct (in_dec string_dec e (e :: els)) as [J|J]; [reflexivity|exfalso; apply J; left; reflexivity].
    + rewrite dget_dset_other by exact N.
      destruct (in_dec string_dec el (e :: els)) as [[J|J]|J]; [congruence|tauto|reflexivity].
Qed.

Lemma magnet_color : forall ty c, magnet ty c <->
  exists base, dget string_dec (invert_mapping element_mappings) ty = Some base /\
               dget string_dec element_colors base = Some c.
Proof.
  intros ty c. split.
  - intros M. inversion M; subst; vm_compute; eexists; split; reflexivity.
  - intros (base & H & E).
    apply dget_in in H. vm_compute in H.
    repeat (destruct H as [H|H]; [injection H as <- <-; vm_compute in E; injection E as <-; constructor|]).
    destruct H.
Qed.

Lemma base_colored : forall ty base, dget string_dec (invert_mapping element_mappings) ty = Some base ->
  exists c, dget string_dec element_colors base = Some c.
Proof.
  intros ty base H. apply dget_in in H. vm_compute in H.
  repeat (destruct H as [H|H]; [injection H as <- <-; vm_compute; eexists; reflexivity|]). destruct H.
Qed.

Lemma profile_loop_spec : forall rows scale height s0,
  exists l, pieces s0 rows l /\
  profile_loop (invert_mapping element_mappings) scale height s0 rows =
  Ok (map (fun '(a, b, c) => mkRect (a * scale) (- height / 2) (b * scale - a * scale) height c) l).
Proof.
  induction rows as [|[s ty] rows IH]; intros scale height s0.
  - exists []. split; [constructor|reflexivity].
  - cbn [profile_loop]. destruct (IH scale height s) as (l & P & E). rewrite E. cbn [rbind].
    destruct (dget string_dec (invert_mapping element_mappings) ty) as [base|] eqn:D.
    + destruct (base_colored _ _ D) as [c Hc]. rewrite Hc.
      exists ((s0, s, c) :: l). split; [|reflexivity].
      constructor; [|exact P]. apply magnet_color. exists base; split; assumption.
    + exists l. split; [|reflexivity]. apply p_other; [|exact P].
      intros c M. apply magnet_color in M. destruct M as (b & Hb & _). congruence.
Qed.

Lemma segments_loop_spec : forall rows scale s0,
  exists l, pieces s0 rows l /\ segments_loop (invert_mapping element_mappings) scale s0 rows = Ok (map (fun '(a, b, c) => (a, a * scale, c)) l).
Proof.
  induction rows as [|[s ty] rows IH]; intros scale s0.
  - exists []. split; [constructor|reflexivity].
  - cbn [segments_loop]. destruct (IH scale s) as (l & P & E). rewrite E. cbn [rbind].
    destruct (dget string_dec (invert_mapping element_mappings) ty) as [base|] eqn:D.
    + destruct (base_colored _ _ D) as [c Hc]. rewrite Hc.
      exists ((s0, s, c) :: l). split; [|reflexivity].
      constructor; [|exact P]. apply magnet_color. exists base; split; assumption.
    + exists l. split; [|reflexivity]. apply p_other; [|exact P].
      intros c M. apply magnet_color in M. destruct M as (b & Hb & _). congruence.
Qed.

(* ---------------- symbols ---------------- *)
Definition table (a : alphabet) : option (list (ascii * string)) :=
  match a with Roman => None | Greek => Some greek_map | Special => Some special_map end.

Lemma append_assoc : forall a b c : string, ((a ++ b) ++ c = a ++ (b ++ c))%string.
Proof. induction a as [|x a IH]; intros; cbn; [reflexivity|rewrite IH; reflexivity]. Qed.
Lemma append_nil : forall a : string, (a ++ "" = a)%string.
Proof. induction a as [|x a IH]; cbn; [reflexivity|rewrite IH; reflexivity]. Qed.

Lemma greek_ok : forall c s, In (c, s) greek_letters <-> dget ascii_dec greek_map c = Some s.
Proof.
  intros c s. split.
  - intros H. vm_compute in H.
    repeat (destruct H as [H|H]; [injection H as <- <-; vm_compute; reflexivity|]). destruct H.
  - intros H. apply dget_in in H. vm_compute in H.
    repeat (destruct H as [H|H]; [injection H as <- <-; vm_compute; tauto|]). destruct H.
Qed.

Lemma glyph_ok : forall a c g, c <> "$"%char -> glyph a c g <->
  match table a with None => g = String c "" | Some m => process_character c m = Some g end.
Proof.
  intros a c g Hc. split.
  - intros H. inversion H; subst; cbn [table].
    + reflexivity.
    + apply greek_ok; assumption.
    + reflexivity.
  - destruct a; cbn [table]; intros H.
    + subst; constructor.
    + constructor. apply greek_ok; exact H.
    + unfold process_character, special_map in H. cbn in H.
      destruct (ascii_dec c "a") as [->|]; [injection H as <-; constructor|discriminate].
Qed.

Lemma proper_cons : forall i l, proper (i :: l) -> proper l /\ i <> Letter "$".
Proof. unfold proper. cbn. intros i l H. split; [tauto|]. intros ->. tauto. Qed.

Lemma format_latex : forall a l s, latex a l s -> proper l -> forall acc,
  format_loop (spelled l) false (table a) acc = Ok (acc ++ s)%string.
Proof.
  intros a l s H. induction H; intros P acc; cbn [spelled format_loop].
  - rewrite append_nil. reflexivity.
  - apply proper_cons in P as [P N].
    assert (Hc : c <> "$"%char) by (intros ->; congruence).
    destruct (Ascii.eqb c formatter_char) eqn:E; [apply Ascii.eqb_eq in E; contradiction|].
    apply glyph_ok in H; [|exact Hc]. destruct (table a) as [m|] eqn:T.
    + rewrite H, IHlatex, append_assoc by exact P. reflexivity.
    + subst g. rewrite IHlatex, append_assoc by exact P. reflexivity.
  - apply proper_cons in P as [P N]. cbn. rewrite IHlatex, append_assoc by exact P. reflexivity.
  - apply proper_cons in P as [P N]. cbn. rewrite IHlatex, append_assoc by exact P. reflexivity.
  - apply proper_cons in P as [P N]. cbn. rewrite IHlatex, append_assoc by exact P. reflexivity.
  - apply proper_cons in P as [P N]. exact (IHlatex P acc).
  - apply proper_cons in P as [P N]. exact (IHlatex P acc).
  - apply proper_cons in P as [P N]. exact (IHlatex P acc).
  - apply proper_cons in P as [P N]. exact (IHlatex P acc).
Qed.

(** Conversely a successful call is on a symbol with a LaTeX reading. *)
Lemma format_inv : forall l a acc out, proper l ->
  format_loop (spelled l) false (table a) acc = Ok out -> exists s, latex a l s /\ out = (acc ++ s)%string.
Proof.
  induction l as [|i l IH]; intros a acc out P H.
  - cbn in H. injection H as <-. exists ""%string. split; [constructor|rewrite append_nil; reflexivity].
  - apply proper_cons in P as [P N]. destruct i as [c|c].
    + assert (Hc : c <> "$"%char) by (intros ->; congruence).
      cbn [spelled format_loop] in H.
      destruct (Ascii.eqb c formatter_char) eqn:E; [apply Ascii.eqb_eq in E; contradiction|].
      destruct (table a) as [m|] eqn:T.
      * destruct (process_character c m) as [g|] eqn:G; [|discriminate].
        rewrite <- T in H. apply IH in H; [|exact P]. destruct H as (s & L & ->).
        exists (g ++ s)%string. split; [|apply append_assoc].
        constructor; [|exact L]. apply glyph_ok; [exact Hc|]. rewrite T; exact G.
      * rewrite <- T in H. apply IH in H; [|exact P]. destruct H as (s & L & ->).
        exists (String c "" ++ s)%string. split; [|apply append_assoc].
        constructor; [|exact L]. apply glyph_ok; [exact Hc|]. rewrite T; reflexivity.
    + cbn [spelled] in H. change (format_loop (String c (spelled l)) true (table a) acc = Ok out) in H.
      cbn [format_loop] in H.
      destruct (dget ascii_dec MODE c) as [m|] eqn:M.
      * apply IH in H; [|exact P]. destruct H as (s & L & ->).
        exists (m ++ s)%string. split; [|apply append_assoc].
        apply dget_in in M. vm_compute in M.
        repeat (destruct M as [M|M]; [injection M as <- <-; constructor; exact L|]). destruct M.
      * destruct (dget ascii_dec PROCESS c) as [p|] eqn:Q; [|discriminate].
        unfold PROCESS in Q. cbn [dget] in Q.
        destruct (ascii_dec c "g") as [->|].
        { injection Q as <-. change (Some greek_map) with (table Greek) in H.
          apply IH in H; [|exact P]. destruct H as (s & L & ->). exists s. split; [constructor; exact L|reflexivity]. }
        destruct (ascii_dec c "s") as [->|].
        { injection Q as <-. change (Some special_map) with (table Special) in H.
          apply IH in H; [|exact P]. destruct H as (s & L & ->). exists s. split; [constructor; exact L|reflexivity]. }
        destruct (ascii_dec c "r") as [->|].
        { injection Q as <-. change None with (table Roman) in H.
          apply IH in H; [|exact P]. destruct H as (s & L & ->). exists s. split; [constructor; exact L|reflexivity]. }
        destruct (ascii_dec c "e") as [->|]; [|discriminate].
        injection Q as <-. change None with (table Roman) in H.
        apply IH in H; [|exact P]. destruct H as (s & L & ->). exists s. split; [constructor; exact L|reflexivity].
Qed.

Lemma depth_app : forall a b d, depth d (a ++ b) = match depth d a with Some d' => depth d' b | None => None end.
Proof.
  induction a as [|c a IH]; intros b d; cbn; [reflexivity|].
  destruct (Ascii.eqb c "{"); [apply IH|].
  destruct (Ascii.eqb c "}"); [destruct d; [reflexivity|apply IH]|apply IH].
Qed.

Lemma greek_no_brace : forall c s, In (c, s) greek_letters -> forall d, depth d s = Some d.
Proof.
  intros c s H d. vm_compute in H.
  repeat (destruct H as [H|H]; [injection H as <- <-; reflexivity|]). destruct H.
Qed.

Lemma latex_depth : forall a l s, latex a l s -> no_brace_letters l -> forall d, depth d s = code_depth d l.
Proof.
  intros a l s H. induction H; intros [B1 B2] d; cbn [code_depth].
  - reflexivity.
  - rewrite depth_app.
    assert (G : depth d g = Some d).
    { inversion H; subst.
      - cbn. destruct (Ascii.eqb c "{") eqn:E1; [apply Ascii.eqb_eq in E1; subst; exfalso; apply B1; left; reflexivity|].
        destruct (Ascii.eqb c "}") eqn:E2; [apply Ascii.eqb_eq in E2; subst; exfalso; apply B2; left; reflexivity|reflexivity].
      - eapply greek_no_brace; eassumption.
      - reflexivity. }
    rewrite G. apply IHlatex. split; intros I; [apply B1|apply B2]; right; exact I.
  - cbn. apply IHlatex. split; intros I; [apply B1|apply B2]; right; exact I.
  - cbn. apply IHlatex. split; intros I; [apply B1|apply B2]; right; exact I.
  - cbn. destruct d; [reflexivity|]. apply IHlatex. split; intros I; [apply B1|apply B2]; right; exact I.
  - cbn. apply IHlatex. split; intros I; [apply B1|apply B2]; right; exact I.
  - cbn. apply IHlatex. split; intros I; [apply B1|apply B2]; right; exact I.
  - cbn. apply IHlatex. split; intros I; [apply B1|apply B2]; right; exact I.
  - cbn. apply IHlatex. split; intros I; [apply B1|apply B2]; right; exact I.
Qed.

Lemma latex_dollar : forall a l s, latex a l s -> proper l -> ~ In "$"%char (list_ascii_of_string s).
Proof.
  assert (A : forall a b, list_ascii_of_string (a ++ b) = list_ascii_of_string a ++ list_ascii_of_string b)
    by (induction a as [|x a IH]; intros; cbn; [reflexivity|rewrite IH; reflexivity]).
  intros a l s H. induction H; intros P.
  - intros [].
  - rewrite A, in_app_iff. apply proper_cons in P as [P N]. intros [I|I]; [|apply IHlatex in I; auto].
    inversion H; subst.
    + destruct I as [->|[]]. congruence.
    + match goal with K : In (_, _) greek_letters |- _ => rename K into HG end. revert I.
      assert (F : forallb (fun p => negb (existsb (Ascii.eqb "$") (list_ascii_of_string (snd p)))) greek_letters = true)
        by (vm_compute; reflexivity).
      rewrite forallb_forall in F. apply F in HG. cbn [snd] in HG. intros I.
      apply negb_true_iff in HG. assert (X : existsb (Ascii.eqb "$") (list_ascii_of_string g) = true).
      { apply existsb_exists. exists "$"%char. split; [exact I|reflexivity]. } congruence.
    + vm_compute in I. repeat (destruct I as [I|I]; [discriminate|]). destruct I.
  - apply proper_cons in P as [P N]. intros [I|[I|I]]; [discriminate|discriminate|]. apply IHlatex in I; auto.
  - apply proper_cons in P as [P N]. intros [I|[I|I]]; [discriminate|discriminate|]. apply IHlatex in I; auto.
  - apply proper_cons in P as [P N]. intros [I|I]; [discriminate|]. apply IHlatex in I; auto.
  - apply proper_cons in P as [P N]. auto.
  - apply proper_cons in P as [P N]. auto.
  - apply proper_cons in P as [P N]. auto.
  - apply proper_cons in P as [P N]. auto.
Qed.

(** Every string is the text of a symbol, possibly followed by a lone dollar sign. *)
Lemma spelled_all : forall s, exists l, proper l /\ (s = spelled l \/ s = (spelled l ++ "$")%string).
Proof.
  assert (G : forall n s, (String.length s <= n)%nat -> exists l, proper l /\ (s = spelled l \/ s = (spelled l ++ "$")%string)).
  { induction n as [|n IH]; intros s H.
    - destruct s; [|cbn in H; lia]. exists []. split; [intros []|left; reflexivity].
    - destruct s as [|c r]; [exists []; split; [intros []|left; reflexivity]|].
      cbn in H. destruct (ascii_dec c "$") as [->|N].
      + destruct r as [|c2 r]; [exists []; split; [intros []|right; reflexivity]|].
        cbn in H. destruct (IH r ltac:(lia)) as (l & P & E).
        exists (Code c2 :: l). split; [intros [I|I]; [discriminate|exact (P I)]|].
        destruct E as [->| ->]; [left|right]; reflexivity.
      + destruct (IH r ltac:(lia)) as (l & P & E).
        exists (Letter c :: l). split; [intros [I|I]; [congruence|exact (P I)]|].
        destruct E as [->| ->]; [left|right]; reflexivity. }
  intros s. apply (G (String.length s)). lia.
Qed.

Lemma format_tail : forall l a acc, proper l ->
  format_loop (spelled l ++ "$") false (table a) acc = format_loop (spelled l) false (table a) acc.
Proof.
  induction l as [|i l IH]; intros a acc P; [reflexivity|].
  apply proper_cons in P as [P N]. destruct i as [c|c].
  - assert (Hc : c <> "$"%char) by (intros ->; congruence).
    cbn [spelled append format_loop].
    destruct (Ascii.eqb c formatter_char) eqn:E; [apply Ascii.eqb_eq in E; contradiction|].
    destruct (table a) as [m|] eqn:T.
    + destruct (process_character c m); [rewrite <- T; apply IH; exact P|reflexivity].
    + rewrite <- T; apply IH; exact P.
  - change (format_loop (String c (spelled l ++ "$")) true (table a) acc = format_loop (String c (spelled l)) true (table a) acc).
    cbn [format_loop].
    destruct (dget ascii_dec MODE c); [apply IH; exact P|].
    destruct (dget ascii_dec PROCESS c) as [p|] eqn:Q; [|reflexivity].
    unfold PROCESS in Q. cbn [dget] in Q.
    destruct (ascii_dec c "g"); [injection Q as <-; apply (IH Greek); exact P|].
    destruct (ascii_dec c "s"); [injection Q as <-; apply (IH Special); exact P|].
    destruct (ascii_dec c "r"); [injection Q as <-; apply (IH Roman); exact P|].
    destruct (ascii_dec c "e"); [injection Q as <-; apply (IH Roman); exact P|discriminate].
Qed.

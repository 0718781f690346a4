(** C102 to C106: phase space objects, scatter plots, contour levels and constants. *)
From Coq Require Import List Reals Bool Arith String Ascii ZArith Lia Lra.
From Verif Require Import PyBase PyDict Sample_Model Stats_Model Plot_Model Plot_Spec Plot_Proofs Beam_Model Beam_Spec Beam_Proofs Scatter_Model Scatter_Spec Scatter_Proofs.
Import ListNotations.
Open Scope R_scope.

(* ------------------------------------------------------------------ *)
(** ** C102 A phase space object knows its number of particles, and its files.
    The number is the number of columns of the 6 by N array, after any calls. *)
Definition six_rows (a : ndarray) (n : nat) : Prop := shape a = [6%nat; n] /\ (0 < n)%nat.
Definition counted (p : phase_space_6d) : Prop := exists n, six_rows (array_6d p) n /\ num_ptcls p = Z.of_nat n.
Definition good_files (fs : files) : Prop := forall f a, dget string_dec fs f = Some a -> exists n, six_rows a n.
Fixpoint ps_run (st : phase_space_6d * files) (calls : list ps_call) : phase_space_6d * files :=
  match calls with [] => st | c :: r => ps_run (fst (ps_step st c)) r end.
Definition no_foreign_array (c : ps_call) : Prop := match c with SetArray _ => False | _ => True end.

Lemma dget_dset : forall (d : files) k v k', dget string_dec (dset string_dec d k v) k' = if string_dec k k' then Some v else dget string_dec d k'.
Proof.
  intros d k v k'. induction d as [|[a b] d IH]; cbn; [destruct (string_dec k' k), (string_dec k k'); congruence|].
  repeat (destruct (string_dec _ _); cbn; subst; try congruence).
Qed.
(** Partial: arrays are not replaced from outside, and the files hold 6 by N arrays *)
Theorem C102_count_partial : forall n p fs calls, new_space n = Ok p -> good_files fs -> Forall no_foreign_array calls ->
  counted (fst (ps_run (p, fs) calls)).
Proof.
  intros n p fs calls E G F.
  assert (C : counted p).
  { unfold new_space in E. destruct (0 <? n)%Z eqn:P; [|discriminate]. apply Z.ltb_lt in P. injection E as <-. exists (Z.to_nat n). split; [split; [reflexivity|lia]|cbn; lia]. }
  clear E. revert p fs C G. induction F as [|c calls NC F IH]; intros p fs C G; [exact C|].
  cbn [ps_run]. destruct c as [m|f| | | |a]; cbn [ps_step fst].
  - unfold set_num_ptcls. destruct (0 <? m)%Z eqn:P; apply IH; auto. apply Z.ltb_lt in P. exists (Z.to_nat m). split; [split; [reflexivity|lia]|cbn; lia].
  - unfold set_file_name. destruct (string_dec f ""); apply IH; auto.
  - apply IH; [exact C|]. intros f a D. unfold write_array in D. rewrite dget_dset in D. destruct (string_dec _ f); [|now apply (G f)]. injection D as <-. destruct C as [k [S _]]. now exists k.
  - unfold read_array. destruct (dget string_dec fs _) as [a|] eqn:D; [|apply IH; auto]. destruct (G _ _ D) as [k [S P]]. unfold check_array. cbn [array_6d]. rewrite S. cbn [Nat.eqb negb].
    destruct (k <? 1)%nat eqn:K; [apply Nat.ltb_lt in K; lia|]. apply IH; [|exact G]. exists k. split; [split; assumption|reflexivity].
  - unfold check_array. destruct C as [k [[S P] Q]]. rewrite S. cbn [Nat.eqb negb]. destruct (k <? 1)%nat eqn:K; [apply Nat.ltb_lt in K; lia|]. apply IH; [|exact G]. exists k. split; [split; assumption|reflexivity].
  - destruct NC.
Qed.
Print Assumptions C102_count_partial.
(** A check, or reading, that succeeds always leaves the right number *)
Theorem C102_checked : forall p fs q c, c = CheckArray \/ c = ReadArray -> ps_step (p, fs) c = (q, fs, Ok tt) -> counted q.
Proof.
  intros p fs q c H E.
  assert (K : forall p q, check_array p = (q, Ok tt) -> counted q).
  { clear. intros p q E. unfold check_array in E. destruct (shape (array_6d p)) as [|r [|k [|? ?]]] eqn:S; try discriminate. destruct (r =? 6)%nat eqn:R; [|discriminate]. apply Nat.eqb_eq in R. subst. cbn [negb] in E.
    destruct (k <? 1)%nat eqn:K; [discriminate|]. apply Nat.ltb_ge in K. injection E as <-. exists k. split; [split; [exact S|lia]|reflexivity]. }
  destruct H as [-> | ->]; cbn in E.
  - destruct (check_array p) as [q' x] eqn:D. injection E as <- ->. exact (K _ _ D).
  - destruct (read_array p fs) as [q' x] eqn:D. injection E as <- ->. unfold read_array in D. destruct (dget string_dec fs _); [exact (K _ _ D)|discriminate].
Qed.
Print Assumptions C102_checked.
(** The array that was written last under a name is the one read, by any object, whatever happened to
    other files in between *)
Fixpoint others (name : string) (st : phase_space_6d * files) (calls : list ps_call) : Prop :=
  match calls with [] => True | c :: r => (c = WriteArray -> file_name (fst st) <> name) /\ others name (fst (ps_step st c)) r end.
Lemma append_inj : forall a b c : string, (a ++ c = b ++ c)%string -> a = b.
Proof.
  assert (L : forall a b : string, String.length (a ++ b) = (String.length a + String.length b)%nat) by (induction a as [|x a IH]; intros b; cbn; [reflexivity|now rewrite IH]).
  induction a as [|x a IH]; intros [|y b] c H; cbn in H.
  - reflexivity.
  - exfalso. apply (f_equal String.length) in H. cbn in H. rewrite L in H. lia.
  - exfalso. apply (f_equal String.length) in H. cbn in H. rewrite L in H. lia.
  - injection H as -> H. f_equal. now apply (IH b c).
Qed.
Theorem C102_round_trip : forall p fs n other calls q fs', six_rows (array_6d p) n ->
  others (file_name p) (other, write_array p fs) calls -> ps_run (other, write_array p fs) calls = (q, fs') -> file_name q = file_name p ->
  exists q', ps_step (q, fs') ReadArray = (q', fs', Ok tt) /\ array_6d q' = array_6d p /\ num_ptcls q' = Z.of_nat n.
Proof.
  intros p fs n other calls q fs' [SH P] OT RU FN.
  assert (D : dget string_dec fs' (file_name p ++ ".npz")%string = Some (array_6d p)).
  { assert (D0 : dget string_dec (write_array p fs) (file_name p ++ ".npz")%string = Some (array_6d p)) by (unfold write_array; rewrite dget_dset; destruct (string_dec _ _); congruence).
    revert D0 OT RU. generalize (write_array p fs) as g. clear FN. revert other. induction calls as [|c calls IH]; intros o g D0 OT RU; [cbn in RU; congruence|].
    cbn [ps_run] in RU. destruct OT as [W OT]. destruct (ps_step (o, g) c) as [[o' g'] x] eqn:E. cbn [fst] in *. apply (IH o' g'); [|exact OT|exact RU].
    destruct c as [m|f| | | |a]; cbn in E.
    - destruct (set_num_ptcls o m). injection E as <- <- <-. exact D0.
    - destruct (set_file_name o f). injection E as <- <- <-. exact D0.
    - injection E as <- <- <-. unfold write_array. rewrite dget_dset. destruct (string_dec _ _) as [Q|]; [|exact D0]. apply append_inj in Q. now elim (W eq_refl).
    - destruct (read_array o g). injection E as <- <- <-. exact D0.
    - destruct (check_array o). injection E as <- <- <-. exact D0.
    - injection E as <- <- <-. exact D0. }
  cbn [ps_step]. unfold read_array. rewrite FN, D. unfold check_array. cbn [array_6d]. rewrite SH. cbn [Nat.eqb negb]. destruct (n <? 1)%nat eqn:K; [apply Nat.ltb_lt in K; lia|].
  eexists. split; [reflexivity|]. split; reflexivity.
Qed.
Print Assumptions C102_round_trip.
(** The full property is false: after set_array_6d the old number is returned; and when a file with another array
    is read, the exception leaves that array in the object *)
Theorem C102_replaced_refuted : exists n p a k, new_space n = Ok p /\ six_rows a k /\ num_ptcls (set_array_6d p a) <> Z.of_nat k.
Proof. exists 2%Z. eexists. exists (np_zeros 6 3), 3%nat. split; [reflexivity|]. split; [split; [reflexivity|lia]|]. cbn. discriminate. Qed.
Print Assumptions C102_replaced_refuted.
Theorem C102_failed_read_refuted : exists n p fs q, new_space n = Ok p /\ ps_step (p, fs) ReadArray = (q, fs, Err GenericException) /\ array_6d q <> array_6d p /\ ~ counted q.
Proof.
  exists 2%Z. eexists. exists [("ps6d.npz"%string, np_zeros 4 2)]. eexists. split; [reflexivity|]. split; [reflexivity|]. split; [cbn; discriminate|]. intros [k [[S _] _]]. cbn in S. discriminate.
Qed.
Print Assumptions C102_failed_read_refuted.
(** The file an object reads and writes always has a name, whatever calls were made and whatever files there are. *)
Theorem C102_named : forall n p fs calls, new_space n = Ok p -> file_name (fst (ps_run (p, fs) calls)) <> ""%string.
Proof.
  intros n p fs calls N.
  assert (P : file_name p <> ""%string) by (revert N; unfold new_space; destruct (0 <? n)%Z; intros N; inversion N; subst; discriminate).
  clear N. revert p fs P. induction calls as [|c l IH]; intros p fs P; [exact P|].
  cbn [ps_run]. assert (K : file_name (fst (fst (ps_step (p, fs) c))) <> ""%string).
  { destruct c as [k|f| | | |a]; simpl; try exact P.
    - unfold set_num_ptcls. destruct (0 <? k)%Z; exact P.
    - unfold set_file_name. destruct (string_dec f ""); [exact P|assumption].
    - unfold read_array. destruct (dget _ _ _); [|exact P]. unfold check_array. simpl.
      destruct (shape _) as [|r [|q [|]]]; try exact P. destruct (negb _); [exact P|]. destruct (_ <? _)%nat; exact P.
    - unfold check_array. destruct (shape _) as [|r [|q [|]]]; try exact P. destruct (negb _); [exact P|]. destruct (_ <? _)%nat; exact P. }
  destruct (ps_step (p, fs) c) as [[q gs] x]. apply IH. exact K.
Qed.
Print Assumptions C102_named.

(** The setters refuse exactly the empty name and the counts that are not positive; a refused call changes neither object nor files. *)
Theorem C102_refused : forall p fs c, (exists k, c = SetNum k) \/ (exists f, c = SetFile f) ->
  (snd (ps_step (p, fs) c) <> Ok tt <-> c = SetFile "" \/ exists k, c = SetNum k /\ (k <= 0)%Z) /\
  (snd (ps_step (p, fs) c) <> Ok tt -> fst (ps_step (p, fs) c) = (p, fs)).
Proof.
  intros p fs c [[k ->]|[f ->]]; simpl.
  - unfold set_num_ptcls. destruct (Z.ltb_spec 0 k) as [L|L]; simpl; split; try (intros X; congruence); try reflexivity.
    + split; [congruence|]. intros [D|(j & E & J)]; [discriminate|]. inversion E; subst. lia.
    + split; [|discriminate]. intros _. right. exists k. split; [reflexivity|lia].
  - unfold set_file_name. destruct (string_dec f "") as [->|F]; simpl; split; try (intros X; congruence); try reflexivity.
    + split; [left; reflexivity|discriminate].
    + split; [congruence|]. intros [D|(j & E & J)]; [inversion D; congruence|discriminate].
Qed.
Print Assumptions C102_refused.

Example C102_applies : exists p, new_space 3 = Ok p /\ counted (fst (ps_run (p, []) [SetFile "a"; WriteArray; SetNum 5; ReadArray; SetNum 0])) /\
  num_ptcls (fst (ps_run (p, []) [SetFile "a"; WriteArray; SetNum 5; ReadArray; SetNum 0])) = 3%Z.
Proof. eexists. split; [reflexivity|]. split; [|reflexivity]. apply (C102_count_partial 3 _ []); [reflexivity|intros f a D; discriminate|repeat constructor]. Qed.

(* ------------------------------------------------------------------ *)
(** ** C103 Scatter plots show every particle.
    Each plot is a new figure with all particles, on axes symmetric about zero that hold them all. *)
Definition rows_of (a : ndarray) (i : nat) (l : list R) : Prop := row a i = Ok l.
Definition sixth (i : Z) (k : nat) : Prop := (Z.of_nat k = i \/ Z.of_nat k = i + 6)%Z /\ (k < 6)%nat /\ (-6 <= i < 6)%Z /\ (0 <= i -> Z.of_nat k = i)%Z.
Lemma sixth_index : forall i k, sixth i k -> index6 i = Ok k.
Proof.
  intros i k [E [K [B P]]]. unfold index6. destruct (i <? 0)%Z eqn:N; [apply Z.ltb_lt in N|apply Z.ltb_ge in N].
  - assert (i + 6 = Z.of_nat k)%Z as -> by lia. destruct (0 <=? Z.of_nat k)%Z eqn:A; [|apply Z.leb_gt in A; lia]. destruct (Z.of_nat k <? 6)%Z eqn:C; [|apply Z.ltb_ge in C; lia]. cbn. now rewrite Nat2Z.id.
  - assert (i = Z.of_nat k)%Z as -> by lia. destruct (0 <=? Z.of_nat k)%Z eqn:A; [|apply Z.leb_gt in A; lia]. destruct (Z.of_nat k <? 6)%Z eqn:C; [|apply Z.ltb_ge in C; lia]. cbn. now rewrite Nat2Z.id.
Qed.
Lemma row_ok : forall a n i k l, shape a = [6%nat; n] -> sixth i k -> row a k = Ok l -> row_of a i = Ok l.
Proof.
  intros a n i k l S [E [K [B P]]] R. unfold row_of. rewrite S. destruct (i <? 0)%Z eqn:N; [apply Z.ltb_lt in N|apply Z.ltb_ge in N].
  - assert (i + Z.of_nat 6 = Z.of_nat k)%Z as -> by lia. destruct (0 <=? Z.of_nat k)%Z eqn:A; [|apply Z.leb_gt in A; lia]. now rewrite Nat2Z.id.
  - assert (i = Z.of_nat k)%Z as -> by lia. destruct (0 <=? Z.of_nat k)%Z eqn:A; [|apply Z.leb_gt in A; lia]. now rewrite Nat2Z.id.
Qed.
Theorem C103_figure : forall s n h v kh kv hs vs lh lv, six_rows (data6d s) n -> sixth h kh -> sixth v kv -> rows_of (data6d s) kh hs -> rows_of (data6d s) kv vs ->
  hs <> [] -> vs <> [] -> get_label s h = Ok lh -> get_label s v = Ok lv ->
  exists s' f, plot_data6d s h v = Ok (s', f) /\ dots f = combine hs vs /\ symmetric_range (fst (h_limits f)) (snd (h_limits f)) hs /\ symmetric_range (fst (v_limits f)) (snd (v_limits f)) vs /\
    h_label f = lh /\ v_label f = lv /\ number f = S (fig_num s) /\ fig_num s' = number f /\ data6d s' = data6d s /\ labels s' = labels s.
Proof.
  intros s n h v kh kv hs vs lh lv [S P] SH SV RH RV NH NV LH LV. destruct (limits_ok hs NH) as [a [b [E1 R1]]]. destruct (limits_ok vs NV) as [c [d [E2 R2]]].
  eexists. eexists. split.
  { unfold plot_data6d. rewrite (row_ok _ n h kh hs S SH RH). cbn [rbind]. rewrite (row_ok _ n v kv vs S SV RV). cbn [rbind]. rewrite E1. cbn [rbind]. rewrite E2. cbn [rbind]. rewrite LH. cbn [rbind]. rewrite LV. cbn [rbind]. reflexivity. }
  cbn. repeat (split; [first [reflexivity|assumption]|]). reflexivity.
Qed.
Print Assumptions C103_figure.
(** Labels: what is set is what is drawn, for texts of up to five characters *)
Theorem C103_label_partial : forall s i k l, List.length (labels s) = 6%nat -> sixth i k -> (String.length l <= 5)%nat ->
  exists s', set_label s i l = Ok s' /\ get_label s' i = Ok l /\ (forall j m, sixth j m -> m <> k -> get_label s' j = get_label s j) /\ data6d s' = data6d s.
Proof.
  intros s i k l L SI LE. eexists. split; [unfold set_label; rewrite (sixth_index i k SI); reflexivity|]. split; [|split; [|reflexivity]].
  - unfold get_label. rewrite (sixth_index i k SI). cbn [rbind labels]. rewrite set_nth_same by (rewrite L; apply SI). now rewrite prefix_short.
  - intros j m SJ N. unfold get_label. rewrite (sixth_index j m SJ). cbn [rbind labels]. now rewrite set_nth_other by congruence.
Qed.
Print Assumptions C103_label_partial.
Theorem C103_label_refuted : exists p q s s' l, new_space 2 = Ok p /\ new_scatter p = (q, Ok s) /\ set_label s 0 l = Ok s' /\ l = "x [mm]"%string /\ get_label s' 0 = Ok "x [mm"%string.
Proof. eexists. eexists. eexists. eexists. exists "x [mm]"%string. repeat split. Qed.
Print Assumptions C103_label_refuted.
(** A plotter can be made for two particles or more, and then has the array of the phase space *)
Theorem C103_plotter : forall p n, six_rows (array_6d p) n ->
  match snd (new_scatter p) with
  | Ok s => (2 <= n)%nat /\ data6d s = array_6d p /\ labels s = ["x [m]"; "px/p0"; "y [m]"; "py/p0"; "s [m]"; "dp/p0"]%string
  | Err e => n = 1%nat /\ e = GenericException
  | Diverges => False
  end.
Proof.
  intros p n [S P]. unfold new_scatter, check_array. rewrite S. cbn [Nat.eqb negb]. destruct (n <? 1)%nat eqn:K; [apply Nat.ltb_lt in K; lia|]. cbn [num_ptcls]. destruct (1 <? Z.of_nat n)%Z eqn:C; cbn.
  - apply Z.ltb_lt in C. repeat split; lia.
  - apply Z.ltb_ge in C. split; [lia|reflexivity].
Qed.
Print Assumptions C103_plotter.
Definition scatter_2 : scatter :=
  {| data6d := {| shape := [6; 2]%nat; entries := [1; -2; 0; 1; 5; 6; 7; 8; -1; 1; 3; 4] |}; labels := ["x [m]"; "px/p0"; "y [m]"; "py/p0"; "s [m]"; "dp/p0"]%string; fig_num := 0 |}.
Example C103_applies : exists s' f, plot_data6d scatter_2 0 (-2) = Ok (s', f) /\ dots f = [(1, -1); (-2, 1)] /\ v_label f = "s [m]"%string.
Proof.
  destruct (C103_figure scatter_2 2 0 (-2) 0 4 [1; -2] [-1; 1] "x [m]" "s [m]") as [s' [f [E [D [_ [_ [_ [L _]]]]]]]]; try (split; [reflexivity|lia]); try reflexivity; try discriminate.
  - repeat split; lia.
  - repeat split; lia.
  - exists s', f. split; [exact E|]. split; [exact D|exact L].
Qed.

(* ------------------------------------------------------------------ *)
(** ** C104 Contour levels span the field.
    The levels are as many as asked for, equally spaced and symmetric around the largest absolute value
    times the multiplier, to three decimals. Partial: not for a field that is constant and positive. *)
Definition varied (field : list R) : Prop := exists x, In x field /\ (x <= 0 \/ exists y, In y field /\ x <> y).
Lemma levels_ok : forall field n mult a, 0 < mult -> peak field a -> varied field -> (1 <= n)%nat ->
  exists m, three_decimals (mult * a) m /\ 0 <= m /\ gen_contour_levels field (Z.of_nat n) mult = Ok (map (level m n) (seq 0 n)).
Proof.
  intros [|x r] n mult a MU PK VA N; [destruct VA as [x [[] _]]|]. pose proof (peak_unique _ _ _ PK (peak_extremes x r)) as EA. destruct (np_min_spec r x) as [IL ML]. destruct (np_max_spec r x) as [IH MH].
  unfold gen_contour_levels. set (hi := np_max x r) in *. set (lo := np_min x r) in *. pose proof (ML _ IH) as LH.
  assert (NN : forall y, 0 <= y -> 0 <= py_round y 3).
  { intros y Y. destruct (py_round_3 y) as [[k K] B]. rewrite K in *. assert (- 1 < IZR k) by (unfold Rabs in B; destruct (Rcase_abs _); lra). assert (0 <= k)%Z by (apply Z.lt_pred_le, lt_IZR; cbn; lra).
    apply IZR_le in H0. lra. }
  assert (NP : forall y, y <= 0 -> py_round y 3 <= 0).
  { intros y Y. destruct (py_round_3 y) as [[k K] B]. rewrite K in *. assert (IZR k < 1) by (unfold Rabs in B; destruct (Rcase_abs _); lra). assert (k <= 0)%Z by (apply Z.lt_succ_r, lt_IZR; cbn; lra). apply IZR_le in H0. lra. }
  destruct (Rlt_dec (Rabs (mult * lo)) (mult * hi)) as [C|C].
  - rewrite Rabs_mult, (Rabs_right mult) in C by lra. assert (AH : Rabs lo < hi) by nra. assert (HA : a = hi).
    { rewrite EA. pose proof (Rabs_pos lo). rewrite (Rabs_right hi) by lra. apply Rmax_left. lra. }
    exists (py_round (mult * hi) 3). rewrite HA. split; [apply py_round_3|]. split; [apply NN; pose proof (Rabs_pos lo); nra|]. f_equal. rewrite Nat2Z.id. apply map_ext. intros i. unfold level. rewrite <- INR_IZR_INZ. f_equal. f_equal. f_equal. ring.
  - rewrite Rabs_mult, (Rabs_right mult) in C by lra. assert (AH : hi <= Rabs lo) by nra.
    assert (LN : lo <= 0).
    { destruct (Rle_dec lo 0) as [|Q]; [assumption|]. exfalso. assert (Rabs lo = lo) by (apply Rabs_right; lra). destruct VA as [y [Y [B|[z [Z B]]]]].
      - specialize (ML y Y). lra.
      - pose proof (ML y Y). pose proof (ML z Z). pose proof (MH y Y). pose proof (MH z Z). apply B. lra. }
    assert (HA : a = - lo).
    { rewrite EA. rewrite (Rabs_left1 lo LN) in *. apply Rmax_right. apply Rabs_le. lra. }
    set (z := py_round (mult * lo) 3). assert (NZ : z <= 0) by (apply NP; nra). exists (- z). split; [|split; [lra|]].
    + destruct (py_round_3 (mult * lo)) as [[k K] B]. fold z in K, B. split; [exists (- k)%Z; rewrite K, opp_IZR; field|]. rewrite HA. replace (- z - mult * - lo) with (- (z - mult * lo)) by ring. now rewrite Rabs_Ropp.
    + f_equal. rewrite Nat2Z.id. apply map_ext. intros i. unfold level. rewrite (Rabs_left1 z NZ), <- INR_IZR_INZ. replace (- - z) with z by ring. f_equal. f_equal. f_equal. ring.
Qed.
Theorem C104_levels_partial : forall field n mult a, 0 < mult -> peak field a -> varied field -> (1 <= n)%nat ->
  exists m, three_decimals (mult * a) m /\ gen_contour_levels field (Z.of_nat n) mult = Ok (map (level m n) (seq 0 n)).
Proof. intros field n mult a MU PK VA N. destruct (levels_ok field n mult a MU PK VA N) as [m [T [_ E]]]. eauto. Qed.
Print Assumptions C104_levels_partial.
(** With the default arguments every value of the field is between the first and the last of the 40 levels, for
    fields with a peak of at least 0.011 *)
Theorem C104_cover_partial : forall field a, peak field a -> varied field -> 11 / 1000 <= a ->
  exists levels, gen_contour_levels field 40 (11 / 10) = Ok levels /\ List.length levels = 40%nat /\ forall x, In x field -> nth 0 levels 0 <= x <= nth 39 levels 0.
Proof.
  intros field a PK VA A. destruct (levels_ok field 40 (11 / 10) a ltac:(lra) PK VA ltac:(lia)) as [m [[_ B] [P E]]]. eexists. split; [exact E|]. split; [now rewrite map_length, seq_length|].
  intros x X. destruct PK as [_ M]. specialize (M x X). rewrite !nth_map_seq by lia. unfold level. rewrite !INR_IZR_INZ. change (Z.of_nat 0) with 0%Z. change (Z.of_nat 39) with 39%Z. change (Z.of_nat 40) with 40%Z.
  unfold Rabs in B, M. destruct (Rcase_abs _) in B; destruct (Rcase_abs _) in M; lra.
Qed.
Print Assumptions C104_cover_partial.
(** The full property is false: a constant field gives equal levels, *)
Lemma round_exact : forall k, py_round (IZR k / 1000) 3 = IZR k / 1000.
Proof.
  intros k. destruct (py_round_3 (IZR k / 1000)) as [[j E] B]. rewrite E in *. assert (D : Rabs (IZR (j - k)) <= / 2).
  { rewrite minus_IZR. replace (IZR j - IZR k) with ((IZR j / 1000 - IZR k / 1000) * 1000) by field. rewrite Rabs_mult, (Rabs_right 1000) by lra. lra. }
  assert (j - k = 0)%Z; [|replace j with k by lia; reflexivity]. assert (-1 < j - k < 1)%Z; [|lia]. split; apply lt_IZR; unfold Rabs in D; destruct (Rcase_abs _); lra.
Qed.
Theorem C104_constant_refuted : gen_contour_levels [2; 2; 2] 3 (11 / 10) = Ok [11 / 5; 11 / 5; 11 / 5].
Proof.
  unfold gen_contour_levels. assert (M : np_max 2 [2; 2] = 2) by (unfold np_max; cbn; unfold Rmax; repeat destruct (Rle_dec _ _); lra). assert (L : np_min 2 [2; 2] = 2) by (unfold np_min; cbn; unfold Rmin; repeat destruct (Rle_dec _ _); lra).
  rewrite M, L. destruct (Rlt_dec _ _) as [C|_]; [rewrite Rabs_right in C by lra; lra|].
  replace (11 / 10 * 2) with (IZR 2200 / 1000) by lra. rewrite round_exact, Rabs_right by lra. change (Z.to_nat 3) with 3%nat. cbn [seq map INR].
  assert (K : forall a b c x : R, a = x -> b = x -> c = x -> Ok [a; b; c] = Ok [x; x; x]) by (intros; subst; reflexivity). apply K; lra.
Qed.
Print Assumptions C104_constant_refuted.
(** a small field gives levels that are all zero, *)
Theorem C104_small_refuted : gen_contour_levels [- / 10000; / 10000] 2 (11 / 10) = Ok [0; 0].
Proof.
  unfold gen_contour_levels. assert (M : np_max (- / 10000) [/ 10000] = / 10000) by (unfold np_max; cbn; unfold Rmax; destruct (Rle_dec _ _); lra).
  assert (L : np_min (- / 10000) [/ 10000] = - / 10000) by (unfold np_min; cbn; unfold Rmin; destruct (Rle_dec _ _); lra). rewrite M, L.
  assert (Z : forall y, - / 2000 < y < / 2000 -> py_round y 3 = 0).
  { intros y Y. destruct (py_round_3 y) as [[k K] B]. rewrite K in *. assert (-1 < k < 1)%Z by (split; apply lt_IZR; unfold Rabs in B; destruct (Rcase_abs _); lra). replace k with 0%Z by lia. lra. }
  rewrite !Z by lra. rewrite Rabs_R0, Ropp_0. destruct (Rlt_dec _ _); change (Z.to_nat 2) with 2%nat; cbn [seq map INR]; (assert (K : forall a b x : R, a = x -> b = x -> Ok [a; b] = Ok [x; x]) by (intros; subst; reflexivity)); apply K; lra.
Qed.
Print Assumptions C104_small_refuted.
(** and with few levels the top of the field is above the last one *)
Theorem C104_few_refuted : exists field levels, field = [-1; 1] /\ gen_contour_levels field 10 (11 / 10) = Ok levels /\ nth 9 levels 0 < 1 /\ List.length levels = 10%nat.
Proof.
  destruct (levels_ok [-1; 1] 10 (11 / 10) 1) as [m [T [P E]]]; [lra| | |lia|].
  - split; [exists 1; split; [right; now left|apply Rabs_R1]|]. intros x [<-|[<-|[]]]; unfold Rabs; destruct (Rcase_abs _); lra.
  - exists (-1). split; [now left|left; lra].
  - exists [-1; 1]. eexists. split; [reflexivity|]. split; [exact E|]. rewrite nth_map_seq by lia. split; [|now rewrite map_length, seq_length].
    destruct T as [_ B]. unfold level. rewrite !INR_IZR_INZ. change (Z.of_nat 9) with 9%Z. change (Z.of_nat 10) with 10%Z. unfold Rabs in B. destruct (Rcase_abs _) in B; lra.
Qed.
Print Assumptions C104_few_refuted.
Example C104_applies : peak [-3; 1; 2] 3 /\ varied [-3; 1; 2].
Proof.
  split; [split; [exists (-3); split; [now left|unfold Rabs; destruct (Rcase_abs _); lra]|intros x [<-|[<-|[<-|[]]]]; unfold Rabs; destruct (Rcase_abs _); lra]|].
  exists (-3). split; [now left|left; lra].
Qed.

(* ------------------------------------------------------------------ *)
(** ** C105 Scatter and contour plots lose no particle.
    A scatter plot has one dot per particle and a line goes through all of them in order. *)
Theorem C105_all : forall m plot_type xs ys divs levels flag, List.length xs = List.length ys -> In flag ["scatter"; "line"; "scatter-line"]%string ->
  exists r, scatter_contour m flag plot_type (Particles xs ys) divs levels = Ok r /\ filled r = None /\
    marks r = (if string_dec flag "line" then None else Some (combine xs ys)) /\ path r = (if string_dec flag "scatter" then None else Some (combine xs ys)).
Proof.
  intros m plot_type xs ys divs levels flag L F. assert (S : stacked (Particles xs ys) = Ok (combine xs ys)) by (unfold stacked; now rewrite L, Nat.eqb_refl).
  unfold scatter_contour. rewrite S. cbn in F. destruct F as [<-|[<-|[<-|[]]]]; cbn [rbind]; destruct (scales _ _); eexists; (split; [reflexivity|]); cbn; auto.
Qed.
Print Assumptions C105_all.
(** A combined plot has dots for exactly the particles outside the outline of the filled region, and the
    filled region is drawn from the histogram of all particles *)
Theorem C105_combo : forall m plot_type xs ys divs levels r, List.length xs = List.length ys -> xs <> [] -> (1 <= divs)%Z ->
  scatter_contour m "combo" plot_type (Particles xs ys) divs levels = Ok r ->
  exists rows ls l polys dots, filled r = Some (rows, ls) /\ (exists a b c d, shows rows a b c d (Z.to_nat divs) (combine xs ys)) /\ In l ls /\ (forall x, In x ls -> l <= x) /\
    (exists h, rows = transpose (Z.to_nat divs) h /\ polys = outlines m h l) /\ marks r = Some dots /\ path r = None /\
    kept (fun q => forall p rest, polys = p :: rest -> contains m p q = false) (combine xs ys) dots.
Proof.
  intros m plot_type xs ys divs levels r L N D E. destruct (histogram_image xs ys divs L N D) as [h [ex [ey [im [EH [_ [RI [SH _]]]]]]]].
  unfold scatter_contour in E. cbn [string_dec is_one_of existsb] in E. cbn in E. unfold particle_contour in E. rewrite EH in E. cbn [rbind] in E.
  remember (match levels with Count n => linspace 8 (INR (hist_max h)) n | Levels l => l end) as ls eqn:LS. destruct ls as [|l0 lr]; [discriminate|]. destruct (contourf_levels (l0 :: lr)) as [ok| |] eqn:CL; try discriminate. cbn [rbind] in E.
  rewrite L, Nat.eqb_refl in E. cbn [rbind] in E. assert (OK : ok = l0 :: lr).
  { unfold contourf_levels in CL. destruct lr; [discriminate|]. destruct (increasing _); [congruence|discriminate]. }
  subst ok. injection E as <-. cbn. destruct (np_min_spec lr l0) as [IM MM].
  exists (transpose (Z.to_nat divs) h), (l0 :: lr), (np_min l0 lr), (outlines m h (np_min l0 lr)). eexists. split; [reflexivity|]. split; [rewrite <- RI; now exists (left im), (right im), (bottom im), (top im)|].
  split; [exact IM|]. split; [exact MM|]. split; [now exists h|]. split; [reflexivity|]. split; [reflexivity|]. unfold low_density. destruct (outlines m h (np_min l0 lr)) as [|p rest].
  - clear. induction (combine xs ys) as [|q l IH]; constructor; [intros; discriminate|exact IH].
  - apply kept_filter. intros q. rewrite negb_true_iff. split; [intros H p' r' X; congruence|intros H; now apply (H p rest)].
Qed.
Print Assumptions C105_combo.
(** With more than 8 particles per cell on average a combined plot is drawn, for any number of levels from 2 *)
Theorem C105_dense_partial : forall m plot_type xs ys divs n flag threshold, List.length xs = List.length ys -> (1 <= divs)%Z -> (2 <= n)%nat ->
  (flag = "combo"%string /\ threshold = 8%nat \/ flag = "contour"%string /\ threshold = 1%nat) ->
  (threshold * (Z.to_nat divs * Z.to_nat divs) < List.length xs)%nat ->
  exists r rows ls, scatter_contour m flag plot_type (Particles xs ys) divs (Count n) = Ok r /\ filled r = Some (rows, ls) /\ List.length ls = n.
Proof.
  intros m plot_type xs ys divs n flag threshold L D N F T. assert (NX : xs <> []) by (intros ->; cbn in T; lia).
  destruct (histogram_image xs ys divs L NX D) as [h [ex [ey [im [EH _]]]]]. destruct (max_bounds xs ys divs h ex ey L NX D EH) as [_ LB].
  assert (TH : (threshold < hist_max h)%nat) by nia. apply lt_INR in TH. 
  assert (PC : exists l polys, particle_contour m (if string_dec flag "combo" then true else false) xs ys divs (Count n) = Ok (h, l, polys) /\ List.length l = n).
  { unfold particle_contour. rewrite EH. cbn [rbind]. assert (TE : (if (if string_dec flag "combo" then true else false) then 8 else 1) = INR threshold).
    { destruct F as [[-> ->]|[-> ->]]; cbn [string_dec]; rewrite INR_IZR_INZ; reflexivity. }
    rewrite TE. destruct (increasing_linspace (INR threshold) (INR (hist_max h)) n TH N) as [IN [x [y [r E]]]]. pose proof (Sample_Proofs.linspace_len (INR threshold) (INR (hist_max h)) n) as LN. rewrite E in *. unfold contourf_levels. rewrite IN. cbn [rbind].
    eexists. eexists. split; [reflexivity|exact LN]. }
  destruct PC as [l [polys [PE PL]]]. assert (S : stacked (Particles xs ys) = Ok (combine xs ys)) by (unfold stacked; now rewrite L, Nat.eqb_refl).
  unfold scatter_contour. destruct (scales flag plot_type) as [sx sy]. destruct F as [[-> ->]|[-> ->]]; cbn [is_one_of existsb] in *; cbn in PE; cbn [starts_with ends_with] in *;
    change (is_one_of "combo" ["contour"; "combo"]%string) with true; change (is_one_of "contour" ["contour"; "combo"]%string) with true; cbn in *; rewrite PE; cbn; rewrite ?L, ?Nat.eqb_refl; cbn; eexists; eexists; eexists; (split; [reflexivity|]); cbn; split; reflexivity || exact PL.
Qed.
Print Assumptions C105_dense_partial.
(** The full property is false: with 8 particles or fewer (one, without dots) there is always an exception, *)
Theorem C105_sparse_refuted : forall m plot_type xs ys divs n flag threshold, List.length xs = List.length ys -> xs <> [] -> (1 <= divs)%Z ->
  (flag = "combo"%string /\ threshold = 8%nat \/ flag = "contour"%string /\ threshold = 1%nat) -> (List.length xs <= threshold)%nat ->
  scatter_contour m flag plot_type (Particles xs ys) divs (Count n) = Err ValueError.
Proof.
  intros m plot_type xs ys divs n flag threshold L NX D F T. destruct (histogram_image xs ys divs L NX D) as [h [ex [ey [im [EH _]]]]]. destruct (max_bounds xs ys divs h ex ey L NX D EH) as [UB _].
  assert (PC : particle_contour m (if string_dec flag "combo" then true else false) xs ys divs (Count n) = Err ValueError).
  { unfold particle_contour. rewrite EH. cbn [rbind]. assert (TE : (if (if string_dec flag "combo" then true else false) then 8 else 1) = INR threshold).
    { destruct F as [[-> ->]|[-> ->]]; cbn [string_dec]; rewrite INR_IZR_INZ; reflexivity. }
    rewrite TE. destruct n as [|[|n]]; [reflexivity|reflexivity|]. assert (LE : INR (hist_max h) <= INR threshold) by (apply le_INR; lia).
    pose proof (linspace_not_increasing (INR threshold) (INR (hist_max h)) (S (S n)) LE ltac:(lia)) as NI. destruct (linspace (INR threshold) (INR (hist_max h)) (S (S n))) as [|a [|b r]]; try reflexivity. unfold contourf_levels. now rewrite NI. }
  unfold scatter_contour. destruct F as [[-> ->]|[-> ->]]; cbn in *; now rewrite PC.
Qed.
Print Assumptions C105_sparse_refuted.
(** no grid of values can be drawn, *)
Theorem C105_grid_refuted : forall m plot_type flag xs ys zs divs levels, In flag ["contour"; "combo"]%string ->
  exists e, scatter_contour m flag plot_type (Grid xs ys zs) divs levels = Err e.
Proof.
  intros m plot_type flag xs ys zs divs levels F. assert (G : exists e, grid_contour xs ys zs = Err e).
  { unfold grid_contour. destruct xs as [|x xr], ys as [|y yr], zs as [|z zr]; try (now exists ValueError). unfold pdiv. destruct (Req_EM_T _ _); [now exists ZeroDivisionError|now exists TypeError]. }
  destruct G as [e G]. exists e. unfold scatter_contour. destruct F as [<-|[<-|[]]]; cbn in *; now rewrite G.
Qed.
Print Assumptions C105_grid_refuted.
(** and a combined plot ignores the kind of axes that is asked for *)
Theorem C105_scales : forall m plot_type xs ys divs levels flag r, In flag ["scatter"; "line"; "scatter-line"]%string ->
  scatter_contour m flag plot_type (Particles xs ys) divs levels = Ok r ->
  (plot_type = "linear" -> x_scale r = Some "linear" /\ y_scale r = Some "linear")%string /\ (plot_type = "log-log" -> x_scale r = Some "log" /\ y_scale r = Some "log")%string /\
  (plot_type = "semi-logx" -> x_scale r = Some "log" /\ y_scale r = Some "linear")%string /\ (plot_type = "semi-logy" -> x_scale r = Some "linear" /\ y_scale r = Some "log")%string.
Proof.
  intros m plot_type xs ys divs levels flag r F E. assert (H : (x_scale r, y_scale r) = scales flag plot_type).
  { unfold scatter_contour in E. destruct (if is_one_of flag _ then _ else _) as [c| |]; try discriminate. cbn [rbind] in E. destruct (if (_ || _)%bool then _ else _) as [xp| |]; try discriminate. cbn [rbind] in E. destruct (scales flag plot_type) as [sx sy]. injection E as <-. reflexivity. }
  repeat split; subst plot_type; destruct F as [<-|[<-|[<-|[]]]]; cbn in H; congruence.
Qed.
Print Assumptions C105_scales.
Theorem C105_scale_refuted : forall m xs ys divs levels r, scatter_contour m "combo" "log-log" (Particles xs ys) divs levels = Ok r -> x_scale r = None /\ y_scale r = None.
Proof.
  intros m xs ys divs levels r E. unfold scatter_contour in E. destruct (if is_one_of _ _ then _ else _) as [c| |]; try discriminate. cbn [rbind] in E. destruct (if (_ || _)%bool then _ else _) as [xp| |]; try discriminate. cbn [rbind] in E.
  cbn [scales is_one_of] in E. cbn in E. injection E as <-. split; reflexivity.
Qed.
Print Assumptions C105_scale_refuted.
Example C105_applies : forall m, exists r rows ls, scatter_contour m "combo" "linear" (Particles (repeat 1 20) (repeat 2 20)) 1 (Count 3) = Ok r /\ filled r = Some (rows, ls) /\ List.length ls = 3%nat.
Proof. intros m. apply (C105_dense_partial m "linear" (repeat 1 20) (repeat 2 20) 1 3 "combo" 8); cbn; auto; lia. Qed.

(* ------------------------------------------------------------------ *)
(** ** C106 The constants can be used.
    Every constant of rsconst has its value in terms of the constants of scipy. False: a name is used before
    it is assigned, so that the module cannot be imported, whatever the constants. *)
Theorem C106_import_refuted : forall consts, exec consts [] rsconst = Err NameError.
Proof. intros consts. reflexivity. Qed.
Print Assumptions C106_import_refuted.
(** Only the two constants before that line get values *)
Theorem C106_before_partial : forall consts, exists env, exec consts [] (firstn 2 rsconst) = Ok env /\
  dget string_dec env "C_to_STATC"%string = Some (consts "c"%string * 10) /\ dget string_dec env "EV_to_ERG"%string = Some (1602 / 10 ^ 15) /\
  exec consts env (skipn 2 rsconst) = Err NameError.
Proof. intros consts. eexists. repeat split. Qed.
Print Assumptions C106_before_partial.
Example C106_applies : List.length rsconst = 23%nat.
Proof. reflexivity. Qed.

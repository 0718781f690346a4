(** Lemmas for the SDDS claims: repeated reads, pages of different lengths, lines added to a header. *)
From Coq Require Import List Bool Arith Ascii String ZArith Reals Lia.
From Verif Require Import PyBase PyText Lte_Spec Sdds_Model Sdds_Spec Sdds_Proofs Sdds_Proofs2 Sdds_Proofs3 Sdds_Proofs4 Sdds_Proofs5 Sdds_Proofs6 Sdds_Proofs7 Sdds_Proofs8 Sdds_Proofs9 Sdds_Proofs10 Sdds_Proofs11 Sdds_Proofs12 Sdds_Proofs13.
Import ListNotations.
Open Scope Z_scope.

(* ------------------------------------------------------------------ *)
(** One reader, read again *)
Definition ready (r : reader) ps cs pgs : Prop :=
  set_up r ps cs /\ 0 <= r_pointer r <= Z.of_nat (List.length (r_file r)) /\
  skipn (Z.to_nat (r_pointer r)) (r_file r) = List.concat (map (bytes ps cs) pgs) /\ Forall (sound (r_max r) ps cs) pgs /\ (r_buffer r = true \/ Forall seen pgs).
Lemma ready_lists : forall r ps cs pgs a b c d, ready r ps cs pgs -> ready (with_lists r a b c d) ps cs pgs.
Proof. intros r ps cs pgs a b c d [SU H]. split; [|exact H]. destruct SU. constructor; assumption. Qed.
Lemma read_more : forall r ps cs pgs old fuel n, ready r ps cs pgs -> names_ok ps cs -> (List.length pgs < fuel)%nat ->
  Forall (fun pg => has_rows cs pg = true -> same_length n pg) (old ++ pgs) -> r_pages r = param_pages ps old -> r_rows r = col_pages cs old ->
  exists r', read fuel r None = Some (r', Ok tt) /\ ready r' ps cs pgs /\ r_buffer r' = r_buffer r /\
    r_parameters r' = Some (param_pages ps (old ++ pgs)) /\ r_columns r' = match cs with [] => r_columns r | _ => Some (col_pages cs (old ++ pgs)) end /\
    r_pages r' = param_pages ps (old ++ pgs) /\ r_rows r' = col_pages cs (old ++ pgs).
Proof.
  intros r ps cs pgs old fuel n RE NO FU EQ PG RW. pose proof RE as [SU [B [E [SO SH]]]].
  destruct (read_lists r ps cs None pgs fuel SU NO) as [g' [L [P R]]]; auto; [discriminate|].
  rewrite chosen_all in P. rewrite scanned_all in R. rewrite PG in P. rewrite RW in R.
  assert (P' : g_pages g' = param_pages ps (old ++ pgs)) by (rewrite P; unfold param_pages; now rewrite map_app).
  assert (R' : g_rows g' = col_pages cs (old ++ pgs)) by (rewrite R; unfold col_pages; now rewrite filter_app, map_app).
  unfold read. fold (start r). rewrite L.
  rewrite (concat_same 1) by (rewrite P'; unfold param_pages; rewrite Forall_map; apply Forall_forall; intros; reflexivity).
  assert (CK : r_ckeys r = [] <-> cs = []).
  { rewrite (su_ckeys _ _ _ SU). destruct cs as [|c cs]; [tauto|]. split; [|discriminate]. destruct (groups_nonempty (map coded (c :: cs)) []) as [a [b ->]]. discriminate. }
  destruct (r_ckeys r) as [|k ks] eqn:KK.
  - destruct CK as [CK _]. rewrite (CK eq_refl) in *. eexists. split; [reflexivity|]. split; [now apply ready_lists|]. cbn. rewrite P', R'. auto.
  - assert (C : cs <> []) by (intros C; apply CK in C; discriminate).
    rewrite (concat_same n).
    + eexists. split; [reflexivity|]. split; [now apply ready_lists|]. cbn. rewrite P', R'. destruct cs; [contradiction|auto].
    + rewrite R'. unfold col_pages. rewrite Forall_map. apply Forall_forall. intros pg I. apply filter_In in I. destruct I as [I H].
      rewrite Forall_forall in EQ. cbn. now rewrite (EQ pg I H).
Qed.
Lemma open_ready : forall h ps cs buffer max pgs, header_ok h -> declares h ps cs -> Forall fixed_readable (params_of (h_lines h)) -> binary_header h ->
  Forall (sound max ps cs) pgs -> (buffer = true \/ Forall seen pgs) ->
  exists r, open_sdds (header_text h ++ List.concat (map (bytes ps cs) pgs)) buffer max = Ok r /\ ready r ps cs pgs /\ r_pages r = [] /\ r_rows r = [] /\ r_columns r = None /\
    Forall2 param_rel (params_of (h_lines h)) (c_parameters (r_content r)) /\ Forall2 col_rel (cols_of (h_lines h)) (c_columns (r_content r)).
Proof.
  intros h ps cs buffer max pgs HO DC FR BH SO SH.
  destruct (open_binary h ps cs (List.concat (map (bytes ps cs) pgs)) buffer max HO DC FR BH) as [r [E [SU [RF [RB [RM [RP [P0 [R0 [C0 [A [A' _]]]]]]]]]]]].
  exists r. split; [exact E|]. split; [|repeat (split; [assumption|]); assumption]. split; [assumption|]. rewrite RP, RF, RM, RB, app_length, Nat2Z.id. repeat split; auto; try lia.
  rewrite skipn_app, skipn_all, Nat.sub_diag. reflexivity.
Qed.
Lemma again_same : forall k (P : page -> Prop) pgs, Forall P pgs -> Forall P (again k pgs).
Proof. induction k as [|k IH]; intros P pgs F; [constructor|]. cbn. apply Forall_app. auto. Qed.
Lemma reads_pages : forall k r ps cs pgs fuel n, ready r ps cs pgs -> names_ok ps cs -> (List.length pgs < fuel)%nat ->
  Forall (fun pg => has_rows cs pg = true -> same_length n pg) pgs -> r_pages r = [] -> r_rows r = [] ->
  exists r', reads k fuel r = Some (r', Ok tt) /\ ready r' ps cs pgs /\ r_pages r' = param_pages ps (again k pgs) /\ r_rows r' = col_pages cs (again k pgs) /\
    (k <> O -> r_parameters r' = Some (param_pages ps (again k pgs)) /\ (cs <> [] -> r_columns r' = Some (col_pages cs (again k pgs)))).
Proof.
  induction k as [|k IH]; intros r ps cs pgs fuel n RE NO FU EQ P0 R0.
  - exists r. cbn. split; [reflexivity|]. split; [assumption|]. split; [assumption|]. split; [assumption|]. intros X. now contradiction X.
  - destruct (IH r ps cs pgs fuel n RE NO FU EQ P0 R0) as [r1 [E [RE1 [P1 [R1 _]]]]]. cbn [reads again]. rewrite E.
    destruct (read_more r1 ps cs pgs (again k pgs) fuel n RE1 NO FU) as [r2 [E2 [RE2 [_ [A [B [C D]]]]]]]; auto.
    + apply Forall_app. split; [now apply again_same|assumption].
    + exists r2. rewrite E2. split; [reflexivity|]. split; [assumption|]. split; [assumption|]. split; [assumption|]. intros _. split; [assumption|]. intros NC. rewrite B. destruct cs; [contradiction|reflexivity].
Qed.

(** pages of different lengths *)
Lemma concat_differ : forall l a b n m, In a l -> In b l -> rows_of a = Some n -> rows_of b = Some m -> n <> m -> concat_pages l = Err ValueError.
Proof.
  intros [|x l] a b n m Ia Ib Ea Eb NE; [contradiction|]. cbn [concat_pages]. destruct (forallb (same_rows x) l) eqn:F; [|reflexivity]. exfalso. rewrite forallb_forall in F.
  assert (X : forall y k, In y (x :: l) -> rows_of y = Some k -> rows_of x = Some k).
  { intros y k [<-|I] E; [assumption|]. specialize (F y I). unfold same_rows in F. rewrite E in F. destruct (rows_of x); [|discriminate]. apply Nat.eqb_eq in F. now subst. }
  pose proof (X a n Ia Ea). pose proof (X b m Ib Eb). congruence.
Qed.
Lemma read_ragged : forall r ps cs pgs fuel a b, ready r ps cs pgs -> names_ok ps cs -> (List.length pgs < fuel)%nat ->
  r_pages r = [] -> r_rows r = [] -> cs <> [] -> In a pgs -> In b pgs -> pg_rows a <> [] -> pg_rows b <> [] -> List.length (pg_rows a) <> List.length (pg_rows b) ->
  exists r', read fuel r None = Some (r', Err ValueError).
Proof.
  intros r ps cs pgs fuel a b RE NO FU PG RW C IA IB NA NB D. pose proof RE as [SU [B [E [SO SH]]]].
  destruct (read_lists r ps cs None pgs fuel SU NO) as [g' [L [P R]]]; auto; [discriminate|].
  rewrite chosen_all in P. rewrite scanned_all in R. rewrite PG in P. rewrite RW in R. cbn [app] in P, R.
  unfold read. fold (start r). rewrite L.
  rewrite (concat_same 1) by (rewrite P; unfold param_pages; rewrite Forall_map; apply Forall_forall; intros; reflexivity).
  destruct (r_ckeys r) as [|k ks] eqn:KK.
  - exfalso. rewrite (su_ckeys _ _ _ SU) in KK. destruct cs as [|c cs]; [contradiction|]. destruct (groups_nonempty (map coded (c :: cs)) []) as [x [y Z]]. rewrite Z in KK. discriminate.
  - assert (HR : forall q, pg_rows q <> [] -> has_rows cs q = true) by (intros q Q; unfold has_rows; destruct cs; [contradiction|]; destruct (pg_rows q); [contradiction|reflexivity]).
    rewrite (concat_differ (g_rows g') (Some (col_page cs a)) (Some (col_page cs b)) (List.length (pg_rows a)) (List.length (pg_rows b))); [eexists; reflexivity| | |reflexivity|reflexivity|assumption];
      rewrite R; unfold col_pages; apply in_map_iff; eexists; (split; [reflexivity|]); apply filter_In; auto.
Qed.

(* ------------------------------------------------------------------ *)
(** Lines added to a header *)
Lemma flines_app : forall a b, (a = [] \/ exists a', a = a' ++ [newline]) -> flines (a ++ b) = flines a ++ flines b.
Proof.
  intros a b [->|[a' ->]]; [reflexivity|]. revert b. induction a' as [|c a' IH]; intros b.
  - reflexivity.
  - cbn [app flines]. destruct (Ascii.eqb c newline); [now rewrite IH|]. rewrite IH. destruct (flines (a' ++ [newline])) as [|l ls] eqn:E.
    + exfalso. apply (f_equal (@List.concat ascii)) in E. rewrite concat_flines in E. destruct a'; discriminate.
    + reflexivity.
Qed.
Lemma flines_inserted : forall a b sk, (a = [] \/ exists a', a = a' ++ [newline]) -> Forall ignorable sk ->
  flines (a ++ lines_text sk ++ b) = flines a ++ map (fun l => l ++ [newline]) sk ++ flines b.
Proof.
  intros a b sk A S. rewrite flines_app by assumption. f_equal. apply flines_lines. eapply Forall_impl; [|exact S]. intros l H. apply H.
Qed.
Lemma scan_skips : forall sk ins hd n rest, Forall ignorable sk -> scan ins hd n (map (fun l => l ++ [newline]) sk ++ rest) = scan ins hd n rest.
Proof. induction sk as [|l sk IH]; intros ins hd n rest F; [reflexivity|]. cbn [map app scan]. rewrite skippable_ignorable by exact (Forall_inv F). apply IH. exact (Forall_inv_tail F). Qed.
Lemma length_concat_app : forall (l1 l2 : list text), (List.length (List.concat l2) <= List.length (List.concat (l1 ++ l2)))%nat.
Proof. intros. rewrite concat_app, app_length. lia. Qed.
Lemma scan_inserted : forall sk l1 l2 ins hd n h c rest, Forall ignorable sk -> scan ins hd n (l1 ++ l2) = Ok (h, c, rest) ->
  (List.length (List.concat rest) < List.length (List.concat l2))%nat -> scan ins hd n (l1 ++ map (fun l => l ++ [newline]) sk ++ l2) = Ok (h, c, rest).
Proof.
  intros sk l1 l2 ins hd n h c rest F. revert ins hd n. induction l1 as [|x l1 IH]; intros ins hd n E L.
  - cbn [app] in *. now rewrite scan_skips.
  - cbn [app scan] in *. pose proof (length_concat_app l1 l2) as LL.
    destruct (skippable x); [now apply IH|]. destruct ins as [[data acc]|].
    + destruct (occurs (T "&end") x); [|now apply IH]. destruct data; [|now apply IH]. exfalso. injection E as _ _ <-. lia.
    + destruct (existsb _ namelists); [destruct (occurs (T "&end") x); now apply IH|]. destruct (prefixb (T "&data") x); [|assumption].
      destruct (occurs (T "&end") x); [|now apply IH]. exfalso. injection E as _ _ <-. lia.
Qed.
Lemma read_line_inserted : forall sk l1 l2 x rest, Forall ignorable sk -> read_line (l1 ++ l2) = Ok (x, rest) ->
  read_line (l1 ++ map (fun l => l ++ [newline]) sk ++ l2) = Ok (x, rest) \/
  exists l1', rest = l1' ++ l2 /\ read_line (l1 ++ map (fun l => l ++ [newline]) sk ++ l2) = Ok (x, l1' ++ map (fun l => l ++ [newline]) sk ++ l2).
Proof.
  intros sk l1 l2 x rest F. induction l1 as [|y l1 IH]; intros E.
  - left. cbn [app] in *. clear -E F. induction sk as [|l sk IH]; [assumption|]. cbn [map app read_line]. rewrite skippable_ignorable by exact (Forall_inv F). apply IH. exact (Forall_inv_tail F).
  - cbn [app read_line] in *. destruct (skippable y); [now apply IH|]. right. injection E as -> <-. exists l1. auto.
Qed.
Lemma header_inserted : forall a b sk h c rest, (a = [] \/ exists a', a = a' ++ [newline]) -> Forall ignorable sk ->
  read_header (a ++ b) = Ok (h, c, rest) -> (List.length (List.concat rest) < List.length b)%nat -> read_header (a ++ lines_text sk ++ b) = Ok (h, c, rest).
Proof.
  intros a b sk h c rest A F E L. unfold read_header in *. rewrite flines_inserted by assumption. rewrite flines_app in E by assumption.
  rewrite <- (concat_flines b) in L.
  destruct (read_line (flines a ++ flines b)) as [[x r]|e|] eqn:RL; cbn [rbind] in E; try discriminate.
  destruct (read_line_inserted sk _ _ _ _ F RL) as [X|[l1 [-> X]]]; rewrite X; cbn [rbind]; [assumption|].
  destruct (occurs (T "SDDS1") x); [|assumption]. now apply scan_inserted.
Qed.
(** everything but the bytes and the place of the data is the same *)
Definition shifted (r r' : reader) (f' : text) (d : Z) : Prop :=
  r' = {| r_file := f'; r_buffer := r_buffer r; r_max := r_max r; r_pointer := r_pointer r + d; r_count := r_count r; r_content := r_content r;
          r_data := r_data r; r_ascii := r_ascii r; r_varlen := r_varlen r; r_pkeys := r_pkeys r; r_ckeys := r_ckeys r; r_pages := r_pages r;
          r_rows := r_rows r; r_parameters := r_parameters r; r_columns := r_columns r |}.
Lemma open_shape : forall f buffer max r, open_sdds f buffer max = Ok r -> exists h c rest, read_header f = Ok (h, c, rest) /\
  r_pointer r = Z.of_nat (List.length f) - Z.of_nat (List.length (List.concat rest)) /\ r_file r = f /\ r_buffer r = buffer /\ r_pages r = [] /\ r_rows r = [] /\ r_columns r = None /\ r_parameters r = None.
Proof.
  intros f buffer max r E. unfold open_sdds in E. destruct (read_header f) as [[[h c] rest]|e|]; cbn [rbind] in E; try discriminate. exists h, c, rest. split; [reflexivity|].
  destruct (parse_all no_content h) as [ct|e|]; cbn [rbind] in E; try discriminate. destruct (c_data ct); [discriminate|].
  destruct (parameter_keys _ max ct f0); cbn [rbind] in E; try discriminate. injection E as <-. cbn. repeat split.
Qed.
Lemma open_inserted : forall a b sk buffer max r, (a = [] \/ exists a', a = a' ++ [newline]) -> Forall ignorable sk -> open_sdds (a ++ b) buffer max = Ok r ->
  Z.of_nat (List.length a) < r_pointer r -> exists r', open_sdds (a ++ lines_text sk ++ b) buffer max = Ok r' /\ shifted r r' (a ++ lines_text sk ++ b) (Z.of_nat (List.length (lines_text sk))).
Proof.
  intros a b sk buffer max r A F E L. destruct (open_shape _ _ _ _ E) as [h [c [rest [RH [RP _]]]]].
  assert (LR : (List.length (List.concat rest) < List.length b)%nat) by (rewrite RP, app_length in L; lia).
  pose proof (header_inserted a b sk h c rest A F RH LR) as RH'. unfold open_sdds in *. rewrite RH in E. rewrite RH'. cbn [rbind] in *.
  destruct (parse_all no_content h) as [ct|e|]; cbn [rbind] in *; try discriminate. destruct (c_data ct); [discriminate|].
  destruct (parameter_keys _ max ct f); cbn [rbind] in *; try discriminate. eexists. split; [reflexivity|]. injection E as <-. unfold shifted. cbn. f_equal. rewrite !app_length. lia.
Qed.

(** the rest of the file is read alike *)
Section Shift.
Variables (f f' : text) (p0 d : Z).
Hypothesis P0 : 0 <= p0 <= Z.of_nat (List.length f).
Hypothesis D0 : 0 <= d.
Hypothesis LN : Z.of_nat (List.length f') = Z.of_nat (List.length f) + d.
Hypothesis SAME : skipn (Z.to_nat p0) f = skipn (Z.to_nat (p0 + d)) f'.

Definition beside (s s' : source) : Prop := exists ptr, p0 <= ptr /\ s = File f ptr /\ s' = File f' (ptr + d).
Lemma skip_more : forall ptr, p0 <= ptr -> skipn (Z.to_nat ptr) f = skipn (Z.to_nat (ptr + d)) f'.
Proof.
  intros ptr L. replace (Z.to_nat ptr) with (Z.to_nat p0 + (Z.to_nat ptr - Z.to_nat p0))%nat by lia.
  replace (Z.to_nat (ptr + d)) with (Z.to_nat (p0 + d) + (Z.to_nat ptr - Z.to_nat p0))%nat by lia.
  assert (G : forall {A} a b (l : list A), skipn (a + b) l = skipn b (skipn a l)) by (clear; intros A a b; induction a as [|a IH]; intros [|x l]; cbn; [now rewrite ?skipn_nil|reflexivity|now rewrite skipn_nil|apply IH]).
  rewrite !G. now rewrite SAME.
Qed.
Definition agree {A} (x x' : res (A * source * Z)) : Prop :=
  match x, x' with
  | Ok (a, s, p), Ok (a', s', p') => a = a' /\ beside s s' /\ p = 0 /\ p' = 0
  | Err e, Err e' => e = e'
  | Diverges, Diverges => True
  | _, _ => False
  end.
Lemma take_rest : forall whole cols lines max, (List.length (List.concat (snd (take_rows whole cols max lines))) <= List.length (List.concat lines))%nat.
Proof.
  induction lines as [|l lines IH]; intros max; cbn [take_rows]; [destruct max as [[|m]|]; cbn; lia|].
  destruct max as [[|m]|]; [cbn; lia| |]; cbn [List.concat]; rewrite app_length.
  - destruct (line_values whole l); [specialize (IH (Some (Datatypes.S m))); lia|]. destruct (Nat.eqb _ _).
    + specialize (IH (option_map Init.Nat.pred (Some (Datatypes.S m)))). destruct (take_rows _ _ _ lines) as [[x y] z]. cbn [snd] in *. lia.
    + specialize (IH (Some (Datatypes.S m))). destruct (take_rows _ _ _ lines) as [[x y] z]. cbn [snd] in *. lia.
  - destruct (line_values whole l); [specialize (IH None); lia|]. destruct (Nat.eqb _ _); specialize (IH None); cbn [option_map]; destruct (take_rows _ _ _ lines) as [[x y] z]; cbn [snd] in *; lia.
Qed.
Lemma genfromtxt_rest : forall whole lines g max a rest, genfromtxt whole lines 0 g max = Ok (a, rest) -> (List.length (List.concat rest) <= List.length (List.concat lines))%nat.
Proof.
  intros whole lines g max a rest E. unfold genfromtxt in E. destruct (match max with Some m => m <? 1 | None => false end); [discriminate|]. destruct (dtype_size g); cbn [rbind] in E; try discriminate. destruct (negb (distinct (valid_names (map fst g)))); [discriminate|]. cbn [Z.to_nat skipn] in E.
  destruct (first_values whole lines) as [cols|]; [|injection E as _ <-; cbn; lia].
  pose proof (take_rest whole cols lines (option_map Z.to_nat max)) as T. destruct (take_rows whole cols (option_map Z.to_nat max) lines) as [[rows bad] rs]. cbn [snd] in T.
  destruct (bad || _); [discriminate|]. destruct (convert_rows _ g rows); cbn [rbind] in E; try discriminate. injection E as _ <-. exact T.
Qed.
Lemma fetch_agree : forall ascii single whole s s' g count, beside s s' -> agree (fetch ascii single whole s 0 g count) (fetch ascii single whole s' 0 g count).
Proof.
  intros ascii single whole s s' g count [ptr [L [-> ->]]]. unfold fetch. destruct ascii.
  - rewrite <- skip_more by assumption. destruct (genfromtxt whole (flines (skipn (Z.to_nat ptr) f)) 0 g count) as [[a rest]|e|] eqn:G; cbn [rbind agree]; auto.
    apply genfromtxt_rest in G. rewrite concat_flines, skipn_length in G. split; [reflexivity|]. split; [|auto]. eexists. split; [|split; [reflexivity|f_equal; lia]]. lia.
  - destruct count as [c|]; [|reflexivity]. unfold fromfile. destruct (dtype_size g) as [size|e|] eqn:DS; cbn [rbind agree]; auto.
    replace (ptr + 0) with ptr by lia. replace (ptr + d + 0) with (ptr + d) by lia. rewrite <- skip_more by assumption.
    replace (ptr <? 0) with false by (symmetry; apply Z.ltb_ge; lia). replace (ptr + d <? 0) with false by (symmetry; apply Z.ltb_ge; lia).
    assert (SZ : 0 <= size).
    { unfold dtype_size in DS. destruct (distinct _); [|discriminate]. clear -DS. revert size DS. induction g as [|[n k] g IH]; intros size H; cbn [item_size] in H; [injection H as <-; lia|].
      destruct (size_of k) as [z|e|] eqn:SK; cbn [rbind] in H; try discriminate. destruct (item_size g) as [z'|e|]; cbn [rbind] in H; try discriminate. injection H as <-. specialize (IH z' eq_refl).
      destruct k as [| | | | |[m|]]; cbn in SK; try (injection SK as <-; lia); try discriminate. destruct (Z.ltb_spec m 0); [discriminate|]. injection SK as <-. lia. }
    destruct (size =? 0).
    { destruct (c <? 0); cbn [rbind agree]; auto. split; [reflexivity|]. split; [|auto]. exists ptr. split; [lia|]. split; reflexivity. }
    destruct ((0 <=? c) && (c <=? Z.of_nat (List.length (skipn (Z.to_nat ptr) f)) / size)) eqn:CC; cbn [rbind agree]; (split; [reflexivity|]; split; [|auto]).
    + apply andb_true_iff in CC. destruct CC as [CC _]. apply Z.leb_le in CC. exists (ptr + c * size). split; [nia|]. split; [reflexivity|]. f_equal. lia.
    + exists (Z.max ptr (Z.of_nat (List.length f))). split; [lia|]. split; [reflexivity|]. f_equal. lia.
Qed.
Lemma groups_agree : forall ascii varlen whole gs s s' prev, beside s s' -> agree (fetch_groups ascii varlen whole s 0 prev gs) (fetch_groups ascii varlen whole s' 0 prev gs).
Proof.
  intros ascii varlen whole. induction gs as [|g gs IH]; intros s s' prev B; cbn [fetch_groups]; [cbn; auto|].
  pose proof (fetch_agree ascii true whole s s' (if varlen then fill prev g else g) (Some 1) B) as F.
  destruct (fetch ascii true whole s 0 _ (Some 1)) as [[[a s1] p1]|e|]; destruct (fetch ascii true whole s' 0 _ (Some 1)) as [[[a' s1'] p1']|e'|]; cbn [agree rbind] in *; try contradiction; auto.
  destruct F as [<- [B1 [-> ->]]]. specialize (IH s1 s1' (Some a) B1).
  destruct (fetch_groups ascii varlen whole s1 0 (Some a) gs) as [[[l s2] p2]|e|]; destruct (fetch_groups ascii varlen whole s1' 0 (Some a) gs) as [[[l' s2'] p2']|e'|]; cbn [agree rbind] in *; try contradiction; auto.
  destruct IH as [<- IH]. auto.
Qed.
Lemma rows_agree : forall ascii varlen gs n s s', beside s s' -> agree (fetch_rows n ascii varlen s 0 gs) (fetch_rows n ascii varlen s' 0 gs).
Proof.
  intros ascii varlen gs. induction n as [|n IH]; intros s s' B; cbn [fetch_rows]; [cbn; auto|].
  pose proof (groups_agree ascii varlen false gs s s' None B) as F.
  destruct (fetch_groups ascii varlen false s 0 None gs) as [[[a s1] p1]|e|]; destruct (fetch_groups ascii varlen false s' 0 None gs) as [[[a' s1'] p1']|e'|]; cbn [agree rbind] in *; try contradiction; auto.
  destruct F as [<- [B1 [-> ->]]]. specialize (IH s1 s1' B1).
  destruct (fetch_rows n ascii varlen s1 0 gs) as [[[l s2] p2]|e|]; destruct (fetch_rows n ascii varlen s1' 0 gs) as [[[l' s2'] p2']|e'|]; cbn [agree rbind] in *; try contradiction; auto.
  destruct IH as [<- IH]. auto.
Qed.
Lemma column_agree : forall r r' s s' n, r_ckeys r' = r_ckeys r -> r_ascii r' = r_ascii r -> r_varlen r' = r_varlen r -> beside s s' -> agree (column_data r s 0 n) (column_data r' s' 0 n).
Proof.
  intros r r' s s' n K A V B. unfold column_data. rewrite K, A, V. destruct (r_ckeys r) as [|g [|h gs]].
  - destruct n; [now apply rows_agree|reflexivity].
  - pose proof (fetch_agree (r_ascii r) false false s s' g n B) as F.
    destruct (fetch (r_ascii r) false false s 0 g n) as [[[a s1] p1]|e|]; destruct (fetch (r_ascii r) false false s' 0 g n) as [[[a' s1'] p1']|e'|]; cbn [agree rbind] in *; try contradiction; auto.
    destruct F as [<- F]. auto.
  - destruct n; [now apply rows_agree|reflexivity].
Qed.

Variables (r r' : reader).
Hypothesis SH : shifted r r' f' d.
Definition alongside (g g' : progress) : Prop := g_pages g' = g_pages g /\ g_rows g' = g_rows g /\ g_position g = 0 /\ g_position g' = 0 /\ beside (g_source g) (g_source g').
Definition lists_same (g g' : progress) : Prop := g_pages g' = g_pages g /\ g_rows g' = g_rows g.
Lemma turn_agree : forall page g g', alongside g g' -> exists x, snd (page_turn r None page g) = x /\ snd (page_turn r' None page g') = x /\
  lists_same (fst (page_turn r None page g)) (fst (page_turn r' None page g')) /\ (x = Ok true -> alongside (fst (page_turn r None page g)) (fst (page_turn r' None page g'))).
Proof.
  intros page g g' [GP [GR [G1 [G2 B]]]]. unfold page_turn. cbn [past].
  assert (FE : file_end (g_source g') (g_position g') = file_end (g_source g) (g_position g)).
  { destruct B as [ptr [L [-> ->]]]. cbn [file_end]. now rewrite <- skip_more. }
  rewrite FE, G1, G2. rewrite SH. cbn [r_ascii r_varlen r_pkeys r_max r_content r_data r_ckeys].
  destruct (file_end (g_source g) 0); [eexists; cbn [fst snd]; repeat split; eauto; discriminate|].
  pose proof (groups_agree (r_ascii r) (r_varlen r) true (r_pkeys r) (g_source g) (g_source g') None B) as F.
  destruct (fetch_groups (r_ascii r) (r_varlen r) true (g_source g) 0 None (r_pkeys r)) as [[[a s1] p1]|e|]; destruct (fetch_groups (r_ascii r) (r_varlen r) true (g_source g') 0 None (r_pkeys r)) as [[[a' s1'] p1']|e'|];
    cbn [agree] in F; try contradiction; try (subst e'); try (eexists; cbn [fst snd]; repeat split; eauto; discriminate).
  destruct F as [<- [B1 [-> ->]]]. cbn [wanted]. rewrite GP.
  destruct (stack (r_max r) (r_pkeys r) [a]) as [x|e|]; cbn [rbind]; try (eexists; cbn [fst snd]; repeat split; eauto; discriminate).
  cbn [g_pages g_rows g_source g_position orb].
  assert (RC : (match c_columns (r_content r) with [] => Ok (Some 0) | _ => if negb (truthy (field (r_data r) (T "no_row_counts"))) then do v <- entry_of row_counts a; Ok (Some (match v with VInt z => z | _ => 0 end)) else Ok (ascii_row_count s1' 0) end)
             = (match c_columns (r_content r) with [] => Ok (Some 0) | _ => if negb (truthy (field (r_data r) (T "no_row_counts"))) then do v <- entry_of row_counts a; Ok (Some (match v with VInt z => z | _ => 0 end)) else Ok (ascii_row_count s1 0) end)).
  { destruct (c_columns (r_content r)); [reflexivity|]. destruct (negb _); [reflexivity|]. destruct B1 as [ptr [L [-> ->]]]. cbn [ascii_row_count]. now rewrite <- skip_more. }
  rewrite RC. clear RC. destruct (match c_columns (r_content r) with [] => Ok (Some 0) | _ => _ end) as [n|e|]; try (eexists; cbn [fst snd g_pages g_rows]; repeat split; eauto; discriminate).
  pose proof (column_agree r r' s1 s1' n) as CA. rewrite SH in CA. cbn [r_ckeys r_ascii r_varlen] in CA. specialize (CA eq_refl eq_refl eq_refl B1).
  destruct n as [z|]; [destruct z as [|z|z]|]; try (
    match type of CA with agree ?A ?B => destruct A as [[[l s2] p2]|e|]; destruct B as [[[l' s2'] p2']|e'|] end; cbn [agree] in CA; try contradiction; try subst e'; try (eexists; cbn [fst snd g_pages g_rows]; repeat split; eauto; discriminate);
    destruct CA as [<- [B2 [-> ->]]]; destruct (stack (r_max r) (r_ckeys r) l) as [y|e|]; eexists; cbn [fst snd g_pages g_rows]; repeat split; cbn [g_pages g_rows g_source g_position]; rewrite ?GR; eauto; discriminate).
Qed.
Lemma loop_agree : forall fuel page g g', alongside g g' ->
  match page_loop fuel r None page g, page_loop fuel r' None page g' with
  | Some (h, x), Some (h', x') => x = x' /\ lists_same h h'
  | None, None => True
  | _, _ => False
  end.
Proof.
  induction fuel as [|fuel IH]; intros page g g' A; cbn [page_loop]; [exact I|]. destruct (turn_agree page g g' A) as [x [X [X' [L K]]]].
  destruct (page_turn r None page g) as [h y]. destruct (page_turn r' None page g') as [h' y']. cbn [fst snd] in *. subst y y'.
  destruct x as [[|]|e|]; [apply IH; now apply K|auto|auto|exact I].
Qed.
Hypothesis RF : r_file r = f.
Hypothesis RP : r_pointer r = p0.
Hypothesis RB : r_buffer r = false.
Lemma read_shifted : forall fuel, match read fuel r None, read fuel r' None with
  | Some (q, x), Some (q', x') => x = x' /\ r_parameters q' = r_parameters q /\ r_columns q' = r_columns q
  | None, None => True
  | _, _ => False
  end.
Proof.
  intros fuel. unfold read. assert (E : r_buffer r' = false) by (rewrite SH; exact RB). rewrite E, RB.
  assert (A : alongside {| g_pages := r_pages r; g_rows := r_rows r; g_source := source_of r; g_position := 0 |} {| g_pages := r_pages r'; g_rows := r_rows r'; g_source := source_of r'; g_position := 0 |}).
  { unfold alongside. cbn [g_pages g_rows g_source g_position]. rewrite SH at 1 2. cbn [r_pages r_rows]. repeat (split; [reflexivity|]). unfold source_of. rewrite E, RB. rewrite SH. cbn [r_file r_pointer].
    rewrite RF. exists p0. rewrite RP. repeat split; lia. }
  pose proof (loop_agree fuel 0 _ _ A) as L.
  destruct (page_loop fuel r None 0 _) as [[h x]|]; destruct (page_loop fuel r' None 0 _) as [[h' x']|]; try contradiction; [|exact I].
  destruct L as [<- [L1 L2]]. rewrite L1, L2. replace (r_ckeys r') with (r_ckeys r) by (now rewrite SH). replace (r_parameters r') with (r_parameters r) by (now rewrite SH). replace (r_columns r') with (r_columns r) by (now rewrite SH).
  destruct x as [u|e|]; cbn; auto. destruct (concat_pages (g_pages h)) as [ps|e|]; cbn; auto. destruct (r_ckeys r); cbn; auto. destruct (concat_pages (g_rows h)); cbn; auto.
Qed.
End Shift.

(** files with added lines, read without the buffer *)
Lemma read_inserted : forall a b sk max r r' fuel, (a = [] \/ exists a', a = a' ++ [newline]) -> Forall ignorable sk -> open_sdds (a ++ b) false max = Ok r ->
  Z.of_nat (List.length a) < r_pointer r -> open_sdds (a ++ lines_text sk ++ b) false max = Ok r' ->
  match read fuel r None, read fuel r' None with
  | Some (q, x), Some (q', x') => x = x' /\ r_parameters q' = r_parameters q /\ r_columns q' = r_columns q
  | None, None => True
  | _, _ => False
  end.
Proof.
  intros a b sk max r r' fuel A F E L E'. destruct (open_inserted a b sk false max r A F E L) as [r1 [E1 S1]]. rewrite E1 in E'. injection E' as <-.
  destruct (open_shape _ _ _ _ E) as [h [c [rest [RH [RP [RF [RB _]]]]]]].
  apply (read_shifted (a ++ b) (a ++ lines_text sk ++ b) (r_pointer r) (Z.of_nat (List.length (lines_text sk)))); auto.
  - rewrite RP. lia.
  - lia.
  - rewrite !app_length. lia.
  - assert (P : r_pointer r <= Z.of_nat (List.length (a ++ b))) by (rewrite RP; lia).
    replace (Z.to_nat (r_pointer r)) with (List.length a + (Z.to_nat (r_pointer r) - List.length a))%nat by lia.
    replace (Z.to_nat (r_pointer r + Z.of_nat (List.length (lines_text sk)))) with (List.length a + (List.length (lines_text sk) + (Z.to_nat (r_pointer r) - List.length a)))%nat by lia.
    rewrite !skipn_app. rewrite !(skipn_all2 a) by lia. cbn [app].
    rewrite (skipn_all2 (lines_text sk)) by lia. cbn [app]. f_equal. lia.
Qed.

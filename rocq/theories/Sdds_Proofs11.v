(** Lemmas for the SDDS claims: reading ASCII pages. *)
From Coq Require Import List Permutation Bool Arith Ascii String ZArith Reals Lia Lra.
From Verif Require Import PyBase PyText Lte_Spec Sdds_Model Sdds_Spec Sdds_Proofs Sdds_Proofs2 Sdds_Proofs3 Sdds_Proofs4 Sdds_Proofs5 Sdds_Proofs6 Sdds_Proofs7 Sdds_Proofs10.
Import ListNotations.
Open Scope Z_scope.


Record aset_up (r : reader) (ps cs : list (text * kind)) : Prop := {
  as_ascii : r_ascii r = true;
  as_pkeys : r_pkeys r = map (fun nk => [asized (r_max r) nk]) ps ++ [[(row_counts, I4)]];
  as_ckeys : r_ckeys r = [map (asized (r_max r)) cs];
  as_varlen : r_varlen r = false;
  as_columns : c_columns (r_content r) <> [];
  as_counts : truthy (field (r_data r) (T "no_row_counts")) = false }.

(** the lines as the source shows them *)
Definition ended (src : source) (ls : list text) : list text := map (fun l => l ++ nl (negb (buffered src))) ls.

Definition arrays (ps : list (text * kind)) (vs : list value) : list array := map (fun nv => {| a_names := [fst nv]; a_rows := [[snd nv]] |}) (combine (map fst ps) vs).

Lemma fetch_single : forall whole src position n k t v B max, alines src position ((t ++ nl (negb (buffered src))) :: B) -> line_text t -> reads_as true max k t v -> kept_name n -> whole = true ->
  exists src' position', fetch true true whole src position [asized max (n, k)] (Some 1) = Ok ({| a_names := [n]; a_rows := [[v]] |}, src', position') /\
    buffered src' = buffered src /\ alines src' position' B /\ (B = [] -> buffered src = true -> file_end src' position' = true).
Proof.
  intros whole src position n k t v B max A L R KN W. subst whole.
  destruct (read_dtype true max [(n, k)] [t] [v]) as [z DS]; [split; [exact R|exact I]|repeat constructor; intros []|]. cbn [map] in DS.
  destruct (fetch_lines true true src position [asized max (n, k)] 1 [t ++ nl (negb (buffered src))] [[t]] B [[v]] z) as [src' [p' [E [BU [AL FE]]]]]; auto.
  - constructor; [exact KN|constructor].
  - constructor; [now apply line_means|constructor].
  - discriminate.
  - change (Nat.eqb (List.length [asized max (n, k)]) 1) with true. pose proof (convert_reads true max n k t v R) as C. unfold asized, coded, sized in C |- *. cbn [fst snd] in C. cbn [convert_rows convert_row fst snd]. rewrite C. reflexivity.
  - exists src', p'. cbn [List.length map] in E. change (Z.of_nat 1) with 1 in E. split; [exact E|]. split; [assumption|]. split; [apply AL; now left|assumption].
Qed.

Lemma fetch_arrays : forall max ps ts vs gs src position prev B, Forall line_text ts -> reads_all true max (map snd ps) ts vs -> Forall kept_name (map fst ps) -> alines src position (ended src ts ++ B) ->
  exists src' position', buffered src' = buffered src /\ alines src' position' B /\
    fetch_groups true false true src position prev (map (fun nk => [asized max nk]) ps ++ gs) =
    (do2 (l, s, p) <- fetch_groups true false true src' position' (match rev (arrays ps vs) with a :: _ => Some a | [] => prev end) gs; Ok (arrays ps vs ++ l, s, p)).
Proof.
  intros max ps. induction ps as [|[n k] ps IH]; intros ts vs gs src position prev B F R KN A; destruct ts as [|t ts], vs as [|v vs]; cbn [map snd reads_all] in R; try contradiction.
  - exists src, position. split; [reflexivity|]. split; [exact A|]. cbn [map app arrays combine rev]. destruct (fetch_groups true false true src position prev gs) as [[[l s] p]|e|]; reflexivity.
  - destruct R as [R1 R2]. inversion F as [|? ? L1 L2]; subst. cbn [ended map app] in A.
    destruct (fetch_single true src position n k t v (ended src ts ++ B) max A L1 R1 (Forall_inv KN) eq_refl) as [s1 [p1 [E1 [B1 [A1 _]]]]].
    assert (A1' : alines s1 p1 (ended s1 ts ++ B)) by (unfold ended; rewrite B1; exact A1).
    destruct (IH ts vs gs s1 p1 (Some {| a_names := [n]; a_rows := [[v]] |}) B L2 R2 (Forall_inv_tail KN) A1') as [s2 [p2 [B2 [A2 E2]]]].
    exists s2, p2. split; [congruence|]. split; [assumption|]. cbn [map app fetch_groups]. rewrite E1. cbn [rbind]. rewrite E2.
    replace (match rev (arrays ((n, k) :: ps) (v :: vs)) with a :: _ => Some a | [] => prev end)
      with (match rev (arrays ps vs) with a :: _ => Some a | [] => Some {| a_names := [n]; a_rows := [[v]] |} end).
    + destruct (fetch_groups true false true s2 p2 _ gs) as [[[l s] p]|e|]; reflexivity.
    + unfold arrays. cbn [map fst combine rev snd]. destruct (rev (map (fun nv : text * value => {| a_names := [fst nv]; a_rows := [[snd nv]] |}) (combine (map fst ps) vs))); reflexivity.
Qed.

Lemma as_unicode_reads : forall alone max k t v, reads_as alone max k t v -> as_unicode max v = Ok v.
Proof.
  intros alone max k t v H. destruct k, v; cbn in H; try contradiction; try reflexivity. destruct H as [-> H]. apply (as_unicode_fits max Str (VStr t)). exact H.
Qed.
Lemma unicode_reads : forall alone max ks ts vs (ns : list text), reads_all alone max ks ts vs -> forall nv, In nv (combine ns vs) -> as_unicode max (snd nv) = Ok (snd nv).
Proof.
  intros alone max ks ts vs ns R [n v] I. apply in_combine_r in I. cbn [snd]. clear ns. revert ts vs R I. induction ks as [|k ks IH]; intros [|t ts] [|w vs] R I; cbn in R; try contradiction.
  destruct R as [R1 R2]. destruct I as [->|I]; [eapply as_unicode_reads; eassumption|eauto].
Qed.
Lemma dec_line : forall z, line_text (dec z).
Proof.
  intros z. assert (C : forall c, In c (dec z) -> dec_char c) by (intros; eapply dec_chars; eassumption).
  assert (N : dec z <> []) by apply dec_nonempty.
  assert (X : forall c, dec_char c -> c <> "!"%char /\ c <> newline /\ c <> cr /\ c <> " "%char) by (intros c H; repeat split; intros ->; destruct H as [H|H]; discriminate).
  split; [assumption|]. split; [intros c I; destruct (X c (C c I)) as [? [? [? ?]]]; auto|]. split; [apply X, C, in_hd|apply X, C, in_last]; assumption.
Qed.
Lemma dec_reads : forall max n, 0 <= n < 2 ^ 31 -> reads_as true max Long (dec n) (VInt n).
Proof. intros max n H. split; [apply py_int_dec|lia]. Qed.
Lemma row_counts_kept : kept_name row_counts.
Proof.
  split; [discriminate|]. split; [|repeat split; discriminate].
  intros c I. cbn in I. repeat destruct I as [<-|I]; try contradiction; (split; [reflexivity|discriminate]).
Qed.

Lemma NoDup_app_single : forall (l : list text) x, NoDup l -> ~ In x l -> NoDup (l ++ [x]).
Proof. intros l x H N. apply (Permutation.Permutation_NoDup (l := x :: l)); [apply Permutation.Permutation_cons_append|now constructor]. Qed.
Lemma filter_named : forall l : list text, ~ In record_length l -> filter (fun n => negb (teqb n record_length)) l = l.
Proof. induction l as [|x l IH]; intros N; [reflexivity|]. cbn [filter]. rewrite teqb_neq by (intros ->; apply N; now left). cbn [negb]. rewrite IH; [reflexivity|]. intros I; apply N; now right. Qed.
Lemma flat_arrays : forall (nvs : list (text * value)), ~ In record_length (map fst nvs) ->
  filter named (flat (map (fun nv => {| a_names := [fst nv]; a_rows := [[snd nv]] |}) nvs)) = nvs.
Proof.
  induction nvs as [|[n v] nvs IH]; intros N; [reflexivity|]. unfold flat in *. cbn [map List.concat a_names a_rows hd combine app filter fst snd]. unfold named at 1. cbn [fst].
  rewrite teqb_neq by (intros ->; apply N; now left). cbn [negb]. rewrite IH; [reflexivity|]. intros I. apply N. now right.
Qed.
Lemma entry_last : forall (nvs : list (text * value)) v, ~ In row_counts (map fst nvs) ->
  entry_of row_counts (map (fun nv => {| a_names := [fst nv]; a_rows := [[snd nv]] |}) nvs ++ [{| a_names := [row_counts]; a_rows := [[v]] |}]) = Ok v.
Proof.
  induction nvs as [|[n w] nvs IH]; intros v N.
  - cbn [map app entry_of a_names]. rewrite teqb_refl. unfold lookup. cbn [a_rows a_names position_of]. now rewrite teqb_refl.
  - cbn [map app entry_of a_names fst]. rewrite teqb_neq by (intros E; apply N; left; exact E). apply IH. intros I. apply N. now right.
Qed.

Lemma apage_params : forall r ps cs cs2 ap pg src position B, aset_up r ps cs -> names_ok ps cs -> asound (r_max r) ps cs2 ap pg ->
  alines src position (ended src (ap_params ap ++ [dec (Z.of_nat (List.length (ap_rows ap)))]) ++ B) ->
  exists data src' position',
    fetch_groups (r_ascii r) (r_varlen r) true src position None (r_pkeys r) = Ok (data, src', position') /\
    stack (r_max r) (r_pkeys r) [data] = Ok (Some (aparam_page ps pg)) /\
    entry_of row_counts data = Ok (VInt (Z.of_nat (List.length (pg_rows pg)))) /\
    alines src' position' B /\ buffered src' = buffered src /\ (B = [] -> buffered src = true -> file_end src' position' = true).
Proof.
  intros r ps cs cs2 ap pg src position B SU [N1 [N2 [N3 N4]]] [[F1 [F2 [R1 [R2 LE]]]] KN] A. apply Forall_app in KN. destruct KN as [KP _].
  assert (N3' : ~ In record_length (map fst ps)) by (intros I; apply N3, in_or_app; now left).
  assert (LN : List.length (pg_rows pg) = List.length (ap_rows ap)) by (now apply Forall2_len in R2).
  assert (LP : List.length (pg_params pg) = List.length (map fst ps)) by (apply reads_lengths in R1; rewrite map_length in *; tauto).
  rewrite (as_ascii _ _ _ SU), (as_varlen _ _ _ SU), (as_pkeys _ _ _ SU). rewrite LN. set (n := Z.of_nat (List.length (ap_rows ap))) in *.
  unfold ended in A. rewrite map_app, <- app_assoc in A. fold (ended src (ap_params ap)) in A. cbn [map app] in A.
  destruct (fetch_arrays (r_max r) ps (ap_params ap) (pg_params pg) [[(row_counts, I4)]] src position None _ F1 R1 KP A) as [s1 [p1 [B1 [A1 E1]]]].
  rewrite <- B1 in A1.
  destruct (fetch_single true s1 p1 row_counts Long (dec n) (VInt n) B (r_max r) A1 (dec_line n) (dec_reads _ n ltac:(unfold n; lia)) row_counts_kept eq_refl) as [s2 [p2 [E2 [B2 [A2 FE]]]]].
  change ([asized (r_max r) (row_counts, Long)]) with [(row_counts, I4)] in E2.
  set (lastarr := {| a_names := [row_counts]; a_rows := [[VInt n]] |}) in *.
  exists (arrays ps (pg_params pg) ++ [lastarr]), s2, p2. split; [|split; [|split; [|split; [|split]]]].
  - rewrite E1. cbn [fetch_groups]. rewrite E2. reflexivity.
  - cbn [stack]. destruct ps as [|[m k] ps'].
    + destruct (pg_params pg) eqn:PP; [|discriminate]. cbn [arrays map combine app merge rbind]. unfold aparam_page, lastarr. rewrite PP, LN. reflexivity.
    + set (ps := (m, k) :: ps') in *.
      rewrite (merge_flat (r_max r) _ _ (combine (map fst ps) (pg_params pg) ++ [(row_counts, VInt n)])).
      * cbn [rbind]. rewrite !map_app. rewrite fst_combine, snd_combine by assumption. unfold aparam_page. rewrite LN. reflexivity.
      * rewrite app_length. unfold arrays. rewrite map_length, combine_length, LP, Nat.min_id, map_length. cbn. lia.
      * apply Forall_app. split; [|repeat constructor; eexists; split; reflexivity]. unfold arrays. rewrite Forall_map. apply Forall_forall. intros x _. eexists. split; reflexivity.
      * unfold flat. rewrite map_app, concat_app, filter_app. fold (flat (arrays ps (pg_params pg))). unfold arrays. rewrite flat_arrays by (now rewrite fst_combine).
        f_equal.
      * rewrite map_app, fst_combine by assumption. cbn [map fst]. apply NoDup_app_single; assumption.
      * intros nv I. apply in_app_or in I. destruct I as [I|[<-|[]]]; [|reflexivity]. eapply unicode_reads; eassumption.
      * rewrite concat_app, map_app. rewrite filter_named.
        -- rewrite map_app, fst_combine by assumption. f_equal. clear. induction ps as [|p ps IH]; [reflexivity|]. cbn [map List.concat app]. now rewrite IH.
        -- assert (X : map fst (List.concat (map (fun nk => [asized (r_max r) nk]) ps)) = map fst ps) by (clear; induction ps as [|p ps IH]; [reflexivity|]; cbn [map List.concat app]; now rewrite IH).
           rewrite X. intros I. apply in_app_or in I. destruct I as [I|[I|[]]]; [auto|]. now apply row_counts_length.
  - apply entry_last. now rewrite fst_combine.
  - assumption.
  - congruence.
  - intros BE BU. apply FE; [assumption|congruence].
Qed.

Lemma apage_columns : forall r ps cs ap pg src position B, aset_up r ps cs -> NoDup (map fst cs) -> asound (r_max r) ps cs ap pg -> cs <> [] -> ap_rows ap <> [] ->
  alines src position (ended src (map (join [space]) (ap_rows ap)) ++ B) ->
  exists data src' position',
    column_data r src position (Some (Z.of_nat (List.length (pg_rows pg)))) = Ok (data, src', position') /\
    stack (r_max r) (r_ckeys r) data = Ok (Some (col_page cs pg)) /\ buffered src' = buffered src /\
    (buffered src = false -> alines src' position' B) /\ (B = [] -> buffered src = true -> file_end src' position' = true).
Proof.
  intros r ps cs ap pg src position B SU ND [[F1 [F2 [R1 [R2 LE]]]] KN] C NE A. apply Forall_app in KN. destruct KN as [_ KC].
  assert (LN : List.length (pg_rows pg) = List.length (ap_rows ap)) by (now apply Forall2_len in R2).
  assert (LR : Forall (fun ws => List.length ws = List.length cs) (ap_rows ap)).
  { clear - R2. induction R2 as [|ts vs l m H F IH]; constructor; [|assumption]. apply reads_lengths in H. rewrite map_length in H. tauto. }
  assert (DS : exists z, dtype_size (map (asized (r_max r)) cs) = Ok z).
  { destruct R2 as [|ts vs l m H F]; [contradiction|]. eapply read_dtype; eassumption. }
  destruct DS as [z DS].
  destruct (fetch_lines false false src position (map (asized (r_max r)) cs) (List.length cs) (ended src (map (join [space]) (ap_rows ap))) (ap_rows ap) B (pg_rows pg) z A DS) as [s1 [p1 [E [BU [AL FE]]]]].
  - now rewrite asized_names.
  - clear - F2 LR C. unfold ended. rewrite map_map. induction F2 as [|ws l W F IH]; [constructor|]. inversion LR as [|? ? L1 L2]; subst. cbn [map]. constructor; [|now apply IH].
    apply row_means; [|assumption]. intros ->. destruct cs; [contradiction|discriminate].
  - assumption.
  - unfold ended. destruct (ap_rows ap); [contradiction|discriminate].
  - rewrite map_length. tauto.
  - rewrite map_length in R2 |- *. now apply convert_rows_reads.
  - discriminate.
  - unfold column_data. rewrite (as_ckeys _ _ _ SU), (as_ascii _ _ _ SU). unfold ended in E. rewrite !map_length in E. rewrite LN, E. cbn [rbind].
    eexists _, _, _. split; [reflexivity|]. split; [|split; [assumption|split; [intros X; apply AL; now right|assumption]]].
    cbn [stack merge rbind]. unfold col_page. f_equal. f_equal. f_equal. rewrite map_map. apply map_ext. intros [n k]. reflexivity.
Qed.

Lemma aturn_page : forall r ps cs ap pg i g B, aset_up r ps cs -> names_ok ps cs -> asound (r_max r) ps cs ap pg -> cs <> [] ->
  alines (g_source g) (g_position g) (ended (g_source g) (apage_lines ap) ++ B) -> file_end (g_source g) (g_position g) = false ->
  exists g', page_turn r None i g = (g', Ok true) /\
    g_pages g' = g_pages g ++ [Some (aparam_page ps pg)] /\
    g_rows g' = (if has_rows cs pg then g_rows g ++ [Some (col_page cs pg)] else g_rows g) /\
    buffered (g_source g') = buffered (g_source g) /\
    (buffered (g_source g) = false -> alines (g_source g') (g_position g') B) /\
    (B = [] -> buffered (g_source g) = true -> file_end (g_source g') (g_position g') = true).
Proof.
  intros r ps cs ap pg i g B SU NO SO C A FE.
  unfold apage_lines in A. rewrite app_assoc in A. unfold ended in A. rewrite map_app, <- app_assoc in A. fold (ended (g_source g) (map (join [space]) (ap_rows ap))) in A.
  match type of A with alines _ _ (map ?f ?l ++ ?m) => change (alines (g_source g) (g_position g) (ended (g_source g) l ++ m)) in A end.
  destruct (apage_params r ps cs cs ap pg _ _ _ SU NO SO A) as [data [s1 [p1 [E1 [ST [EN [A1 [B1 F1]]]]]]]].
  pose proof SO as [[_ [_ [_ [R2 _]]]] _]. assert (LN : List.length (pg_rows pg) = List.length (ap_rows ap)) by (now apply Forall2_len in R2).
  unfold page_turn. cbn [past]. rewrite FE, E1. cbn [wanted orb]. rewrite ST. cbn [rbind].
  destruct (c_columns (r_content r)) as [|d0 ds] eqn:CC; [now elim (as_columns _ _ _ SU)|]. rewrite (as_counts _ _ _ SU). cbn [negb]. rewrite EN. cbn [rbind].
  destruct (pg_rows pg) as [|row rows] eqn:PR.
  - cbn [List.length Z.of_nat]. destruct (ap_rows ap) eqn:AR; [|discriminate]. eexists. split; [reflexivity|]. cbn [g_pages g_rows g_source g_position].
    unfold has_rows. rewrite PR. split; [reflexivity|]. split; [now destruct cs|]. split; [assumption|]. cbn [map ended app] in A1, F1. split; [intros _; assumption|assumption].
  - assert (AN : ap_rows ap <> []) by (intros X; rewrite X in LN; discriminate).
    assert (A1' : alines s1 p1 (ended s1 (map (join [space]) (ap_rows ap)) ++ B)) by (unfold ended; rewrite B1; exact A1).
    destruct (apage_columns r ps cs ap pg s1 p1 B SU (proj1 (proj2 NO)) SO C AN A1') as [cd [s2 [p2 [E2 [S2 [B2 [AL FE2]]]]]]]. rewrite PR in E2.
    destruct (Z.of_nat (List.length (row :: rows))) as [|q|q] eqn:Q; [cbn in Q; lia| |lia].
    rewrite E2, S2. eexists. split; [reflexivity|]. cbn [g_pages g_rows g_source g_position].
    unfold has_rows. rewrite PR. split; [reflexivity|]. split; [now destruct cs|]. split; [congruence|]. rewrite <- B1. split; assumption.
Qed.

(* ------------------------------------------------------------------ *)
(** Where the file ends *)
Lemma end_before_apage : forall ap src position B, alines src position (ended src (apage_lines ap) ++ B) -> buffered src = true \/ aseen ap -> file_end src position = false.
Proof.
  intros ap src position B A H. assert (NE : exists l ls, apage_lines ap = l :: ls).
  { unfold apage_lines. destruct (ap_params ap); cbn; eauto. }
  destruct NE as [l [ls E]]. unfold aseen in H. rewrite E in A, H. cbn [hd ended map app] in A, H. destruct src as [f|xs|f ptr]; cbn [alines buffered negb nl] in *; [contradiction| |].
  - destruct A as [P A]. cbn [file_end]. apply Z.leb_gt. apply (f_equal (@List.length text)) in A. rewrite skipn_length in A. cbn in A. lia.
  - destruct H as [H|H]; [discriminate|]. destruct l as [|c r]; [contradiction|]. destruct A as [_ [_ A]]. cbn [file_end].
    destruct (skipn (Z.to_nat ptr) f) as [|d t] eqn:SK; [discriminate|]. cbn [app] in A.
    assert (D : d = c /\ exists m, fst (readline (flines t)) = r ++ [newline] ++ m \/ c = newline).
    { cbn [flines] in A. destruct (Ascii.eqb_spec d newline) as [->|N].
      - injection A as A1 A2. subst c. split; [reflexivity|]. exists []. now right.
      - destruct (flines t) as [|u us] eqn:FT; [injection A as A1 A2 A3; destruct r; discriminate|]. injection A as A1 A2 A3. subst. split; [reflexivity|]. exists []. left. reflexivity. }
    destruct D as [-> [m [D|D]]].
    + rewrite D. destruct H as [x [I X]]. apply not_true_is_false. intros Y. rewrite forallb_forall in Y. rewrite (Y x) in X by (apply in_or_app; now left). discriminate.
    + subst c. cbn [flines] in A. rewrite Ascii.eqb_refl in A. injection A as A1 A2. destruct r; discriminate.
Qed.
Lemma aend_of_nothing : forall src position, alines src position [] -> file_end src position = true.
Proof.
  intros [f|ls|f ptr] position A; cbn in *; [contradiction| |].
  - destruct A as [P E]. apply (f_equal (@List.length text)) in E. rewrite skipn_length in E. cbn in E. apply Z.leb_le. lia.
  - destruct A as [_ [_ E]]. destruct (skipn (Z.to_nat ptr) f) as [|c s]; [reflexivity|]. destruct (flines_head c s) as [l [ls H]]. rewrite H in E. discriminate.
Qed.

(** from the file: any number of pages *)
Lemma aloop_pages : forall r ps cs, aset_up r ps cs -> names_ok ps cs -> cs <> [] ->
  forall aps pgs fuel i g, Forall2 (asound (r_max r) ps cs) aps pgs -> alines (g_source g) (g_position g) (List.concat (map (fun ap => ended (g_source g) (apage_lines ap)) aps)) ->
  buffered (g_source g) = false \/ (List.length aps <= 1)%nat -> buffered (g_source g) = true \/ Forall aseen aps -> (List.length pgs < fuel)%nat ->
  exists g', page_loop fuel r None i g = Some (g', Ok tt) /\ g_pages g' = g_pages g ++ aparam_pages ps pgs /\ g_rows g' = g_rows g ++ col_pages cs pgs.
Proof.
  intros r ps cs SU NO C aps pgs fuel i g F. revert fuel i g. induction F as [|ap pg aps pgs SO F IH]; intros fuel i g A ONE SH FU; (destruct fuel as [|fuel]; [cbn in FU; lia|]).
  - cbn [map List.concat] in A. exists g. cbn [page_loop]. unfold page_turn. cbn [past]. rewrite (aend_of_nothing _ _ A). cbn. rewrite !app_nil_r. auto.
  - cbn [map List.concat] in A.
    assert (FE : file_end (g_source g) (g_position g) = false).
    { eapply end_before_apage; [exact A|]. destruct SH as [H|H]; [now left|right; now inversion H]. }
    destruct (aturn_page r ps cs ap pg i g _ SU NO SO C A FE) as [g1 [E1 [P1 [R1 [B1 [AL EN]]]]]].
    cbn [page_loop]. rewrite E1.
    assert (RW : g_rows g1 ++ col_pages cs pgs = g_rows g ++ col_pages cs (pg :: pgs)).
    { rewrite R1. unfold col_pages. cbn [filter]. destruct (has_rows cs pg); [|reflexivity]. cbn [map]. now rewrite <- app_assoc. }
    assert (PW : g_pages g1 ++ aparam_pages ps pgs = g_pages g ++ aparam_pages ps (pg :: pgs)) by (rewrite P1; unfold aparam_pages; cbn [map]; now rewrite <- app_assoc).
    destruct (buffered (g_source g)) eqn:BU.
    + destruct ONE as [ONE|ONE]; [discriminate|]. destruct aps as [|? ?]; [|cbn in ONE; lia]. inversion F; subst. cbn [map List.concat] in EN.
      destruct fuel as [|fuel]; [cbn in FU; lia|]. exists g1. cbn [page_loop]. unfold page_turn. cbn [past]. rewrite EN by reflexivity. rewrite <- RW, <- PW. cbn. rewrite !app_nil_r. auto.
    + destruct (IH fuel (i + 1) g1) as [g2 [E2 [P2 R2]]].
      * unfold ended in *. rewrite B1. rewrite BU in AL. apply AL. reflexivity.
      * left. congruence.
      * destruct SH as [H|H]; [discriminate|right; now inversion H].
      * cbn in FU; lia.
      * exists g2. split; [assumption|]. rewrite P2, R2, RW, PW. auto.
Qed.

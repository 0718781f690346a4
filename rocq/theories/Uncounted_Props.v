(** C125: ASCII SDDS files without row counts (rsbeams/rsdata/SDDS.py _get_ascii_row_count). *)
From Coq Require Import List Bool Arith Ascii String ZArith Lia.
From Verif Require Import PyBase PyText Lte_Spec Sdds_Model Sdds_Spec Sdds_Proofs Sdds_Proofs2 Sdds_Proofs3 Sdds_Proofs4 Sdds_Proofs5 Sdds_Proofs6 Sdds_Proofs7 Sdds_Proofs8 Sdds_Proofs10 Sdds_Proofs11 Sdds_Proofs12 Sdds_Samples Uncounted_Spec.
Import ListNotations.
Open Scope Z_scope.

Record uset_up (r : reader) (ps cs : list (text * kind)) : Prop := {
  us_ascii : r_ascii r = true;
  us_pkeys : r_pkeys r = map (fun nk => [asized (r_max r) nk]) ps;
  us_ckeys : r_ckeys r = [map (asized (r_max r)) cs];
  us_varlen : r_varlen r = false;
  us_columns : c_columns (r_content r) <> [];
  us_counts : truthy (field (r_data r) (T "no_row_counts")) = true }.

Lemma open_uncounted : forall h ps cs data buffer max, header_ok h -> declares h ps cs -> Forall fixed_readable (params_of (h_lines h)) -> uncounted_header h -> cs <> [] ->
  match ps with [] => open_sdds (header_text h ++ data) buffer max = Err IndexError | _ =>
  exists r, open_sdds (header_text h ++ data) buffer max = Ok r /\ uset_up r ps cs /\ r_file r = header_text h ++ data /\ r_buffer r = buffer /\ r_max r = max /\
    r_pointer r = Z.of_nat (List.length (header_text h)) /\ r_pages r = [] /\ r_rows r = [] /\ r_columns r = None /\
    r_count r = (List.length (lines_of (h_lines h)) + 2)%nat end.
Proof.
  intros h ps cs data buffer max HO DC FR [B1 B2] NC. destruct (open_general h ps cs data buffer max HO DC FR) as [ct [RP [RC [KP [KC E]]]]].
  assert (A : is_ascii h = true) by (unfold is_ascii; rewrite B1; apply teqb_refl). rewrite A in E.
  assert (CC : c_columns ct <> []).
  { intros X. rewrite X in KC. cbn in KC. destruct cs; [contradiction|discriminate]. }
  assert (NRC : truthy (field (fields_of data_defaults (h_data h)) (T "no_row_counts")) = true) by (rewrite counts_field, B2; reflexivity).
  assert (PG : forall ps, parameter_groups true max (map coded ps) = map (fun nk => [asized max nk]) ps).
  { clear. induction ps as [|[n k] ps IH]; [reflexivity|]. destruct k; cbn [map coded parameter_groups dt_of fst snd]; now rewrite IH. }
  unfold parameter_keys in E. cbn [negb] in E. rewrite NRC, KP, PG in E. cbn [negb andb] in E.
  destruct ps as [|p ps']; [cbn [map rbind] in E; exact E|]. set (ps := p :: ps') in *.
  change (match map (fun nk => [asized max nk]) ps with [] => Err IndexError | _ :: _ => Ok (map (fun nk => [asized max nk]) ps) end) with (@Ok (list group) (map (fun nk => [asized max nk]) ps)) in E. cbn [rbind] in E.
  rewrite E. eexists. split; [reflexivity|]. cbn [r_file r_buffer r_max r_pointer r_pages r_rows r_columns r_count].
  split; [|repeat split].
  constructor; cbn [r_ascii r_pkeys r_max r_ckeys r_varlen r_content r_data negb andb]; try reflexivity; try assumption.
  unfold column_keys. rewrite KC. destruct cs as [|[n k] cs]; [contradiction|]. cbn [map]. unfold asized. rewrite <- (map_map coded (sized max)). reflexivity.
Qed.

(* ------------------------------------------------------------------ *)
(** Empty lines are passed over in looking for a parameter *)
Lemma genfromtxt_blank : forall whole l lines g m, line_values whole l = [] -> (1 <= m) ->
  genfromtxt whole (l :: lines) 0 g (Some m) = genfromtxt whole lines 0 g (Some m).
Proof.
  intros whole l lines g m E M. unfold genfromtxt. cbn [Z.to_nat skipn first_values option_map]. rewrite E. destruct (m <? 1); [reflexivity|]. destruct (dtype_size g); cbn [rbind]; try reflexivity.
  destruct (negb _); [reflexivity|]. destruct (first_values whole lines) as [cols|]; [|reflexivity]. cbn [take_rows]. rewrite E.
  destruct (Z.to_nat m) as [|k] eqn:K; [lia|]. reflexivity.
Qed.
Lemma newline_blank : line_values true [newline] = [].
Proof. reflexivity. Qed.
Lemma groups_blank : forall f ptr ptr' gs prev, flines (skipn (Z.to_nat ptr) f) = [newline] :: flines (skipn (Z.to_nat ptr') f) -> gs <> [] ->
  fetch_groups true false true (File f ptr) 0 prev gs = fetch_groups true false true (File f ptr') 0 prev gs.
Proof.
  intros f ptr ptr' gs prev E N. destruct gs as [|g gs]; [contradiction|]. cbn [fetch_groups]. unfold fetch. rewrite E, genfromtxt_blank by (reflexivity || lia). reflexivity.
Qed.

(** Parameters of a page *)
Lemma upage_params : forall r ps cs ap pg src position B, uset_up r ps cs -> names_ok ps cs -> asound (r_max r) ps cs ap pg -> ps <> [] ->
  alines src position (ended src (ap_params ap) ++ B) ->
  exists data src' position',
    fetch_groups (r_ascii r) (r_varlen r) true src position None (r_pkeys r) = Ok (data, src', position') /\
    stack (r_max r) (r_pkeys r) [data] = Ok (Some {| a_names := map fst ps; a_rows := [pg_params pg] |}) /\
    alines src' position' B /\ buffered src' = buffered src.
Proof.
  intros r ps cs ap pg src position B SU [N1 [N2 [N3 N4]]] [[F1 [F2 [R1 [R2 LE]]]] KN] NP A. apply Forall_app in KN. destruct KN as [KP _].
  assert (N3' : ~ In record_length (map fst ps)) by (intros I; apply N3, in_or_app; now left).
  assert (LP : List.length (pg_params pg) = List.length (map fst ps)) by (apply reads_lengths in R1; rewrite map_length in *; tauto).
  rewrite (us_ascii _ _ _ SU), (us_varlen _ _ _ SU), (us_pkeys _ _ _ SU).
  destruct (fetch_arrays (r_max r) ps (ap_params ap) (pg_params pg) [] src position None B F1 R1 KP A) as [s1 [p1 [B1 [A1 E1]]]].
  rewrite app_nil_r in E1. cbn [fetch_groups rbind] in E1. rewrite app_nil_r in E1.
  exists (arrays ps (pg_params pg)), s1, p1. split; [exact E1|]. split; [|split; [exact A1|exact B1]].
  cbn [stack]. destruct ps as [|[m k] ps']; [contradiction|]. destruct (pg_params pg) as [|v vs] eqn:PP; [discriminate|]. destruct ps' as [|p2 ps''].
  - destruct vs; [|discriminate]. reflexivity.
  - set (ps := (m, k) :: p2 :: ps'') in *. rewrite <- PP in *.
    rewrite (merge_flat (r_max r) _ _ (combine (map fst ps) (pg_params pg))).
    + cbn [rbind]. rewrite fst_combine, snd_combine by assumption. reflexivity.
    + unfold arrays. rewrite map_length, combine_length, LP, Nat.min_id, map_length. cbn. lia.
    + unfold arrays. rewrite Forall_map. apply Forall_forall. intros x _. eexists. split; reflexivity.
    + unfold arrays. now rewrite flat_arrays by (now rewrite fst_combine).
    + now rewrite fst_combine by assumption.
    + intros nv I. eapply unicode_reads; eassumption.
    + assert (X : map fst (List.concat (map (fun nk => [asized (r_max r) nk]) ps)) = map fst ps) by (clear; induction ps as [|p ps IH]; [reflexivity|]; cbn [map List.concat app]; now rewrite IH).
      rewrite X, fst_combine by assumption. now apply filter_named.
Qed.

(** Rows of a page, counted *)
Lemma upage_columns : forall r ps cs ap pg src position B, uset_up r ps cs -> NoDup (map fst cs) -> asound (r_max r) ps cs ap pg -> cs <> [] -> ap_rows ap <> [] ->
  alines src position (ended src (map (join [space]) (ap_rows ap)) ++ B) ->
  exists data src' position',
    column_data r src position (Some (Z.of_nat (List.length (ap_rows ap)))) = Ok (data, src', position') /\
    stack (r_max r) (r_ckeys r) data = Ok (Some (col_page cs pg)) /\ buffered src' = buffered src /\
    (buffered src = false -> alines src' position' B) /\ (buffered src = true -> src' = src /\ position' = position + 2 * Z.of_nat (List.length (ap_rows ap))).
Proof.
  intros r ps cs ap pg src position B SU ND [[F1 [F2 [R1 [R2 LE]]]] KN] C NE A. apply Forall_app in KN. destruct KN as [_ KC].
  assert (LN : List.length (pg_rows pg) = List.length (ap_rows ap)) by (now apply Forall2_len in R2).
  assert (LR : Forall (fun ws => List.length ws = List.length cs) (ap_rows ap)).
  { clear - R2. induction R2 as [|ts vs l m H F IH]; constructor; [|assumption]. apply reads_lengths in H. rewrite map_length in H. tauto. }
  assert (DS : exists z, dtype_size (map (asized (r_max r)) cs) = Ok z).
  { destruct R2 as [|ts vs l m H F]; [contradiction|]. eapply read_dtype; eassumption. }
  destruct DS as [z DS].
  destruct (fetch_lines false false src position (map (asized (r_max r)) cs) (List.length cs) (ended src (map (join [space]) (ap_rows ap))) (ap_rows ap) B (pg_rows pg) z A DS) as [s1 [p1 [E [BU [AL FE]]]]].
  - now rewrite asized_names.
  - clear - F2 LR C. unfold ended. rewrite map_map. induction F2 as [|ws l W F IH]; [constructor|]. inversion LR as [|? ? L1 L2]; subst. cbn [map]. constructor; [|now apply IH].
    apply row_means; [|assumption]. intros ->. destruct cs; [contradiction|discriminate].
  - assumption.
  - unfold ended. destruct (ap_rows ap); [contradiction|discriminate].
  - rewrite map_length. tauto.
  - rewrite map_length in R2 |- *. now apply convert_rows_reads.
  - discriminate.
  - unfold column_data. rewrite (us_ckeys _ _ _ SU), (us_ascii _ _ _ SU). unfold ended in E. rewrite !map_length in E. rewrite E. cbn [rbind].
    eexists _, _, _. split; [reflexivity|]. split; [|split; [assumption|split; [intros X; apply AL; now right|]]].
    + cbn [stack merge rbind]. unfold col_page. f_equal. f_equal. f_equal. rewrite map_map. apply map_ext. intros [n k]. reflexivity.
    + intros BT. destruct src as [f|ls|f ptr]; cbn [alines] in A; [contradiction| |discriminate]. clear - E LN. cbn [fetch] in E. destruct (genfromtxt false ls position _ _) as [[a rest]|e|]; cbn [rbind] in E; try discriminate.
      injection E as E1 E2 E3. subst a. cbn [a_rows] in E3. rewrite LN in E3. split; [now symmetry|]. lia.
Qed.

(** ... and not counted, to the end of the lines *)
Lemma take_rows_all : forall whole n A wss, Forall2 (means whole) A wss -> Forall (fun ws => List.length ws = n) wss -> take_rows whole n None A = (wss, false, []).
Proof.
  intros whole n A wss F. induction F as [|l ws A wss [M N] F IH]; intros L; [reflexivity|]. pose proof (Forall_inv L) as L1. pose proof (Forall_inv_tail L) as L2. cbn beta in L1.
  cbn [take_rows]. rewrite M. destruct ws as [|w ws']; [contradiction|]. pose proof (proj2 (Nat.eqb_eq _ _) L1) as LE. cbn [List.length] in LE |- *. rewrite LE. cbn [option_map]. rewrite IH by assumption. reflexivity.
Qed.
Lemma upage_columns_all : forall r ps cs ap pg ls position, uset_up r ps cs -> NoDup (map fst cs) -> asound (r_max r) ps cs ap pg -> cs <> [] -> ap_rows ap <> [] ->
  skipn (Z.to_nat position) ls = map (join [space]) (ap_rows ap) ->
  exists data, column_data r (Lines ls) position None = Ok (data, Lines ls, position + Z.of_nat (List.length (ap_rows ap))) /\ stack (r_max r) (r_ckeys r) data = Ok (Some (col_page cs pg)).
Proof.
  intros r ps cs ap pg ls position SU ND [[F1 [F2 [R1 [R2 LE]]]] KN] C NE A. apply Forall_app in KN. destruct KN as [_ KC].
  assert (LN : List.length (pg_rows pg) = List.length (ap_rows ap)) by (now apply Forall2_len in R2).
  assert (LR : Forall (fun ws => List.length ws = List.length cs) (ap_rows ap)).
  { clear - R2. induction R2 as [|ts vs l m H F IH]; constructor; [|assumption]. apply reads_lengths in H. rewrite map_length in H. tauto. }
  assert (DS : exists z, dtype_size (map (asized (r_max r)) cs) = Ok z).
  { destruct R2 as [|ts vs l m H F]; [contradiction|]. eapply read_dtype; eassumption. }
  destruct DS as [z DS].
  assert (MN : Forall2 (means false) (map (join [space]) (ap_rows ap)) (ap_rows ap)).
  { clear - F2 LR C. induction F2 as [|ws l W F IH]; [constructor|]. inversion LR as [|? ? L1 L2]; subst. cbn [map]. constructor; [|now apply IH].
    rewrite <- (app_nil_r (join [space] ws)). apply (row_means ws false); [|assumption]. intros ->. destruct cs; [contradiction|discriminate]. }
  assert (G : genfromtxt false ls position (map (asized (r_max r)) cs) None = Ok ({| a_names := map fst cs; a_rows := pg_rows pg |}, [])).
  { unfold genfromtxt. rewrite DS. cbn [rbind]. pose proof (size_nodup _ z DS) as NDS. rewrite asized_names in NDS |- *. rewrite (valid_kept _ KC NDS), distinct_nodup by assumption. cbn [negb]. rewrite A.
    assert (FV : first_values false (map (join [space]) (ap_rows ap)) = Some (List.length cs)).
    { revert MN LR NE. generalize (map (join [space]) (ap_rows ap)) (ap_rows ap). intros X rows MN LR NE. destruct MN as [|l ws X2 wss [M N] F]; [contradiction|]. pose proof (Forall_inv LR) as L1. cbn beta in L1. cbn [first_values]. rewrite M, <- L1. destruct ws; [contradiction|reflexivity]. }
    rewrite FV. cbn [option_map]. rewrite (take_rows_all false _ _ _ MN LR). cbn [orb]. rewrite map_length. destruct (Nat.eqb_spec (List.length cs) 1) as [X|X].
    - cbn [negb andb]. rewrite map_length, X in R2. change (Nat.eqb 1 1) with true in R2. rewrite (convert_rows_reads _ _ _ _ _ R2). reflexivity.
    - cbn [andb]. rewrite map_length in R2. apply Nat.eqb_neq in X. rewrite X in R2. rewrite (convert_rows_reads _ _ _ _ _ R2). reflexivity. }
  unfold column_data. rewrite (us_ckeys _ _ _ SU), (us_ascii _ _ _ SU). cbn [fetch]. rewrite G. cbn [rbind a_rows]. rewrite LN. eexists. split; [reflexivity|]. reflexivity.
Qed.

(* ------------------------------------------------------------------ *)
(** Counting *)
Lemma bws_uws : forall c, is_uws c = false -> is_bws c = false.
Proof. intros [a b c d e f g h]. destruct a, b, c, d, e, f, g, h; cbn; intros H; try reflexivity; discriminate H. Qed.
Lemma join_filled : forall ws, ws <> [] -> Forall word_text ws -> exists c r, join [space] ws = c :: r /\ is_bws c = false.
Proof.
  intros [|w ws] N F; [contradiction|]. destruct (Forall_inv F) as [NW W]. destruct w as [|c w]; [contradiction|]. exists c. destruct ws as [|v ws]; cbn [join app]; eexists; (split; [reflexivity|]); apply bws_uws, (W c); now left.
Qed.
Definition after_rows (B : list text) : Prop := B = [] \/ exists B', B = [newline] :: B'.
Lemma count_blank : forall rows B, Forall (fun row => row <> []) rows -> Forall (Forall word_text) rows -> after_rows B ->
  count_to_blank (map (fun l => l ++ [newline]) (map (join [space]) rows) ++ B) = Z.of_nat (List.length rows).
Proof.
  intros rows B N F AB. induction F as [|row rows W F IH].
  - destruct AB as [->|[B' ->]]; reflexivity.
  - cbn [map app count_to_blank]. destruct (join_filled row (Forall_inv N) W) as (c & t & -> & NB). cbn [app forallb]. rewrite NB. cbn [andb]. rewrite (IH (Forall_inv_tail N)). cbn [List.length]. lia.
Qed.
Lemma count_empty : forall rows k, Forall (fun row => row <> []) rows -> Forall (Forall word_text) rows ->
  count_to_empty (map (join [space]) rows ++ repeat [] k) = match k with O => None | S _ => Some (Z.of_nat (List.length rows)) end.
Proof.
  intros rows k N F. induction F as [|row rows W F IH].
  - destruct k; reflexivity.
  - cbn [map app count_to_empty]. destruct (join_filled row (Forall_inv N) W) as (c & t & -> & NB). rewrite (IH (Forall_inv_tail N)). destruct k; [reflexivity|]. cbn [option_map]. f_equal. cbn [List.length]. lia.
Qed.
Lemma rows_filled : forall max ps cs ap pg, asound max ps cs ap pg -> cs <> [] -> Forall (fun row => row <> []) (ap_rows ap).
Proof.
  intros max ps cs ap pg [[_ [_ [_ [R2 _]]]] _] C. induction R2 as [|ts vs l m H F IH]; constructor; [|assumption]. apply reads_lengths in H. rewrite map_length in H. destruct H as [H _]. intros ->. destruct cs; [contradiction|discriminate].
Qed.

(* ------------------------------------------------------------------ *)
(** From the file, page by page *)
Lemma turn_unbuffered : forall r ps cs ap pg i g f ptr B, uset_up r ps cs -> names_ok ps cs -> asound (r_max r) ps cs ap pg -> ps <> [] -> cs <> [] -> ap_rows ap <> [] -> after_rows B ->
  g_source g = File f ptr -> g_position g = 0 ->
  (exists ptr', (ptr' = ptr \/ flines (skipn (Z.to_nat ptr) f) = [newline] :: flines (skipn (Z.to_nat ptr') f)) /\ alines (File f ptr') 0 (ended (File f ptr) (uncounted_lines ap) ++ B)) ->
  file_end (g_source g) (g_position g) = false ->
  exists g' ptr2, page_turn r None i g = (g', Ok true) /\ g_source g' = File f ptr2 /\ g_position g' = 0 /\
    g_pages g' = g_pages g ++ [Some {| a_names := map fst ps; a_rows := [pg_params pg] |}] /\ g_rows g' = g_rows g ++ [Some (col_page cs pg)] /\ alines (File f ptr2) 0 B.
Proof.
  intros r ps cs ap pg i g f ptr B SU NO SO NP NC NR AB GS GP (ptr' & PT & A) FE.
  unfold uncounted_lines, ended in A. rewrite map_app, <- app_assoc in A. fold (ended (File f ptr) (ap_params ap)) in A.
  change (ended (File f ptr) (ap_params ap)) with (ended (File f ptr') (ap_params ap)) in A.
  destruct (upage_params r ps cs ap pg _ _ _ SU NO SO NP A) as (data & s1 & p1 & E1 & ST & A1 & B1).
  assert (E1' : fetch_groups (r_ascii r) (r_varlen r) true (g_source g) (g_position g) None (r_pkeys r) = Ok (data, s1, p1)).
  { rewrite GS, GP. destruct PT as [->|PT]; [exact E1|]. rewrite <- E1, (us_ascii _ _ _ SU), (us_varlen _ _ _ SU). apply groups_blank; [exact PT|]. rewrite (us_pkeys _ _ _ SU). destruct ps; [contradiction|discriminate]. }
  destruct s1 as [x|x|f1 ptr1]; try discriminate B1. cbn [alines] in A1. destruct A1 as [-> [P1 L1]].
  assert (F1 : f1 = f).
  { clear - E1 SU NP. rewrite (us_ascii _ _ _ SU), (us_varlen _ _ _ SU) in E1. revert E1. generalize (@None array). generalize ptr'. revert data. induction (r_pkeys r) as [|k gs IH]; intros data q o E1; cbn [fetch_groups] in E1.
    - injection E1 as _ E _. now symmetry.
    - cbn [fetch] in E1. destruct (genfromtxt _ _ _ _ _) as [[a rest]|e|]; cbn [rbind] in E1; try discriminate.
      destruct (fetch_groups true false true (File f _) 0 (Some a) gs) as [[[l s] p]|e|] eqn:Q; cbn [rbind] in E1; try discriminate. injection E1 as E1 E2 E3. subst. eapply IH. exact Q. }
  subst f1. pose proof SO as [[_ [FW _]] _]. pose proof (rows_filled _ _ _ _ _ SO NC) as FR.
  assert (RC : ascii_row_count (File f ptr1) 0 = Some (Z.of_nat (List.length (ap_rows ap)))) by (unfold ascii_row_count; rewrite L1; f_equal; exact (count_blank (ap_rows ap) B FR FW AB)).
  assert (A2 : alines (File f ptr1) 0 (ended (File f ptr1) (map (join [space]) (ap_rows ap)) ++ B)) by (split; [reflexivity|]; split; [exact P1|exact L1]).
  destruct (upage_columns r ps cs ap pg (File f ptr1) 0 B SU (proj1 (proj2 NO)) SO NC NR A2) as (cd & s2 & p2 & E2 & S2 & B2 & AL & _). specialize (AL eq_refl).
  assert (F2 : exists ptr2, s2 = File f ptr2).
  { clear - E2 SU. unfold column_data in E2. rewrite (us_ckeys _ _ _ SU), (us_ascii _ _ _ SU) in E2. cbn [fetch] in E2. destruct (genfromtxt _ _ _ _ _) as [[a rest]|e|]; cbn [rbind] in E2; try discriminate. injection E2 as _ E _. eauto. }
  destruct F2 as [ptr2 ->]. cbn [alines] in AL. destruct AL as [-> AL].
  unfold page_turn. cbn [past]. rewrite FE, E1'. cbn [wanted orb]. rewrite ST. cbn [rbind].
  destruct (c_columns (r_content r)) as [|d0 ds] eqn:CC; [now elim (us_columns _ _ _ SU)|]. rewrite (us_counts _ _ _ SU). cbn [negb]. rewrite RC.
  destruct (Z.of_nat (List.length (ap_rows ap))) as [|q|q] eqn:Q; [destruct (ap_rows ap); [contradiction|cbn in Q; lia]| |lia].
  rewrite E2, S2. eexists _, ptr2. split; [reflexivity|]. cbn [g_pages g_rows g_source g_position]. repeat (split; [reflexivity|]). exact AL.
Qed.

(** Where the file ends: nothing but empty lines, or an empty line and something else *)
Lemma blanks_end : forall f ptr k, flines (skipn (Z.to_nat ptr) f) = repeat [newline] k -> file_end (File f ptr) 0 = true.
Proof.
  intros f ptr k E. cbn [file_end]. destruct (skipn (Z.to_nat ptr) f) as [|c s]; [reflexivity|]. destruct k as [|k]; [destruct (flines_head c s) as [l [ls H]]; rewrite H in E; discriminate|]. cbn [repeat flines] in E.
  destruct (Ascii.eqb_spec c newline) as [_|N]; [injection E as _ E; rewrite E; destruct k; reflexivity|]. destruct (flines s) as [|l ls]; injection E; congruence.
Qed.
Lemma start_seen : forall f ptr c r B, flines (skipn (Z.to_nat ptr) f) = (c :: r ++ [newline]) :: B -> (exists x, In x r /\ is_bws x = false) -> file_end (File f ptr) 0 = false.
Proof.
  intros f ptr c r B A H. cbn [file_end]. destruct (skipn (Z.to_nat ptr) f) as [|d t] eqn:SK; [discriminate|]. cbn [flines] in A.
  destruct (Ascii.eqb_spec d newline) as [->|N]; [injection A as A1 A2 A3; destruct r; discriminate|].
  destruct (flines t) as [|u us]; [injection A as A1 A2 A3; destruct r; discriminate|]. injection A as A1 A2 A3. subst. cbn [readline fst]. destruct H as [x [I X]].
  apply not_true_is_false. intros Y. rewrite forallb_forall in Y. rewrite (Y x) in X by (apply in_or_app; now left). discriminate.
Qed.
Lemma next_seen : forall f ptr l B, flines (skipn (Z.to_nat ptr) f) = [newline] :: (l ++ [newline]) :: B -> (exists x, In x l /\ is_bws x = false) -> file_end (File f ptr) 0 = false.
Proof.
  intros f ptr l B A [x [I X]]. cbn [file_end]. destruct (flines_cons _ _ _ A) as [t [E T]]. rewrite E. cbn [app]. rewrite T. cbn [readline fst].
  apply not_true_is_false. intros Y. rewrite forallb_forall in Y. rewrite (Y x) in X by (apply in_or_app; now left). discriminate.
Qed.

Lemma loop_unbuffered : forall r ps cs k, uset_up r ps cs -> names_ok ps cs -> ps <> [] -> cs <> [] -> forall aps pgs, Forall2 (asound (r_max r) ps cs) aps pgs ->
  Forall (fun ap => ap_rows ap <> []) aps -> Forall long_start aps -> aps <> [] ->
  forall fuel i g f ptr (pre : bool), g_source g = File f ptr -> g_position g = 0 ->
  alines (File f ptr) 0 ((if pre then [[newline]] else []) ++ map (fun l => l ++ [newline]) (uncounted_pages k aps)) -> (List.length pgs < fuel)%nat ->
  exists g', page_loop fuel r None i g = Some (g', Ok tt) /\ g_pages g' = g_pages g ++ uncounted_params ps pgs /\ g_rows g' = g_rows g ++ map (fun pg => Some (col_page cs pg)) pgs.
Proof.
  intros r ps cs k SU NO NP NC aps pgs F. induction F as [|ap pg aps pgs SO F IH]; intros NR LS NE fuel i g f ptr pre GS GP A FU; [contradiction|]. destruct fuel as [|fuel]; [cbn in FU; lia|].
  pose proof (Forall_inv NR) as NR1. pose proof (Forall_inv LS) as LS1. cbn beta in NR1.
  set (B := map (fun l => l ++ [newline]) (match aps with [] => repeat [] k | _ => [[]] ++ uncounted_pages k aps end)).
  assert (UP : map (fun l => l ++ [newline]) (uncounted_pages k (ap :: aps)) = map (fun l => l ++ [newline]) (uncounted_lines ap) ++ B).
  { unfold B. destruct aps; cbn [uncounted_pages]; now rewrite map_app. }
  rewrite UP in A. destruct A as [_ [P A]].
  assert (ST : exists c t u rest, map (fun l => l ++ [newline]) (uncounted_lines ap) = (c :: t ++ [newline]) :: rest /\ In u t /\ is_bws u = false).
  { unfold uncounted_lines. unfold long_start in LS1. destruct (ap_params ap) as [|[|c t] l]; try contradiction. destruct LS1 as [u [I U]]. exists c, t, u. eexists. split; [reflexivity|]. split; assumption. }
  destruct ST as (c & t & u & rest & ST & I & U).
  assert (FE : file_end (g_source g) (g_position g) = false).
  { rewrite GS, GP. destruct pre; cbn [app] in A; rewrite ST in A; cbn [app] in A.
    - eapply (next_seen f ptr (c :: t)); [exact A|]. exists u. split; [now right|exact U].
    - eapply start_seen; [exact A|eauto]. }
  assert (AB : after_rows B).
  { unfold B, after_rows. destruct aps; [destruct k; [now left|right; eexists; reflexivity]|right; eexists; reflexivity]. }
  assert (PT : exists ptr', (ptr' = ptr \/ flines (skipn (Z.to_nat ptr) f) = [newline] :: flines (skipn (Z.to_nat ptr') f)) /\ alines (File f ptr') 0 (ended (File f ptr) (uncounted_lines ap) ++ B)).
  { destruct pre; cbn [app] in A.
    - destruct (flines_cons _ _ _ A) as [q [Q1 Q2]]. exists (ptr + 1). replace (Z.to_nat (ptr + 1)) with (Z.to_nat ptr + 1)%nat by lia. rewrite skipn_plus. rewrite Q1 in A |- *. cbn [app skipn] in A |- *. rewrite Q2. split; [right; exact A|].
      split; [reflexivity|]. split; [|replace (Z.to_nat (ptr + 1)) with (Z.to_nat ptr + 1)%nat by lia; rewrite skipn_plus, Q1; exact Q2].
      apply (f_equal (@List.length ascii)) in Q1. rewrite skipn_length in Q1. cbn in Q1. lia.
    - exists ptr. split; [now left|]. split; [reflexivity|]. split; [exact P|exact A]. }
  destruct (turn_unbuffered r ps cs ap pg i g f ptr B SU NO SO NP NC NR1 AB GS GP PT FE) as (g1 & ptr2 & E1 & GS1 & GP1 & P1 & R1 & A1).
  cbn [page_loop]. rewrite E1. destruct aps as [|ap2 aps].
  - inversion F; subst. destruct fuel as [|fuel]; [cbn in FU; lia|]. cbn [page_loop]. unfold page_turn. cbn [past]. rewrite GS1, GP1. rewrite (blanks_end f ptr2 k).
    + exists g1. split; [reflexivity|]. split; [exact P1|exact R1].
    + destruct A1 as [_ [_ A1]]. rewrite A1. unfold B. clear. induction k as [|k IH]; [reflexivity|]. cbn [repeat map]. now rewrite IH.
  - destruct (IH (Forall_inv_tail NR) (Forall_inv_tail LS) ltac:(discriminate) fuel (i + 1) g1 f ptr2 true GS1 GP1) as (g2 & E2 & P2 & R2).
    + exact A1.
    + cbn in FU |- *. lia.
    + exists g2. split; [exact E2|]. rewrite P2, R2, P1, R1, <- !app_assoc. split; reflexivity.
Qed.

(** Buffered, one page *)
Lemma turn_buffered : forall r ps cs ap pg i g ls k, uset_up r ps cs -> names_ok ps cs -> asound (r_max r) ps cs ap pg -> ps <> [] -> cs <> [] -> ap_rows ap <> [] ->
  g_source g = Lines ls -> 0 <= g_position g -> skipn (Z.to_nat (g_position g)) ls = uncounted_lines ap ++ repeat [] k -> (k <= List.length (ap_rows ap))%nat ->
  exists g', page_turn r None i g = (g', Ok true) /\ file_end (g_source g') (g_position g') = true /\
    g_pages g' = g_pages g ++ [Some {| a_names := map fst ps; a_rows := [pg_params pg] |}] /\ g_rows g' = g_rows g ++ [Some (col_page cs pg)].
Proof.
  intros r ps cs ap pg i g ls k SU NO SO NP NC NR GS GP A K.
  assert (A0 : alines (Lines ls) (g_position g) (ended (Lines ls) (ap_params ap) ++ map (join [space]) (ap_rows ap) ++ repeat [] k)).
  { split; [exact GP|]. rewrite A. unfold uncounted_lines. rewrite <- app_assoc. f_equal. unfold ended. cbn [buffered negb nl]. rewrite <- (map_id (ap_params ap)) at 1. apply map_ext. intros. now rewrite app_nil_r. }
  destruct (upage_params r ps cs ap pg _ _ _ SU NO SO NP A0) as (data & s1 & p1 & E1 & ST & A1 & B1).
  assert (F1 : s1 = Lines ls).
  { clear - E1 SU. rewrite (us_ascii _ _ _ SU), (us_varlen _ _ _ SU) in E1. revert E1. generalize (@None array) (g_position g). revert data. induction (r_pkeys r) as [|gk gs IH]; intros data o q E1; cbn [fetch_groups] in E1.
    - injection E1 as _ E _. now symmetry.
    - cbn [fetch] in E1. destruct (genfromtxt _ _ _ _ _) as [[a rest]|e|]; cbn [rbind] in E1; try discriminate.
      destruct (fetch_groups true false true (Lines ls) (q + 1) (Some a) gs) as [[[l s] p]|e|] eqn:Q; cbn [rbind] in E1; try discriminate. injection E1 as E1 E2 E3. subst. eapply IH. exact Q. }
  subst s1. destruct A1 as [P1 L1]. pose proof SO as [[_ [FW _]] _]. pose proof (rows_filled _ _ _ _ _ SO NC) as FR.
  assert (LL : (Z.to_nat p1 + List.length (ap_rows ap) + k = List.length ls)%nat).
  { apply (f_equal (@List.length text)) in L1. rewrite skipn_length, app_length, map_length, repeat_length in L1. destruct (ap_rows ap); [contradiction|]. cbn [List.length] in *. lia. }
  assert (FE : file_end (g_source g) (g_position g) = false).
  { rewrite GS. cbn [file_end]. apply Z.leb_gt. apply (f_equal (@List.length text)) in A. rewrite skipn_length in A. unfold uncounted_lines in A. rewrite !app_length, map_length in A. destruct (ap_rows ap); [contradiction|]. cbn [List.length] in A. lia. }
  assert (RC : ascii_row_count (Lines ls) p1 = match k with O => None | S _ => Some (Z.of_nat (List.length (ap_rows ap))) end) by (cbn [ascii_row_count]; rewrite L1; now apply count_empty).
  unfold page_turn. cbn [past]. rewrite FE, GS, E1. cbn [wanted orb]. rewrite ST. cbn [rbind].
  destruct (c_columns (r_content r)) as [|d0 ds] eqn:CC; [now elim (us_columns _ _ _ SU)|]. rewrite (us_counts _ _ _ SU). cbn [negb]. rewrite RC. destruct k as [|k].
  - cbn [repeat] in L1. rewrite app_nil_r in L1. destruct (upage_columns_all r ps cs ap pg ls p1 SU (proj1 (proj2 NO)) SO NC NR L1) as (cd & E2 & S2). rewrite E2, S2. eexists. split; [reflexivity|]. cbn [g_source g_position g_pages g_rows file_end].
    split; [apply Z.leb_le; lia|]. split; reflexivity.
  - assert (A2 : alines (Lines ls) p1 (ended (Lines ls) (map (join [space]) (ap_rows ap)) ++ repeat [] (S k))).
    { split; [exact P1|]. rewrite L1. f_equal. unfold ended. cbn [buffered negb nl]. rewrite <- (map_id (map (join [space]) (ap_rows ap))) at 1. apply map_ext. intros. now rewrite app_nil_r. }
    destruct (upage_columns r ps cs ap pg (Lines ls) p1 _ SU (proj1 (proj2 NO)) SO NC NR A2) as (cd & s2 & p2 & E2 & S2 & B2 & _ & FIN). destruct (FIN eq_refl) as [-> ->].
    destruct (Z.of_nat (List.length (ap_rows ap))) as [|q|q] eqn:Q; [destruct (ap_rows ap); [contradiction|cbn in Q; lia]| |lia].
    rewrite E2, S2. eexists. split; [reflexivity|]. cbn [g_pages g_rows g_source g_position file_end]. split; [apply Z.leb_le; lia|]. split; reflexivity.
Qed.

Lemma uncounted_rows : forall max ps cs ap pg, asound max ps cs ap pg -> Forall unbroken (uncounted_lines ap) /\ Forall (fun l => is_comment l = false) (uncounted_lines ap).
Proof.
  intros max ps cs ap pg SO. destruct (apage_rows max ps cs ap pg SO) as [U N]. unfold apage_lines in U, N. unfold uncounted_lines. apply Forall_app in U, N. destruct U as [U1 U2], N as [N1 N2]. apply Forall_app in U2, N2.
  split; apply Forall_app; tauto.
Qed.
Lemma uncounted_unbroken : forall max ps cs k aps pgs, Forall2 (asound max ps cs) aps pgs -> Forall unbroken (uncounted_pages k aps).
Proof.
  intros max ps cs k aps pgs F. induction F as [|ap pg aps pgs SO F IH]; [constructor|]. pose proof (proj1 (uncounted_rows _ _ _ _ _ SO)) as U.
  assert (E : forall j, Forall unbroken (repeat [] j)) by (induction j; constructor; [intros c []|assumption]).
  destruct aps; cbn [uncounted_pages]; apply Forall_app; (split; [exact U|]); [apply E|]. apply Forall_app. split; [constructor; [intros c []|constructor]|exact IH].
Qed.

(* ------------------------------------------------------------------ *)
(** ** C125.
    Full statement: a file whose header says that there are no row counts is read page by page, the
    rows of a page ending at an empty line or at the end of the file.  Proved for files read from
    disk with one empty line between the pages, and buffered for one page; with at least one
    parameter in the data, as many rows in each page (different numbers cannot be stacked), and
    first lines that the end-of-file test does not take for blank.  Missing (refuted below): files
    without parameters, and buffered files of several pages. *)
Theorem C125_file_partial : forall h ps cs max k aps pgs fuel n, header_for h ps cs -> uncounted_header h -> ps <> [] -> cs <> [] ->
  Forall2 (asound max ps cs) aps pgs -> aps <> [] -> Forall (same_length n) pgs -> (0 < n)%nat -> Forall long_start aps -> (List.length pgs < fuel)%nat ->
  loads (uncounted_file h k aps) false max None fuel (Some (uncounted_params ps pgs)) (all_columns cs pgs).
Proof.
  intros h ps cs max k aps pgs fuel n [HO [DC [FR NO]]] UH NP NC SO NE SL N LS FU. unfold uncounted_file. set (data := lines_text (uncounted_pages k aps)).
  pose proof (open_uncounted h ps cs data false max HO DC FR UH NC) as OP. destruct ps as [|p0 ps']; [contradiction|]. set (ps := p0 :: ps') in *.
  destruct OP as (r & E & SU & RF & RB & RM & RP & P0 & R0 & C0 & CT). rewrite <- RM in SO.
  assert (NR : Forall (fun ap => ap_rows ap <> []) aps).
  { clear - SO SL N. revert SL. induction SO as [|ap pg aps pgs S F IH]; intros SL; constructor; [|apply IH; now inversion SL]. destruct S as [[_ [_ [_ [R2 _]]]] _]. apply Forall2_len in R2. pose proof (Forall_inv SL) as L. unfold same_length in L. intros X. rewrite X in R2. cbn in R2. lia. }
  assert (SR : source_of r = File (r_file r) (r_pointer r)) by (unfold source_of; now rewrite RB).
  destruct (loop_unbuffered r ps cs k SU NO NP NC aps pgs SO NR LS NE fuel 0 {| g_pages := r_pages r; g_rows := r_rows r; g_source := source_of r; g_position := 0 |} (r_file r) (r_pointer r) false) as (g' & L & P & R); cbn [g_source g_position]; auto.
  - cbn [app]. rewrite RF, RP. split; [reflexivity|]. split; [rewrite app_length; lia|]. rewrite Nat2Z.id, skipn_app, skipn_all, Nat.sub_diag. cbn [skipn app]. unfold data, lines_text. rewrite <- (app_nil_r (List.concat _)).
    rewrite flines_lines; [now rewrite app_nil_r|]. eapply Forall_impl; [|eapply uncounted_unbroken; exact SO]. intros l U I. destruct (U _ I) as [X _]. now apply X.
  - cbn [g_pages g_rows] in P, R. rewrite P0 in P. rewrite R0 in R. cbn [app] in P, R. unfold loads. exists r. eexists. split; [exact E|]. unfold read. rewrite RB, L. rewrite P, R.
    rewrite (concat_same 1) by (unfold uncounted_params; apply Forall_map, Forall_forall; reflexivity). rewrite (us_ckeys _ _ _ SU).
    rewrite (concat_same n) by (apply Forall_map; eapply Forall_impl; [|exact SL]; intros pg H; cbn; now rewrite H).
    split; [reflexivity|]. split; [reflexivity|]. destruct cs; [contradiction|reflexivity].
Qed.
Print Assumptions C125_file_partial.

Theorem C125_buffer_partial : forall h ps cs max k ap pg fuel, header_for h ps cs -> gapless h -> uncounted_header h -> ps <> [] -> cs <> [] ->
  asound max ps cs ap pg -> ap_rows ap <> [] -> (k <= List.length (ap_rows ap))%nat -> (1 < fuel)%nat ->
  loads (uncounted_file h k [ap]) true max None fuel (Some (uncounted_params ps [pg])) (all_columns cs [pg]).
Proof.
  intros h ps cs max k ap pg fuel [HO [DC [FR NO]]] G UH NP NC SO NR K FU. unfold uncounted_file. set (data := lines_text (uncounted_pages k [ap])).
  pose proof (open_uncounted h ps cs data true max HO DC FR UH NC) as OP. destruct ps as [|p0 ps']; [contradiction|]. set (ps := p0 :: ps') in *.
  destruct OP as (r & E & SU & RF & RB & RM & RP & P0 & R0 & C0 & CT). rewrite <- RM in SO. destruct (uncounted_rows _ _ _ _ _ SO) as [U NM].
  assert (SR : source_of r = Lines (buffered_lines (r_file r))) by (unfold source_of; now rewrite RB, (us_ascii _ _ _ SU)).
  destruct fuel as [|[|fuel]]; [lia|lia|].
  destruct (turn_buffered r ps cs ap pg 0 {| g_pages := r_pages r; g_rows := r_rows r; g_source := source_of r; g_position := Z.of_nat (r_count r) |} (buffered_lines (r_file r)) k SU NO SO NP NC NR) as (g' & T & FE & P & R); cbn [g_source g_position]; auto; try lia.
  - rewrite RF, Nat2Z.id, CT. rewrite header_rows_text. unfold buffered_lines. destruct G as [G1 [G2 [G3 G4]]].
    rewrite splitlines_lines by (now apply header_rows_unbroken). rewrite filter_app, skipn_app.
    rewrite (header_row_count h HO) by (repeat split; assumption). rewrite Nat.sub_diag. cbn [skipn].
    rewrite skipn_all2 by (rewrite (header_row_count h HO) by (repeat split; assumption); lia). cbn [app].
    unfold data, lines_text. rewrite <- (app_nil_r (List.concat _)). rewrite splitlines_lines by (eapply uncounted_unbroken; constructor; [exact SO|constructor]). cbn [splitlines_aux]. rewrite app_nil_r. cbn [uncounted_pages].
    rewrite filter_app, filter_keep by assumption. f_equal. apply filter_keep. clear. induction k; constructor; [reflexivity|assumption].
  - cbn [g_pages g_rows] in P, R. rewrite P0 in P. rewrite R0 in R. cbn [app] in P, R. unfold loads. exists r. eexists. split; [exact E|]. unfold read. rewrite RB, (us_ascii _ _ _ SU).
    cbn [page_loop]. rewrite T. unfold page_turn at 1. cbn [past]. rewrite FE. rewrite P, R. cbn [concat_pages forallb]. rewrite (us_ckeys _ _ _ SU). split; [reflexivity|]. split; [reflexivity|]. destruct cs; [contradiction|reflexivity].
Qed.
Print Assumptions C125_buffer_partial.

(** Without parameters in the data the file cannot be opened, whatever it holds. *)
Theorem C125_no_parameters_refuted : forall h cs data buffer max, header_for h [] cs -> uncounted_header h -> cs <> [] -> open_sdds (header_text h ++ data) buffer max = Err IndexError.
Proof. intros h cs data buffer max [HO [DC [FR NO]]] UH NC. exact (open_uncounted h [] cs data buffer max HO DC FR UH NC). Qed.
Print Assumptions C125_no_parameters_refuted.

(** Buffered, the second page is looked for in the wrong place; the same file is read from disk. *)
Definition uncounted_sample (flag : string) (lines : list string) : text :=
  lines_file (["SDDS1"; "&parameter name=p type=string &end"; "&column name=x type=string &end"; String.append "&data mode=ascii, no_row_counts=" (String.append flag " &end")]%string ++ lines) [].
Local Ltac runs := eexists; eexists; split; [vm_compute; reflexivity|]; split; [vm_compute; reflexivity|]; split; vm_compute; reflexivity.
Local Ltac fails := eexists; eexists; split; [vm_compute; reflexivity|]; vm_compute; reflexivity.
Definition str_table (n : string) (vs : list string) : option array := Some {| a_names := [T n]; a_rows := map (fun v => [VStr (T v)]) vs |}.
Definition two_uncounted : list string := ["one"; "a"; "b"; ""; "two"; "c"; "d"; ""]%string.
Theorem C125_two_pages_refuted :
  loads (uncounted_sample "1" two_uncounted) false 100 None 5 (Some [str_table "p" ["one"%string]; str_table "p" ["two"%string]]) (Some [str_table "x" ["a"; "b"]%string; str_table "x" ["c"; "d"]%string]) /\
  load_fails (uncounted_sample "1" two_uncounted) true 100 None 5 ValueError.
Proof. split; [runs|fails]. Qed.
Print Assumptions C125_two_pages_refuted.
(** The flag is taken for set if it is given at all: a file with counts that says no_row_counts=0 is
    read as if it had none, and its count is taken for a row. *)
Theorem C125_zero_flag_refuted : forall buffer, loads (uncounted_sample "0" ["one"; "1"; "a"]%string) buffer 100 None 5 (Some [str_table "p" ["one"%string]]) (Some [str_table "x" ["1"; "a"]%string]).
Proof. intros [|]; runs. Qed.
Print Assumptions C125_zero_flag_refuted.

(** The header and the pages of the samples. *)
Definition header_u : header :=
  {| h_before := h_before (header_1 true); h_first := h_first (header_1 true); h_lines := h_lines (header_1 true);
     h_data := {| c_gap := T " "; c_attrs := opt (T "mode") (T "ascii") false ++ opt (T "no_row_counts") (T "1") false; c_end := [] |} |}.
Lemma key_counts : key_ok data_attributes (T "no_row_counts"). Proof. key_known. Qed.
Lemma header_u_for : header_for header_u params_1 cols_1.
Proof.
  destruct (header_1_for true) as [[H1 [H2 [H3 [H4 H5]]]] [DC [FR NO]]]. split; [|split; [exact DC|split; [exact FR|exact NO]]].
  split; [exact H1|]. split; [exact H2|]. split; [exact H3|]. split.
  - destruct H4 as [G [A _]]. split; [exact G|]. split; [|split; [repeat constructor; [intros [X|[]]; discriminate|intros []]|intros d []]].
    cbn [header_u h_data c_attrs]. apply Forall_app. split; [exact A|]. apply opt_ok; [apply key_counts|]. split; [|split].
    + intros c [<-|[]]. repeat split; discriminate.
    + discriminate.
    + intros _ c [<-|[]]. split; [intros [X|X]; discriminate|discriminate].
  - intros a I J. cbn in I. destruct I as [<-|[<-|[]]]; cbn in J; repeat (destruct J as [J|J]; [discriminate|]); contradiction.
Qed.
Lemma header_u_gapless : gapless header_u.
Proof.
  destruct header_1_gapless as [G1 [G2 [G3 _]]]. split; [exact G1|]. split; [exact G2|]. split; [exact G3|].
  intros I. assert (X : existsb (Ascii.eqb cr) (header_text header_u) = true) by (apply existsb_exists; exists cr; split; [assumption|apply Ascii.eqb_refl]). vm_compute in X. discriminate.
Qed.
Example C125_applies :
  loads (uncounted_file header_u 1 [apage_1; apage_2]) false 100 None 3 (Some (uncounted_params params_1 [apage_1v; apage_2v])) (all_columns cols_1 [apage_1v; apage_2v]) /\
  (forall k, (k <= 2)%nat -> loads (uncounted_file header_u k [apage_1]) true 100 None 2 (Some (uncounted_params params_1 [apage_1v])) (all_columns cols_1 [apage_1v])).
Proof.
  pose proof apages_sound as S. split.
  - apply (C125_file_partial header_u params_1 cols_1 100 1 _ _ 3 2); [apply header_u_for|split; reflexivity|discriminate|discriminate|exact S|discriminate|repeat constructor|lia| |cbn; lia].
    constructor; [|constructor; [|constructor]]; eexists; (split; [left; reflexivity|reflexivity]).
  - intros k K. inversion S; subst. apply C125_buffer_partial; [apply header_u_for|apply header_u_gapless|split; reflexivity|discriminate|discriminate|assumption|discriminate|exact K|lia].
Qed.

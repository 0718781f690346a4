(** C124: rows of an ASCII SDDS file that do not fit the columns are refused
    (rsbeams/rsdata/SDDS.py read). *)
From Coq Require Import List Bool Arith Ascii String ZArith Lia.
From Verif Require Import PyBase PyText Lte_Spec Sdds_Model Sdds_Spec Sdds_Proofs Sdds_Proofs2 Sdds_Proofs3 Sdds_Proofs4 Sdds_Proofs5 Sdds_Proofs6 Sdds_Proofs7 Sdds_Proofs10 Sdds_Proofs11 Sdds_Proofs12 Sdds_Samples Ragged_Spec.
Import ListNotations.
Open Scope Z_scope.

Lemma take_bad : forall whole n A wss B m, Forall2 (means whole) A wss -> Exists (fun ws => List.length ws <> n) wss -> (List.length A <= m)%nat ->
  snd (fst (take_rows whole n (Some m) (A ++ B))) = true.
Proof.
  intros whole n A wss B m F. revert m. induction F as [|l ws A wss [M N] F IH]; intros m E L; [inversion E|].
  cbn [List.length] in L. destruct m as [|m]; [lia|]. cbn [app take_rows]. rewrite M. destruct ws as [|w ws']; [contradiction|].
  destruct (Nat.eqb_spec (List.length (w :: ws')) n) as [Q|Q].
  - inversion E as [? ? H|? ? H]; subst; [contradiction|]. cbn [option_map pred]. specialize (IH m H ltac:(lia)). destruct (take_rows whole _ (Some m) (A ++ B)) as [[a b] c]. exact IH.
  - destruct (take_rows whole n (Some (S m)) (A ++ B)) as [[a b] c]. reflexivity.
Qed.
Lemma convert_total : forall alone k t, exists x, convert alone k t = x /\ x <> Diverges.
Proof.
  intros alone k t. eexists. split; [reflexivity|]. unfold convert. intros E. repeat (match type of E with context [match ?x with _ => _ end] => destruct x end; try discriminate E).
Qed.
Lemma convert_short : forall alone g ts, (List.length ts < List.length g)%nat -> exists e, convert_row alone g ts = Err e.
Proof.
  intros alone g. induction g as [|[n k] g IH]; intros ts L; [cbn in L; lia|]. destruct ts as [|t ts]; cbn [convert_row]; [eauto|].
  destruct (convert_total alone k t) as (x & E & D). rewrite E. destruct x as [v|e|]; [|cbn; eauto|contradiction]. cbn [rbind].
  destruct (IH ts ltac:(cbn in L; lia)) as [e ->]. cbn. eauto.
Qed.
Lemma size_total : forall g, (exists z, dtype_size g = Ok z) \/ exists e, dtype_size g = Err e.
Proof.
  intros g. unfold dtype_size. destruct (distinct (map fst g)); [|right; eauto]. induction g as [|[n k] g [[z IH]|[e IH]]]; cbn [item_size]; [left; eauto| |];
  rewrite IH; unfold size_of; destruct k; try match goal with |- context [match ?x with Some _ => _ | None => _ end] => destruct x as [m|] end; try destruct (m <? 0); cbn [rbind]; eauto.
Qed.
Lemma genfromtxt_misfit : forall lines skip g A wss B, skipn (Z.to_nat skip) lines = A ++ B -> Forall2 (means false) A wss -> A <> [] -> misfit (List.length g) wss ->
  exists e, genfromtxt false lines skip g (Some (Z.of_nat (List.length A))) = Err e.
Proof.
  intros lines skip g A wss B E F NE MF. unfold genfromtxt. assert (NL : (0 < List.length A)%nat) by (destruct A; [contradiction|cbn; lia]).
  replace (Z.of_nat (List.length A) <? 1) with false by (symmetry; apply Z.ltb_ge; lia). destruct (size_total g) as [[z ->]|[e ->]]; cbn [rbind]; [|eauto].
  destruct (negb (distinct (valid_names (map fst g)))); [eauto|]. rewrite E. cbn [option_map]. rewrite Nat2Z.id.
  destruct F as [|l ws A wss M F]; [contradiction|]. pose proof M as [M1 M2]. assert (FV : first_values false ((l :: A) ++ B) = Some (List.length ws)).
  { cbn [app first_values]. rewrite M1. destruct ws; [contradiction|reflexivity]. }
  rewrite FV.
  assert (D : Exists (fun u => List.length u <> List.length ws) (ws :: wss) \/ Forall (fun u => List.length u = List.length ws) (ws :: wss)).
  { clear. induction (ws :: wss) as [|u l [IH|IH]]; [right; constructor|left; now right|]. destruct (Nat.eq_dec (List.length u) (List.length ws)); [right; constructor; assumption|left; now left]. }
  destruct D as [D|D].
  - pose proof (take_bad false (List.length ws) (l :: A) (ws :: wss) B _ (Forall2_cons l ws M F) D (le_n _)) as T. cbn [List.length] in T |- *.
    destruct (take_rows false (List.length ws) (Some (S (List.length A))) ((l :: A) ++ B)) as [[a b] c]. cbn in T. rewrite T. cbn [orb]. eauto.
  - pose proof (take_rows_means false (List.length ws) (l :: A) (ws :: wss) B (Forall2_cons l ws M F) D) as T. rewrite T. cbn [orb].
    destruct (Nat.eqb (List.length g) 1 && negb (Nat.eqb (List.length ws) 1)) eqn:O; [eauto|]. rewrite Forall_forall in D.
    destruct MF as [H|[(a & b & Ia & Ib & H)|[H1 H]]].
    + apply Exists_exists in H. destruct H as (u & Iu & H). assert (L : (List.length ws < List.length g)%nat) by (rewrite <- (D u Iu); exact H).
      cbn [convert_rows]. destruct (convert_short (Nat.eqb (List.length g) 1) g ws L) as [e ->]. cbn. eauto.
    + exfalso. apply H. rewrite (D a Ia), (D b Ib). reflexivity.
    + exfalso. apply Exists_exists in H. destruct H as (u & Iu & H). rewrite (D u Iu) in H. rewrite H1 in O. cbn in O. apply negb_false_iff, Nat.eqb_eq in O. contradiction.
Qed.
Lemma fetch_misfit : forall src position g A wss B, alines src position (A ++ B) -> Forall2 (means false) A wss -> A <> [] -> misfit (List.length g) wss ->
  exists e, fetch true false false src position g (Some (Z.of_nat (List.length A))) = Err e.
Proof.
  intros src position g A wss B AL F NE MF. destruct src as [f|ls|f ptr]; cbn [alines] in AL; [contradiction| |]; cbn [fetch].
  - destruct AL as [_ E]. destruct (genfromtxt_misfit ls position g A wss B E F NE MF) as [e ->]. cbn. eauto.
  - destruct AL as [-> [_ E]]. destruct (genfromtxt_misfit (flines (skipn (Z.to_nat ptr) f)) 0 g A wss B E F NE MF) as [e ->]. cbn. eauto.
Qed.
Lemma misfit_rows : forall n rows, misfit n rows -> rows <> [].
Proof. intros n rows [H|[(a & b & I & _)|[_ H]]] ->; [inversion H|destruct I|inversion H]. Qed.

Lemma turn_misfit : forall r ps cs ap i g B, aset_up r ps cs -> names_ok ps cs -> readable_page (r_max r) ps cs ap -> misfit (List.length cs) (ap_rows ap) ->
  alines (g_source g) (g_position g) (ended (g_source g) (apage_lines ap) ++ B) -> file_end (g_source g) (g_position g) = false ->
  exists g' e, page_turn r None i g = (g', Err e).
Proof.
  intros r ps cs ap i g B SU NO RP MF A FE. destruct RP as [F1 [vs R1] F2 NE KN LE].
  set (ap' := {| ap_params := ap_params ap; ap_rows := map (fun _ => []) (ap_rows ap) |}). set (pg' := {| pg_params := vs; pg_rows := map (fun _ => []) (ap_rows ap) |}).
  assert (SO : asound (r_max r) ps [] ap' pg').
  { split; [|cbn [map]; rewrite app_nil_r; apply Forall_app in KN; tauto]. unfold apage_ok. cbn [ap_params ap_rows pg_params pg_rows ap' pg' map List.length Nat.eqb]. split; [exact F1|]. split; [apply Forall_map, Forall_forall; intros; constructor|]. split; [exact R1|].
    split; [|rewrite map_length; exact LE]. clear. induction (ap_rows ap); cbn [map]; constructor; [exact I|assumption]. }
  unfold apage_lines in A. rewrite app_assoc in A. unfold ended in A. rewrite map_app, <- app_assoc in A. fold (ended (g_source g) (map (join [space]) (ap_rows ap))) in A.
  match type of A with alines _ _ (map ?f ?l ++ ?m) => change (alines (g_source g) (g_position g) (ended (g_source g) l ++ m)) in A end.
  assert (A' : alines (g_source g) (g_position g) (ended (g_source g) (ap_params ap' ++ [dec (Z.of_nat (List.length (ap_rows ap')))]) ++ ended (g_source g) (map (join [space]) (ap_rows ap)) ++ B)) by (cbn [ap_params ap_rows ap']; rewrite map_length; exact A).
  destruct (apage_params r ps cs [] ap' pg' _ _ _ SU NO SO A') as [data [s1 [p1 [E1 [ST [EN [A1 [B1 _]]]]]]]].
  pose proof (misfit_rows _ _ MF) as NR.
  unfold page_turn. cbn [past]. rewrite FE, E1. cbn [wanted orb]. rewrite ST. cbn [rbind].
  destruct (c_columns (r_content r)) as [|d0 ds] eqn:CC; [now elim (as_columns _ _ _ SU)|]. rewrite (as_counts _ _ _ SU). cbn [negb]. rewrite EN. cbn [rbind pg_rows pg']. rewrite map_length.
  destruct (Z.of_nat (List.length (ap_rows ap))) as [|q|q] eqn:Q; [destruct (ap_rows ap); [contradiction|cbn in Q; lia]| |lia]. rewrite <- Q.
  unfold column_data. rewrite (as_ckeys _ _ _ SU), (as_ascii _ _ _ SU).
  assert (A1' : alines s1 p1 (ended s1 (map (join [space]) (ap_rows ap)) ++ B)) by (unfold ended; rewrite B1; exact A1).
  destruct (fetch_misfit s1 p1 (map (asized (r_max r)) cs) (ended s1 (map (join [space]) (ap_rows ap))) (ap_rows ap) B A1') as [e EE].
  - clear - F2 NE. unfold ended. rewrite map_map. induction (ap_rows ap) as [|ws l IH]; [constructor|]. cbn [map]. constructor; [|apply IH; [exact (Forall_inv_tail F2)|exact (Forall_inv_tail NE)]].
    apply row_means; [exact (Forall_inv NE)|exact (Forall_inv F2)].
  - unfold ended. destruct (ap_rows ap); [contradiction|discriminate].
  - rewrite map_length. exact MF.
  - unfold ended in EE. rewrite !map_length in EE. rewrite EE. cbn [rbind]. eauto.
Qed.

(** From the file: after any number of pages that can be read. *)
Lemma loop_misfit : forall r ps cs, aset_up r ps cs -> names_ok ps cs -> cs <> [] -> forall aps pgs bad B, Forall2 (asound (r_max r) ps cs) aps pgs ->
  readable_page (r_max r) ps cs bad -> misfit (List.length cs) (ap_rows bad) ->
  forall fuel i g, alines (g_source g) (g_position g) (List.concat (map (fun ap => ended (g_source g) (apage_lines ap)) aps) ++ ended (g_source g) (apage_lines bad) ++ B) ->
  buffered (g_source g) = false \/ aps = [] -> buffered (g_source g) = true \/ Forall aseen (aps ++ [bad]) -> (List.length pgs < fuel)%nat ->
  exists g' e, page_loop fuel r None i g = Some (g', Err e).
Proof.
  intros r ps cs SU NO C aps pgs bad B F RP MF. induction F as [|ap pg aps pgs SO F IH]; intros fuel i g A ONE SH FU; (destruct fuel as [|fuel]; [cbn in FU; lia|]); cbn [map List.concat app] in A.
  - assert (FE : file_end (g_source g) (g_position g) = false) by (eapply end_before_apage; [exact A|]; destruct SH as [H|H]; [now left|right; now inversion H]).
    destruct (turn_misfit r ps cs bad i g B SU NO RP MF A FE) as (g' & e & E). cbn [page_loop]. rewrite E. eauto.
  - destruct ONE as [ONE|ONE]; [|discriminate]. destruct SH as [SH|SH]; [congruence|]. rewrite <- app_assoc in A.
    assert (FE : file_end (g_source g) (g_position g) = false) by (eapply end_before_apage; [exact A|]; right; now inversion SH).
    destruct (aturn_page r ps cs ap pg i g _ SU NO SO C A FE) as [g1 [E1 [_ [_ [B1 [AL _]]]]]]. cbn [page_loop]. rewrite E1. apply IH.
    + unfold ended in *. rewrite B1. apply AL. exact ONE.
    + left. congruence.
    + right. now inversion SH.
    + cbn in FU. lia.
Qed.

Lemma readable_rows : forall max ps cs ap, readable_page max ps cs ap -> Forall unbroken (apage_lines ap) /\ Forall (fun l => is_comment l = false) (apage_lines ap).
Proof.
  intros max ps cs ap [F1 _ F2 _ _ _]. unfold apage_lines.
  assert (L : forall t, line_text t -> unbroken t /\ is_comment t = false).
  { intros t [_ [C _]]. split; [intros c I; destruct (C c I) as [_ X]; exact X|]. apply no_mark. intros I. destruct (C _ I) as [X _]. now apply X. }
  split; (apply Forall_app; split; [|apply Forall_app; split; [constructor; [apply L, dec_line|constructor]|]]).
  - eapply Forall_impl; [|exact F1]. intros t H. now apply L.
  - apply Forall_map. eapply Forall_impl; [|exact F2]. intros t H. now apply word_unbroken.
  - eapply Forall_impl; [|exact F1]. intros t H. now apply L.
  - apply Forall_map. eapply Forall_impl; [|exact F2]. intros t H. apply no_mark. now apply word_unbroken.
Qed.

(* ------------------------------------------------------------------ *)
(** ** C124.
    Full statement: a page whose rows do not have exactly one value for each column is refused.
    Proved for rows with too few values, rows of different lengths and one column; missing: rows that
    all have too many values for two columns or more, which are read (refuted below).  Read from the
    file the page may follow others; anything may come after it. *)
Theorem C124_rows_partial : forall h ps cs (buffer : bool) max aps pgs bad tail fuel, header_for h ps cs -> ascii_header h -> cs <> [] ->
  Forall2 (asound max ps cs) aps pgs -> readable_page max ps cs bad -> misfit (List.length cs) (ap_rows bad) ->
  (if buffer then gapless h /\ aps = [] else Forall aseen (aps ++ [bad])) -> (List.length aps < fuel)%nat ->
  exists e, load_fails (ascii_file h (aps ++ [bad]) ++ tail) buffer max None fuel e.
Proof.
  intros h ps cs buffer max aps pgs bad tail fuel [HO [DC [FR NO]]] AH NC SO RG MF BC FU.
  assert (LP : List.length aps = List.length pgs) by (clear - SO; induction SO; cbn; congruence). rewrite LP in FU.
  unfold ascii_file. rewrite <- app_assoc. set (data := List.concat (map apage_text (aps ++ [bad])) ++ tail).
  destruct (open_ascii h ps cs data buffer max HO DC FR AH NC) as [r [E [SU [RF [RB [RM [RP [P0 [R0 [C0 [CT _]]]]]]]]]]].
  assert (BU : buffered (source_of r) = buffer) by (unfold source_of; rewrite (as_ascii _ _ _ SU), RB; destruct buffer; reflexivity).
  destruct (readable_rows max ps cs bad RG) as [U NM].
  assert (AL : exists B, alines (source_of r) (start r) (List.concat (map (fun ap => ended (source_of r) (apage_lines ap)) aps) ++ ended (source_of r) (apage_lines bad) ++ B)).
  { unfold source_of, start. rewrite RB, (as_ascii _ _ _ SU), RF. destruct buffer; cbn [alines ended buffered negb nl].
    - destruct BC as [G ->]. exists (filter (fun l => negb (is_comment l)) (splitlines_aux [] tail)). split; [lia|]. rewrite Nat2Z.id, CT. rewrite header_rows_text. unfold buffered_lines. destruct G as [G1 [G2 [G3 G4]]].
      rewrite splitlines_lines by (now apply header_rows_unbroken). rewrite filter_app, skipn_app.
      rewrite (header_row_count h HO) by (repeat split; assumption). rewrite Nat.sub_diag. cbn [skipn].
      rewrite skipn_all2 by (rewrite (header_row_count h HO) by (repeat split; assumption); lia). cbn [app map List.concat].
      unfold data. cbn [app map List.concat]. rewrite app_nil_r. unfold apage_text. rewrite splitlines_lines by assumption. rewrite filter_app, filter_keep by assumption. f_equal.
      rewrite <- (map_id (apage_lines bad)) at 1. apply map_ext. intros. now rewrite app_nil_r.
    - exists (flines tail). split; [reflexivity|]. rewrite RP. split; [rewrite app_length; lia|]. rewrite Nat2Z.id. rewrite skipn_app, skipn_all, Nat.sub_diag. cbn [skipn app].
      unfold data. clear - SO U. rewrite map_app, concat_app. cbn [map List.concat]. rewrite app_nil_r, <- app_assoc.
      induction SO as [|ap pg aps pgs H F IH]; cbn [map List.concat app].
      + unfold apage_text. apply flines_lines. eapply Forall_impl; [|exact U]. intros l X I. destruct (X _ I) as [Y _]. now apply Y.
      + unfold apage_text at 1. rewrite <- !app_assoc. rewrite flines_lines; [rewrite IH; reflexivity|]. destruct (apage_rows max ps cs ap pg H) as [U' _]. eapply Forall_impl; [|exact U']. intros l X I. destruct (X _ I) as [Y _]. now apply Y. }
  destruct AL as [B AL]. rewrite <- RM in SO, RG.
  destruct (loop_misfit r ps cs SU NO NC aps pgs bad B SO RG MF fuel 0 {| g_pages := r_pages r; g_rows := r_rows r; g_source := source_of r; g_position := start r |}) as (g' & e & L); cbn [g_source g_position]; auto.
  - rewrite BU. destruct buffer; [right; tauto|now left].
  - rewrite BU. destruct buffer; [now left|now right].
  - exists e, r. unfold read. fold (start r). rewrite L. eexists. split; [exact E|reflexivity].
Qed.
Print Assumptions C124_rows_partial.

(** Values too many are left out without a word. *)
Local Ltac runs := eexists; eexists; split; [vm_compute; reflexivity|]; split; [vm_compute; reflexivity|]; split; vm_compute; reflexivity.
Definition two_columns (lines : list string) : text := lines_file (["SDDS1"; "&column name=x type=string &end"; "&column name=y type=string &end"; "&data mode=ascii &end"]%string ++ lines) [].
Theorem C124_extra_refuted : forall buffer, loads (two_columns ["02"; "a b c"; "d e f"]%string) buffer 100 None 5
  (Some [Some {| a_names := [row_counts]; a_rows := [[VInt 2]] |}]) (Some [Some {| a_names := [T "x"; T "y"]; a_rows := [[VStr (T "a"); VStr (T "b")]; [VStr (T "d"); VStr (T "e")]] |}]).
Proof. intros [|]; runs. Qed.
Print Assumptions C124_extra_refuted.
(** ... and so are rows that are announced but missing, as in a file cut off. *)
Theorem C124_count_refuted : forall buffer, loads (two_columns ["12"; "a b"; "d e"]%string) buffer 100 None 5
  (Some [Some {| a_names := [row_counts]; a_rows := [[VInt 12]] |}]) (Some [Some {| a_names := [T "x"; T "y"]; a_rows := [[VStr (T "a"); VStr (T "b")]; [VStr (T "d"); VStr (T "e")]] |}]).
Proof. intros [|]; runs. Qed.
Print Assumptions C124_count_refuted.

(** Arrays, which the reader does not know, are refused when the file is opened; their values would
    be taken for the rows otherwise. Shown for one header and any data. *)
Theorem C124_array_partial : forall data buffer max,
  open_sdds (lines_file ["SDDS1"; "&array name=a type=double &end"; "&column name=x type=string &end"; "&data mode=ascii &end"]%string [] ++ data) buffer max = Err AttributeError.
Proof. intros. vm_compute. reflexivity. Qed.
Print Assumptions C124_array_partial.

(** The first page of the samples with a value missing in its second row, alone and after a page
    that is right. *)
Definition ragged_1 : apage := {| ap_params := ap_params apage_1; ap_rows := [[T "12"; T "a"]; [T "-5"]] |}.
Example C124_applies : forall tail, (forall buffer, exists e, load_fails (ascii_file (header_1 true) [ragged_1] ++ tail) buffer 100 None 2 e) /\
  exists e, load_fails (ascii_file (header_1 true) [apage_1; ragged_1] ++ tail) false 100 None 2 e.
Proof.
  intros tail. pose proof apages_sound as S. inversion S as [|? ? ? ? S1 _]; subst.
  assert (RG : readable_page 100 params_1 cols_1 ragged_1).
  { destruct S1 as [[F1 [F2 [R1 _]]] KN]. constructor; [exact F1|eexists; exact R1| | |exact KN|cbn; lia].
    - repeat (constructor; [repeat (constructor; [apply word_b; [discriminate|reflexivity]|]); constructor|]); constructor.
    - repeat (constructor; [discriminate|]); constructor. }
  assert (MF : misfit (List.length cols_1) (ap_rows ragged_1)) by (left; right; left; cbn; lia).
  pose proof apages_seen as SE. inversion SE as [|? ? SE1 _]; subst.
  split.
  - intros buffer. apply (C124_rows_partial (header_1 true) params_1 cols_1 buffer 100 [] [] ragged_1 tail 2); [apply header_1_for|apply header_1_ascii|discriminate|constructor|exact RG|exact MF| |cbn; lia].
    destruct buffer; [split; [apply header_1_gapless|reflexivity]|constructor; [exact SE1|constructor]].
  - apply (C124_rows_partial (header_1 true) params_1 cols_1 false 100 [apage_1] [apage_1v] ragged_1 tail 2); [apply header_1_for|apply header_1_ascii|discriminate|constructor; [exact S1|constructor]|exact RG|exact MF| |cbn; lia].
    constructor; [exact SE1|constructor; [exact SE1|constructor]].
Qed.

(** Lemmas for the SDDS claims: opening and reading an ASCII file. *)
From Coq Require Import List Bool Arith Ascii String ZArith Reals Lia Lra.
From Verif Require Import PyBase PyText Lte_Spec Sdds_Model Sdds_Spec Sdds_Proofs Sdds_Proofs2 Sdds_Proofs3 Sdds_Proofs4 Sdds_Proofs5 Sdds_Proofs6 Sdds_Proofs7 Sdds_Proofs10 Sdds_Proofs11.
Import ListNotations.
Open Scope Z_scope.

(* ------------------------------------------------------------------ *)
(** Lines of a buffered file *)
Definition unbroken (l : text) : Prop := forall c, In c l -> c <> newline /\ c <> cr.
Lemma splitlines_line : forall l cur s, unbroken l -> splitlines_aux cur (l ++ newline :: s) = (cur ++ l) :: splitlines_aux [] s.
Proof.
  induction l as [|c l IH]; intros cur s U.
  - cbn [app splitlines_aux]. rewrite Ascii.eqb_refl, app_nil_r. reflexivity.
  - destruct (U c (or_introl eq_refl)) as [A B]. cbn [app splitlines_aux]. destruct (Ascii.eqb_spec c newline); [contradiction|]. destruct (Ascii.eqb_spec c cr); [contradiction|].
    rewrite IH by (intros d I; apply U; now right). now rewrite <- app_assoc.
Qed.
Lemma splitlines_lines : forall ls s, Forall unbroken ls -> splitlines_aux [] (List.concat (map (fun l => l ++ [newline]) ls) ++ s) = ls ++ splitlines_aux [] s.
Proof.
  induction ls as [|l ls IH]; intros s F; [reflexivity|]. inversion F; subst. cbn [map List.concat]. rewrite <- !app_assoc. cbn [app]. rewrite splitlines_line by assumption. cbn [app]. now rewrite IH.
Qed.

(** the lines of a header, without their ends *)
Definition hrow (l : hline) : text := match l with Ignored t => t | Param c => command_body (T "&parameter") c | Col c => command_body (T "&column") c end.
Definition header_rows (h : header) : list text := h_before h ++ [h_first h] ++ map hrow (h_lines h) ++ [command_body (T "&data") (h_data h)].
Lemma header_rows_text : forall h, header_text h = List.concat (map (fun l => l ++ [newline]) (header_rows h)).
Proof.
  intros h. unfold header_text, header_rows. rewrite !map_app, !concat_app. cbn [map List.concat]. rewrite !app_nil_r, <- !app_assoc. do 3 f_equal.
  f_equal; [|now rewrite command_text_body]. rewrite map_map. f_equal. apply map_ext. intros [t|c|c]; cbn [hline_text hrow]; [reflexivity|apply command_text_body|apply command_text_body].
Qed.
Lemma header_rows_unbroken : forall h, header_ok h -> ~ In cr (header_text h) -> Forall unbroken (header_rows h).
Proof.
  intros h [HB [HF [HL [HD HA]]]] NC. apply Forall_forall. intros l I c J. split.
  - intros ->. unfold header_rows in I. rewrite !in_app_iff in I. destruct I as [I|[I|[I|I]]].
    + rewrite Forall_forall in HB. destruct (HB l I) as [X _]. contradiction.
    + destruct I as [<-|[]]. destruct HF as [X _]. contradiction.
    + apply in_map_iff in I. destruct I as [x [<- I]]. rewrite Forall_forall in HL. specialize (HL x I). destruct x as [t|k|k]; cbn [hrow] in J.
      * destruct HL as [X _]. contradiction.
      * revert J. eapply command_line; [|exact HL]. apply no_newline_word. cbn. tauto.
      * revert J. eapply command_line; [|exact HL]. apply no_newline_word. cbn. tauto.
    + destruct I as [<-|[]]. revert J. eapply command_line; [|exact HD]. apply no_newline_word. now left.
  - intros ->. apply NC. rewrite header_rows_text. apply in_concat. exists (l ++ [newline]). split; [apply in_map_iff; eauto|apply in_or_app; now left].
Qed.
Lemma comment_row : forall l, ignorable l -> l <> [] -> is_comment l = true.
Proof. intros l [_ [->|[r ->]]] N; [contradiction|reflexivity]. Qed.
Lemma filter_none : forall (l : list text), Forall (fun x => is_comment x = true) l -> filter (fun x => negb (is_comment x)) l = [].
Proof. induction 1 as [|x l H F IH]; [reflexivity|]. cbn. now rewrite H. Qed.
Lemma filter_keep : forall (l : list text), Forall (fun x => is_comment x = false) l -> filter (fun x => negb (is_comment x)) l = l.
Proof. induction 1 as [|x l H F IH]; [reflexivity|]. cbn. now rewrite H, IH. Qed.
Lemma header_row_count : forall h, header_ok h -> gapless h -> List.length (filter (fun l => negb (is_comment l)) (header_rows h)) = (List.length (lines_of (h_lines h)) + 2)%nat.
Proof.
  intros h [HB [HF [HL [HD HA]]]] [GB [[b GF] [GL _]]]. unfold header_rows. rewrite !filter_app, !app_length.
  rewrite filter_none.
  2: { apply Forall_forall. intros l I. rewrite Forall_forall in HB, GB. apply comment_row; auto. }
  rewrite GF. change (filter (fun l => negb (is_comment l)) [T "SDDS1" ++ b]) with [T "SDDS1" ++ b].
  assert (X : List.length (filter (fun l => negb (is_comment l)) (map hrow (h_lines h))) = List.length (lines_of (h_lines h))).
  { clear - HL GL. induction HL as [|x l H F IH]; [reflexivity|]. assert (IH' := IH ltac:(intros t I; apply GL; now right)). destruct x as [t|c|c]; cbn [map hrow lines_of].
    - cbn [filter]. rewrite (comment_row t H) by (apply GL; now left). exact IH'.
    - change (filter (fun l0 => negb (is_comment l0)) (command_body (T "&parameter") c :: map hrow l)) with (command_body (T "&parameter") c :: filter (fun l0 => negb (is_comment l0)) (map hrow l)). cbn [List.length]. now rewrite IH'.
    - change (filter (fun l0 => negb (is_comment l0)) (command_body (T "&column") c :: map hrow l)) with (command_body (T "&column") c :: filter (fun l0 => negb (is_comment l0)) (map hrow l)). cbn [List.length]. now rewrite IH'. }
  rewrite X. change (filter (fun l => negb (is_comment l)) [command_body (T "&data") (h_data h)]) with [command_body (T "&data") (h_data h)]. cbn [List.length]. lia.
Qed.

(** the lines of pages *)
Lemma word_unbroken : forall ws, Forall word_text ws -> unbroken (join [space] ws) /\ ~ In "!"%char (join [space] ws).
Proof.
  intros ws F. destruct ws as [|w ws]; [split; [intros c []|intros []]|]. destruct (join_ends (w :: ws) ltac:(discriminate) F) as [_ [_ [_ D]]]. split.
  - intros c I. destruct (D c I) as [_ [-> |X]]; [split; discriminate|]. split; intros ->; discriminate.
  - intros I. destruct (D _ I) as [X _]. now apply X.
Qed.
Lemma no_mark : forall l, ~ In "!"%char l -> is_comment l = false.
Proof.
  intros l N. unfold is_comment. assert (I : forall l, ~ In "!"%char l -> match drop_bws l with c :: _ => Ascii.eqb c "!" | [] => false end = false).
  { induction l0 as [|c l0 IH]; intros H; [reflexivity|]. cbn [drop_bws]. destruct (is_bws c); [apply IH; intros I; apply H; now right|].
    destruct (Ascii.eqb_spec c "!"%char) as [->|]; [|reflexivity]. exfalso. apply H. now left. }
  now apply I.
Qed.
Lemma apage_rows : forall max ps cs ap pg, asound max ps cs ap pg -> Forall unbroken (apage_lines ap) /\ Forall (fun l => is_comment l = false) (apage_lines ap).
Proof.
  intros max ps cs ap pg [[F1 [F2 _]] _]. unfold apage_lines.
  assert (L : forall t, line_text t -> unbroken t /\ is_comment t = false).
  { intros t [_ [C _]]. split; [intros c I; destruct (C c I) as [_ X]; exact X|]. apply no_mark. intros I. destruct (C _ I) as [X _]. now apply X. }
  split; (apply Forall_app; split; [|apply Forall_app; split; [constructor; [apply L, dec_line|constructor]|]]).
  - eapply Forall_impl; [|exact F1]. intros t H. now apply L.
  - apply Forall_map. eapply Forall_impl; [|exact F2]. intros t H. now apply word_unbroken.
  - eapply Forall_impl; [|exact F1]. intros t H. now apply L.
  - apply Forall_map. eapply Forall_impl; [|exact F2]. intros t H. apply no_mark. now apply word_unbroken.
Qed.

(* ------------------------------------------------------------------ *)
(** Opening *)
Lemma open_ascii : forall h ps cs data buffer max, header_ok h -> declares h ps cs -> Forall fixed_readable (params_of (h_lines h)) -> ascii_header h -> cs <> [] ->
  exists r, open_sdds (header_text h ++ data) buffer max = Ok r /\ aset_up r ps cs /\ r_file r = header_text h ++ data /\ r_buffer r = buffer /\ r_max r = max /\
    r_pointer r = Z.of_nat (List.length (header_text h)) /\ r_pages r = [] /\ r_rows r = [] /\ r_columns r = None /\
    r_count r = (List.length (lines_of (h_lines h)) + 2)%nat /\
    Forall2 param_rel (params_of (h_lines h)) (c_parameters (r_content r)) /\ Forall2 col_rel (cols_of (h_lines h)) (c_columns (r_content r)).
Proof.
  intros h ps cs data buffer max HO DC FR [B1 B2] NC. destruct (open_general h ps cs data buffer max HO DC FR) as [ct [RP [RC [KP [KC E]]]]].
  assert (A : is_ascii h = true) by (unfold is_ascii; rewrite B1; apply teqb_refl). rewrite A in E.
  assert (CC : c_columns ct <> []).
  { intros X. rewrite X in KC. cbn in KC. destruct cs; [contradiction|discriminate]. }
  assert (NRC : truthy (field (fields_of data_defaults (h_data h)) (T "no_row_counts")) = false) by (rewrite counts_field; destruct B2 as [-> | ->]; reflexivity).
  assert (PG : forall ps, parameter_groups true max (map coded ps) = map (fun nk => [asized max nk]) ps).
  { clear. induction ps as [|[n k] ps IH]; [reflexivity|]. destruct k; cbn [map coded parameter_groups dt_of fst snd]; now rewrite IH. }
  unfold parameter_keys in E. cbn [negb] in E. rewrite NRC, KP, PG in E. cbn [negb] in E. destruct (c_columns ct) as [|d0 ds] eqn:CE; [contradiction|]. cbn [negb andb rbind] in E.
  rewrite E. eexists. split; [reflexivity|]. cbn [r_file r_buffer r_max r_pointer r_pages r_rows r_columns r_count r_content c_parameters]. rewrite CE.
  split; [|repeat split; assumption].
  constructor; cbn [r_ascii r_pkeys r_max r_ckeys r_varlen r_content r_data negb andb]; try reflexivity; try assumption.
  - unfold column_keys. rewrite KC. destruct cs as [|[n k] cs]; [contradiction|]. cbn [map]. unfold asized. rewrite <- (map_map coded (sized max)). reflexivity.
  - rewrite CE. discriminate.
Qed.

(* ------------------------------------------------------------------ *)
(** Reading *)
Lemma aread_pages : forall r ps cs aps pgs fuel n, aset_up r ps cs -> names_ok ps cs -> cs <> [] -> Forall2 (asound (r_max r) ps cs) aps pgs ->
  alines (source_of r) (start r) (List.concat (map (fun ap => ended (source_of r) (apage_lines ap)) aps)) ->
  r_buffer r = false \/ (List.length aps <= 1)%nat -> r_buffer r = true \/ Forall aseen aps -> (List.length pgs < fuel)%nat ->
  r_pages r = [] -> r_rows r = [] -> Forall (fun pg => has_rows cs pg = true -> same_length n pg) pgs ->
  exists r', read fuel r None = Some (r', Ok tt) /\ r_parameters r' = Some (aparam_pages ps pgs) /\ r_columns r' = Some (col_pages cs pgs).
Proof.
  intros r ps cs aps pgs fuel n SU NO C SO A ONE SH FU PG RW EQ.
  assert (BU : buffered (source_of r) = r_buffer r) by (unfold source_of; rewrite (as_ascii _ _ _ SU); destruct (r_buffer r); reflexivity).
  destruct (aloop_pages r ps cs SU NO C aps pgs fuel 0 {| g_pages := r_pages r; g_rows := r_rows r; g_source := source_of r; g_position := start r |} SO) as [g' [L [P R]]];
    cbn [g_source g_position g_pages g_rows] in *; rewrite ?BU; auto.
  unfold read. fold (start r). rewrite L. rewrite PG in P. rewrite RW in R. cbn [app] in P, R.
  rewrite (concat_same 1) by (rewrite P; unfold aparam_pages; rewrite Forall_map; apply Forall_forall; intros; reflexivity).
  rewrite (as_ckeys _ _ _ SU). rewrite (concat_same n).
  - eexists. split; [reflexivity|]. cbn. rewrite P, R. auto.
  - rewrite R. unfold col_pages. rewrite Forall_map. apply Forall_forall. intros pg I. apply filter_In in I. destruct I as [I H].
    rewrite Forall_forall in EQ. cbn. now rewrite (EQ pg I H).
Qed.

Lemma pages_lines : forall max ps cs aps pgs, Forall2 (asound max ps cs) aps pgs ->
  flines (List.concat (map apage_text aps)) = List.concat (map (fun ap => map (fun l => l ++ [newline]) (apage_lines ap)) aps).
Proof.
  intros max ps cs aps pgs F. induction F as [|ap pg aps pgs H F IH]; [reflexivity|]. cbn [map List.concat]. unfold apage_text at 1. rewrite flines_lines; [now rewrite IH|].
  destruct (apage_rows max ps cs ap pg H) as [U _]. eapply Forall_impl; [|exact U]. intros l X I. destruct (X _ I) as [Y _]. now apply Y.
Qed.

Lemma ascii_read : forall h ps cs (buffer : bool) max aps pgs fuel n, header_ok h -> declares h ps cs -> Forall fixed_readable (params_of (h_lines h)) -> ascii_header h ->
  cs <> [] -> names_ok ps cs -> Forall2 (asound max ps cs) aps pgs ->
  (if buffer then gapless h /\ (List.length aps <= 1)%nat else Forall aseen aps) -> (List.length pgs < fuel)%nat ->
  Forall (fun pg => has_rows cs pg = true -> same_length n pg) pgs ->
  exists r r', open_sdds (header_text h ++ List.concat (map apage_text aps)) buffer max = Ok r /\ read fuel r None = Some (r', Ok tt) /\
    r_parameters r' = Some (aparam_pages ps pgs) /\ r_columns r' = Some (col_pages cs pgs).
Proof.
  intros h ps cs buffer max aps pgs fuel n HO DC FR AH NC NO SO BC FU EQ.
  destruct (open_ascii h ps cs (List.concat (map apage_text aps)) buffer max HO DC FR AH NC) as [r [E [SU [RF [RB [RM [RP [P0 [R0 [C0 [CT _]]]]]]]]]]].
  assert (X : exists r', read fuel r None = Some (r', Ok tt) /\ r_parameters r' = Some (aparam_pages ps pgs) /\ r_columns r' = Some (col_pages cs pgs)).
  2: { destruct X as [r' X]. exists r, r'. split; [exact E|exact X]. }
  apply (aread_pages r ps cs aps pgs fuel n); auto; rewrite ?RM, ?RB; auto.
  - unfold source_of, start. rewrite RB, (as_ascii _ _ _ SU), RF. destruct buffer; cbn [alines ended buffered negb nl].
    + destruct BC as [G ONE]. split; [lia|]. rewrite Nat2Z.id, CT. rewrite header_rows_text. unfold buffered_lines. destruct G as [G1 [G2 [G3 G4]]].
      rewrite splitlines_lines by (now apply header_rows_unbroken). rewrite filter_app, skipn_app.
      rewrite (header_row_count h HO) by (repeat split; assumption). rewrite Nat.sub_diag. cbn [skipn].
      rewrite skipn_all2 by (rewrite (header_row_count h HO) by (repeat split; assumption); lia). cbn [app].
      destruct aps as [|ap [|? ?]]; [reflexivity| |cbn in ONE; lia]. inversion SO as [|? ? ? ? S1 _]; subst. destruct (apage_rows _ _ _ _ _ S1) as [U NM].
      cbn [map List.concat]. rewrite !app_nil_r. unfold apage_text. rewrite <- (app_nil_r (List.concat _)). rewrite splitlines_lines by assumption. cbn [splitlines_aux]. rewrite app_nil_r.
      rewrite filter_keep by assumption. unfold ended. cbn [buffered negb nl]. rewrite <- (map_id (apage_lines ap)) at 1. apply map_ext. intros. now rewrite app_nil_r.
    + split; [reflexivity|]. rewrite RP. split; [rewrite app_length; lia|]. rewrite Nat2Z.id. rewrite skipn_app, skipn_all, Nat.sub_diag. cbn [skipn app].
      rewrite (pages_lines max ps cs aps pgs SO). f_equal.
  - destruct buffer; [right; tauto|now left].
  - destruct buffer; [now left|right; assumption].
Qed.

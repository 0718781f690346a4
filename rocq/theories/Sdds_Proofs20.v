(** Lemmas for C97: header commands that go over several lines. *)
From Coq Require Import List Bool Arith Ascii String ZArith Reals Lia.
From Verif Require Import PyBase PyText Lte_Spec Sdds_Model Sdds_Spec Sdds_Spec2 Sdds_Proofs Sdds_Proofs2 Sdds_Proofs3 Sdds_Proofs4 Sdds_Proofs5 Sdds_Proofs6 Sdds_Proofs7 Sdds_Proofs10 Sdds_Proofs11 Sdds_Proofs12 Sdds_Proofs13.
Import ListNotations.
Open Scope Z_scope.

(* ------------------------------------------------------------------ *)
(** A line end between words means what a blank does *)
Notation quotes s := (count_occ Ascii.ascii_dec s quote_char).
Lemma even_succ : forall n, Nat.Even (Datatypes.S n) <-> Nat.Odd n.
Proof. intros n. apply Nat.Even_succ. Qed.
Lemma odd_succ : forall n, Nat.Odd (Datatypes.S n) <-> Nat.Even n.
Proof. intros n. apply Nat.Odd_succ. Qed.
Lemma shlex_mid : forall a b c d st tok q out, lex_ws c = true -> lex_ws d = true -> ~ In escape_char a ->
  match st with Between | InWord => Nat.Even (quotes a) | InQuote => Nat.Odd (quotes a) | Escape _ => False end ->
  shlex st tok q out (a ++ c :: b) = shlex st tok q out (a ++ d :: b).
Proof.
  induction a as [|x a IH]; intros b c d st tok q out C D N P.
  - cbn [app shlex]. destruct st; [now rewrite C, D|now rewrite C, D| |contradiction]. cbn in P. destruct P as [k P]. lia.
  - assert (NX : x <> escape_char) by (intros ->; apply N; now left). assert (NA : ~ In escape_char a) by (intros I; apply N; now right).
    assert (EB : Ascii.eqb x backslash = false) by (apply Ascii.eqb_neq; exact NX).
    cbn [count_occ] in P. cbn [app shlex]. destruct (Ascii.ascii_dec x quote_char) as [->|NQ].
    + change (Ascii.eqb quote_char dquote) with true. change (lex_ws quote_char) with false. change (Ascii.eqb quote_char backslash) with false. cbv iota.
      destruct st; try contradiction; apply IH; auto; try (now apply even_succ); now apply odd_succ.
    + assert (EQ : Ascii.eqb x dquote = false) by (apply Ascii.eqb_neq; exact NQ). rewrite EB, EQ. destruct st; try contradiction.
      * destruct (lex_ws x); apply IH; auto.
      * destruct (lex_ws x); apply IH; auto.
      * apply IH; auto.
Qed.
Lemma uwords_mid : forall a b c d cur, is_uws c = true -> is_uws d = true -> uwords_aux cur (a ++ c :: b) = uwords_aux cur (a ++ d :: b).
Proof.
  induction a as [|x a IH]; intros b c d cur C D.
  - cbn [app uwords_aux]. rewrite C, D. reflexivity.
  - cbn [app uwords_aux]. destruct (is_uws x); [destruct cur; [now apply IH|f_equal; now apply IH]|now apply IH].
Qed.
Lemma parse_same : forall ct s t, shlex_split s = shlex_split t -> uwords s = uwords t -> parse_one ct s = parse_one ct t.
Proof. intros ct s t A B. unfold parse_one. rewrite A, B. reflexivity. Qed.
Lemma joined_same : forall ps pre, ps <> [] -> Forall part_ok ps -> ~ In escape_char pre -> Nat.Even (quotes pre) ->
  shlex_split (pre ++ join [" "%char] ps ++ [newline]) = shlex_split (pre ++ lines_text ps) /\ uwords (pre ++ join [" "%char] ps ++ [newline]) = uwords (pre ++ lines_text ps).
Proof.
  induction ps as [|p ps IH]; intros pre NE F N E; [contradiction|]. inversion F as [|? ? [_ [_ [NP [EP _]]]] F']; subst. destruct ps as [|p' ps].
  - cbn [join]. unfold lines_text. cbn [map List.concat]. rewrite app_nil_r. auto.
  - assert (J : pre ++ join [" "%char] (p :: p' :: ps) ++ [newline] = (pre ++ p) ++ " "%char :: (join [" "%char] (p' :: ps) ++ [newline])).
    { change (join [" "%char] (p :: p' :: ps)) with (p ++ [" "%char] ++ join [" "%char] (p' :: ps)). rewrite <- !app_assoc. reflexivity. }
    assert (K : pre ++ lines_text (p :: p' :: ps) = (pre ++ p ++ [newline]) ++ lines_text (p' :: ps)).
    { unfold lines_text. cbn [map List.concat]. rewrite <- !app_assoc. reflexivity. }
    assert (E2 : Nat.Even (quotes (pre ++ p))) by (rewrite count_occ_app; destruct E as [i E], EP as [j EP]; exists (i + j)%nat; lia).
    assert (N2 : ~ In escape_char (pre ++ p)) by (rewrite in_app_iff; tauto).
    destruct (IH (pre ++ p ++ [newline])) as [A B]; [discriminate|assumption| | |].
    { rewrite app_assoc, in_app_iff. intros [I|[I|[]]]; [contradiction|discriminate]. }
    { rewrite app_assoc, count_occ_app. cbn. now rewrite Nat.add_0_r. }
    rewrite J, K, <- A, <- B. replace ((pre ++ p ++ [newline]) ++ join [" "%char] (p' :: ps) ++ [newline]) with ((pre ++ p) ++ newline :: (join [" "%char] (p' :: ps) ++ [newline])) by (rewrite <- !app_assoc; reflexivity).
    split; [apply shlex_mid; auto|apply uwords_mid; reflexivity].
Qed.
Lemma broken_same : forall ct w c ps, broken w c ps -> parse_one ct (command_text w c) = parse_one ct (lines_text ps).
Proof.
  intros ct w c ps [NE [E [F _]]]. rewrite E. destruct (joined_same ps [] NE F) as [A B]; [intros []|exists O; reflexivity|]. now apply parse_same.
Qed.

(* ------------------------------------------------------------------ *)
(** Collecting the lines *)
Lemma word_first : forall w x p y, ~ In " "%char w -> w ++ x = p ++ " "%char :: y -> exists q, p = w ++ q.
Proof.
  induction w as [|c w IH]; intros x p y N E; [now exists p|]. destruct p as [|d p]; cbn [app] in E.
  - injection E as -> _. exfalso. apply N. now left.
  - injection E as -> E. destruct (IH x p y) as [q ->]; [intros I; apply N; now right|exact E|]. now exists q.
Qed.
Lemma word_last : forall w x p y, ~ In " "%char w -> x ++ w = y ++ " "%char :: p -> exists q, p = q ++ w.
Proof.
  intros w x p y N E. apply (f_equal (@rev ascii)) in E. rewrite !rev_app_distr in E. cbn [rev] in E. rewrite <- app_assoc in E. cbn [app] in E.
  destruct (word_first (rev w) (rev x) (rev p) (rev y)) as [q Q]; [now rewrite <- in_rev|exact E|].
  exists (rev q). apply (f_equal (@rev ascii)) in Q. now rewrite rev_app_distr, !rev_involutive in Q.
Qed.
Lemma no_space_end : ~ In " "%char (T "&end").
Proof. intros I. cbn in I. repeat (destruct I as [I|I]; [discriminate|]). contradiction. Qed.
Lemma join_one : forall sep (w : text), join sep [w] = w.
Proof. reflexivity. Qed.
Lemma join_more : forall sep (w v : text) r, join sep (w :: v :: r) = w ++ sep ++ join sep (v :: r).
Proof. reflexivity. Qed.
Lemma join_tail : forall ps (p : text), ps <> [] -> exists y, join [" "%char] (ps ++ [p]) = y ++ " "%char :: p.
Proof.
  induction ps as [|a ps IH]; intros p N; [contradiction|]. destruct ps as [|b ps].
  - exists a. reflexivity.
  - destruct (IH p ltac:(discriminate)) as [y E]. exists (a ++ " "%char :: y). cbn [app] in *. rewrite join_more. cbn [app] in *. rewrite E. rewrite <- app_assoc. reflexivity.
Qed.
Lemma broken_ends : forall w c ps, broken w c ps -> exists init p, ps = init ++ [p] /\ contains (T "&end") p /\ Forall (fun p => ~ contains (T "&end") p) init.
Proof.
  intros w c ps [NE [E [_ L]]]. destruct (exists_last NE) as [init [p ->]]. exists init, p. rewrite removelast_last in L. split; [reflexivity|]. split; [|assumption].
  unfold command_text in E. rewrite !app_assoc in E. apply app_inj_tail in E. destruct E as [E _]. rewrite <- !app_assoc in E. destruct init as [|i init].
  - cbn [app join] in E. rewrite <- E. exists (w ++ c_gap c ++ List.concat (map attr_text (c_attrs c)) ++ c_end c), []. rewrite <- !app_assoc. now rewrite app_nil_r.
  - destruct (join_tail (i :: init) p ltac:(discriminate)) as [y J]. rewrite J in E.
    destruct (word_last (T "&end") (w ++ c_gap c ++ List.concat (map attr_text (c_attrs c)) ++ c_end c) p y no_space_end) as [q ->]; [rewrite <- !app_assoc; exact E|]. exists q, []. now rewrite app_nil_r.
Qed.
Lemma broken_starts : forall w c p ps, ~ In " "%char w -> broken w c (p :: ps) -> exists q, p = w ++ q.
Proof.
  intros w c p ps N [_ [E _]]. unfold command_text in E. destruct ps as [|p' ps].
  - rewrite join_one in E. rewrite !app_assoc in E. apply app_inj_tail in E. destruct E as [<- _]. rewrite <- !app_assoc. eauto.
  - rewrite join_more in E. rewrite <- !app_assoc in E. cbn [app] in E. exact (word_first _ _ _ _ N E).
Qed.
Lemma part_kept : forall p s, part_ok p -> skippable (p ++ s) = false.
Proof.
  intros [|c p] s [NE [NN [_ [_ X]]]]; [contradiction|]. apply not_skippable; [intros ->; apply NN; now left|]. intros ->. destruct (X [] p eq_refl) as [d [[] _]].
Qed.
Lemma scan_inside : forall init p data acc hd n fs, Forall part_ok (init ++ [p]) -> contains (T "&end") p -> Forall (fun p => ~ contains (T "&end") p) init ->
  scan (Some (data, acc)) hd n (map (fun l => l ++ [newline]) (init ++ [p]) ++ fs) =
  if data : bool then Ok (hd ++ [acc ++ lines_text (init ++ [p])], (n + List.length (init ++ [p]))%nat, fs)
  else scan None (hd ++ [acc ++ lines_text (init ++ [p])]) (n + List.length (init ++ [p]))%nat fs.
Proof.
  destruct end_word as [EN EE]. induction init as [|a init IH]; intros p data acc hd n fs F C L; inversion F as [|? ? P F']; subst.
  - cbn [app map scan]. rewrite (part_kept _ _ P). rewrite (proj2 (occurs_line _ _ EN EE) C). unfold lines_text. cbn [map List.concat List.length]. rewrite app_nil_r, Nat.add_1_r. reflexivity.
  - inversion L as [|? ? NC L']; subst. cbn [app map scan]. rewrite (part_kept _ _ P). rewrite (occurs_line_false _ _ EN EE NC). fold (app (A := text)) in F'. rewrite IH by assumption.
    unfold lines_text. cbn [app map List.concat List.length]. rewrite <- !app_assoc. replace (Datatypes.S n + List.length (init ++ [p]))%nat with (n + Datatypes.S (List.length (init ++ [p])))%nat by lia. reflexivity.
Qed.
Lemma scan_broken : forall w c ps hd n fs, In w namelists -> ~ In " "%char w -> broken w c ps ->
  scan None hd n (map (fun l => l ++ [newline]) ps ++ fs) = scan None (hd ++ [lines_text ps]) (n + List.length ps)%nat fs.
Proof.
  destruct end_word as [EN EE]. intros w c ps hd n fs I N B. destruct (broken_ends w c ps B) as [init [p [-> [C L]]]]. pose proof B as [_ [_ [F _]]].
  assert (ST : forall a r, init ++ [p] = a :: r -> existsb (fun nl => occurs nl (a ++ [newline])) namelists = true).
  { intros a r E. rewrite E in B. destruct (broken_starts w c a r N B) as [q ->]. apply starts_existsb. exists w. split; [exact I|]. now exists [], q. }
  destruct init as [|a init]; inversion F as [|? ? P F']; subst; cbn [app map scan]; rewrite (part_kept _ _ P), (ST _ _ eq_refl).
  - rewrite (proj2 (occurs_line _ _ EN EE) C). unfold lines_text. cbn [map List.concat List.length]. rewrite app_nil_r, Nat.add_1_r. reflexivity.
  - inversion L as [|? ? NC L']; subst. rewrite (occurs_line_false _ _ EN EE NC). rewrite scan_inside by assumption. unfold lines_text. cbn [app map List.concat List.length].
    replace (Datatypes.S n + List.length (init ++ [p]))%nat with (n + Datatypes.S (List.length (init ++ [p])))%nat by lia. reflexivity.
Qed.
Lemma scan_data : forall c ps hd n fs, command_ok data_attributes c -> (forall a, In a (c_attrs c) -> ~ In "&"%char (at_value a)) -> broken (T "&data") c ps ->
  scan None hd n (map (fun l => l ++ [newline]) ps ++ fs) = Ok (hd ++ [lines_text ps], (n + List.length ps)%nat, fs).
Proof.
  destruct end_word as [EN EE]. intros c ps hd n fs OK NA B. destruct (broken_ends _ c ps B) as [init [p [-> [C L]]]]. pose proof B as [_ [E [F _]]].
  assert (NS : ~ In " "%char (T "&data")) by (intros I; cbn in I; repeat (destruct I as [I|I]; [discriminate|]); contradiction).
  assert (ST : forall a r, init ++ [p] = a :: r -> existsb (fun nl => occurs nl (a ++ [newline])) namelists = false /\ prefixb (T "&data") (a ++ [newline]) = true).
  { intros a r Q. rewrite Q in B, E. destruct (broken_starts _ c a r NS B) as [q A]. split; [|subst a; rewrite <- app_assoc; apply prefixb_app].
    apply not_true_is_false. intros H. apply existsb_exists in H. destruct H as [nl [I O]]. destruct (known_word nl I) as [K1 K2]. apply (occurs_line nl a K1 K2) in O.
    assert (X := data_not_namelist c OK NA). apply not_true_iff_false in X. apply X. apply existsb_exists. exists nl. split; [exact I|]. apply occurs_spec. rewrite E. destruct O as [u [v ->]].
    destruct r as [|a' r]; [rewrite join_one; exists u, (v ++ [newline]); now rewrite <- !app_assoc|]. rewrite join_more. exists u, (v ++ [" "%char] ++ join [" "%char] (a' :: r) ++ [newline]). now rewrite <- !app_assoc. }
  destruct init as [|a init]; inversion F as [|? ? P F']; subst; cbn [app map scan]; destruct (ST _ _ eq_refl) as [S1 S2]; rewrite (part_kept _ _ P), S1, S2.
  - rewrite (proj2 (occurs_line _ _ EN EE) C). unfold lines_text. cbn [map List.concat List.length]. rewrite app_nil_r, Nat.add_1_r. reflexivity.
  - inversion L as [|? ? NC L']; subst. rewrite (occurs_line_false _ _ EN EE NC). rewrite scan_inside by assumption. unfold lines_text. cbn [app map List.concat List.length].
    replace (Datatypes.S n + List.length (init ++ [p]))%nat with (n + Datatypes.S (List.length (init ++ [p])))%nat by lia. reflexivity.
Qed.

(** all commands of a header *)
Fixpoint collected (hs : list hline) (pss : list (list text)) : list text :=
  match hs, pss with
  | Ignored _ :: hs, _ :: pss => collected hs pss
  | _ :: hs, ps :: pss => lines_text ps :: collected hs pss
  | _, _ => []
  end.
Fixpoint line_count (hs : list hline) (pss : list (list text)) : nat :=
  match hs, pss with
  | Ignored _ :: hs, _ :: pss => line_count hs pss
  | _ :: hs, ps :: pss => (List.length ps + line_count hs pss)%nat
  | _, _ => 0%nat
  end.
Lemma parts_lines : forall ps, Forall part_ok ps -> Forall (fun l => ~ In newline l) ps.
Proof. intros ps F. eapply Forall_impl; [|exact F]. now intros p [_ [N _]]. Qed.
Lemma no_space : forall w, In w (T "&data" :: namelists) -> ~ In " "%char w.
Proof. intros w I J. cbn in I. repeat (destruct I as [<-|I]; [cbn in J; repeat (destruct J as [J|J]; [discriminate|]); contradiction|]). contradiction. Qed.
Lemma scan_broken_header : forall hs d pss ds s, Forall line_ok hs -> command_ok data_attributes d -> (forall a, In a (c_attrs d) -> ~ In "&"%char (at_value a)) ->
  Forall2 broken_line hs pss -> broken (T "&data") d ds -> forall hd n,
  scan None hd n (flines (lines_text (List.concat pss ++ ds) ++ s)) = Ok (hd ++ collected hs pss ++ [lines_text ds], (n + line_count hs pss + List.length ds)%nat, flines s).
Proof.
  intros hs d pss ds s LO OK NA F B. 
  assert (NL : Forall (fun l => ~ In newline l) (List.concat pss ++ ds)).
  { apply Forall_app. split.
    - clear - F LO. induction F as [|h ps hs pss H F IH]; [constructor|]. inversion LO as [|? ? L1 L2]; subst. cbn [List.concat]. apply Forall_app. split; [|auto].
      destruct h as [t|c|c]; cbn [broken_line line_ok] in *; [subst ps; constructor; [apply L1|constructor]| |]; apply parts_lines; apply H.
    - apply parts_lines. apply B. }
  unfold lines_text at 1. rewrite flines_lines by exact NL. clear NL. rewrite map_app, <- app_assoc.
  induction F as [|h ps hs pss H F IH]; intros hd n.
  - cbn [List.concat map app collected line_count]. rewrite (scan_data d) by assumption. now rewrite Nat.add_0_r.
  - inversion LO as [|? ? L1 L2]; subst. cbn [List.concat]. rewrite map_app, <- app_assoc. destruct h as [t|c|c]; cbn [broken_line collected line_count line_ok] in *.
    + subst ps. cbn [map app scan]. rewrite skippable_ignorable by assumption. now apply IH.
    + rewrite (scan_broken (T "&parameter") c) by (try (apply no_space; right); cbn; tauto). rewrite IH by assumption. rewrite <- !app_assoc. cbn [app]. now rewrite Nat.add_assoc.
    + rewrite (scan_broken (T "&column") c) by (try (apply no_space; right); cbn; tauto). rewrite IH by assumption. rewrite <- !app_assoc. cbn [app]. now rewrite Nat.add_assoc.
Qed.
Lemma parse_broken : forall hs pss d ds, Forall2 broken_line hs pss -> broken (T "&data") d ds -> forall ct,
  parse_all ct (collected hs pss ++ [lines_text ds]) = parse_all ct (lines_of hs ++ [command_text (T "&data") d]).
Proof.
  intros hs pss d ds F B. induction F as [|h ps hs pss H F IH]; intros ct.
  - cbn [collected lines_of app parse_all]. now rewrite (broken_same ct _ _ _ B).
  - destruct h as [t|c|c]; cbn [broken_line collected lines_of app parse_all] in *; [apply IH| |].
    + rewrite (broken_same ct _ _ _ H). destruct (parse_one ct (lines_text ps)); cbn [rbind]; [apply IH|reflexivity|reflexivity].
    + rewrite (broken_same ct _ _ _ H). destruct (parse_one ct (lines_text ps)); cbn [rbind]; [apply IH|reflexivity|reflexivity].
Qed.

(* ------------------------------------------------------------------ *)
(** Opening *)
Definition moved (r : reader) (f : text) (p : Z) (n : nat) : reader :=
  {| r_file := f; r_buffer := r_buffer r; r_max := r_max r; r_pointer := p; r_count := n; r_content := r_content r; r_data := r_data r;
     r_ascii := r_ascii r; r_varlen := r_varlen r; r_pkeys := r_pkeys r; r_ckeys := r_ckeys r; r_pages := r_pages r; r_rows := r_rows r;
     r_parameters := r_parameters r; r_columns := r_columns r |}.
Lemma first_line : forall h rest, Forall ignorable (h_before h) -> first_ok (h_first h) ->
  read_line (flines (List.concat (map (fun l => l ++ [newline]) (h_before h)) ++ h_first h ++ newline :: rest)) = Ok (h_first h ++ [newline], flines rest) /\ occurs (T "SDDS1") (h_first h ++ [newline]) = true.
Proof.
  intros h rest HB HF. split.
  - rewrite read_line_skips by assumption. destruct HF as [N [[a [b E]] X]]. rewrite flines_line by assumption. cbn [read_line].
    destruct (h_first h) as [|c r] eqn:EF; [exfalso; destruct a; discriminate|]. rewrite not_skippable; [reflexivity|intros ->; apply N; now left|intros ->; now apply (X r)].
  - now apply first_facts.
Qed.
Lemma lines_text_app : forall a b, lines_text (a ++ b) = lines_text a ++ lines_text b.
Proof. intros a b. unfold lines_text. now rewrite map_app, concat_app. Qed.
Lemma open_broken : forall h t pss ds data buffer max, header_ok h -> Forall2 broken_line (h_lines h) pss -> broken (T "&data") (h_data h) ds ->
  t = lines_text (h_before h ++ [h_first h] ++ List.concat pss ++ ds) ->
  open_sdds (t ++ data) buffer max = do r <- open_sdds (header_text h ++ data) buffer max; Ok (moved r (t ++ data) (Z.of_nat (List.length t)) (1 + line_count (h_lines h) pss + List.length ds)%nat).
Proof.
  intros h t pss ds data buffer max [HB [HF [HL [HD HA]]]] F B E.
  assert (R1 : read_header (t ++ data) = Ok (collected (h_lines h) pss ++ [lines_text ds], (1 + line_count (h_lines h) pss + List.length ds)%nat, flines data)).
  { unfold read_header. rewrite E, !lines_text_app. rewrite <- !app_assoc. unfold lines_text at 1 2. cbn [map List.concat app]. rewrite app_nil_r. rewrite <- !app_assoc. cbn [app].
    destruct (first_line h (lines_text (List.concat pss) ++ lines_text ds ++ data) HB HF) as [X Y]. rewrite X. cbn [rbind]. rewrite Y.
    rewrite (app_assoc (lines_text (List.concat pss))). rewrite <- lines_text_app. now rewrite (scan_broken_header (h_lines h) (h_data h)). }
  assert (R2 : read_header (header_text h ++ data) = Ok (lines_of (h_lines h) ++ [command_text (T "&data") (h_data h)], (1 + List.length (lines_of (h_lines h)) + 1)%nat, flines data)).
  { unfold read_header, header_text. rewrite <- !app_assoc. cbn [app].
    destruct (first_line h (List.concat (map hline_text (h_lines h)) ++ command_text (T "&data") (h_data h) ++ data) HB HF) as [X Y]. rewrite X. cbn [rbind]. rewrite Y.
    now rewrite scan_header. }
  unfold open_sdds. rewrite R1, R2. cbn [rbind]. rewrite (parse_broken _ _ _ _ F B). destruct (parse_all no_content _) as [ct|e|]; cbn [rbind]; [|reflexivity|reflexivity].
  destruct (c_data ct) as [|dt dts]; [reflexivity|]. cbv zeta. destruct (parameter_keys _ max ct dt) as [pk|e|]; cbn [rbind]; [|reflexivity|reflexivity].
  rewrite concat_flines. f_equal. unfold moved. cbn [r_file r_buffer r_max r_content r_data r_ascii r_varlen r_pkeys r_ckeys r_pages r_rows r_parameters r_columns]. f_equal. rewrite app_length. lia.
Qed.

(* ------------------------------------------------------------------ *)
(** Reading *)
Lemma broken_binary : forall h ps cs t buffer max pgs fuel n, header_ok h -> declares h ps cs -> Forall fixed_readable (params_of (h_lines h)) -> binary_header h -> broken_header h t ->
  names_ok ps cs -> Forall (sound max ps cs) pgs -> (buffer = true \/ Forall seen pgs) -> (List.length pgs < fuel)%nat ->
  Forall (fun pg => has_rows cs pg = true -> same_length n pg) pgs ->
  exists r r', open_sdds (t ++ List.concat (map (bytes ps cs) pgs)) buffer max = Ok r /\ read fuel r None = Some (r', Ok tt) /\
    r_parameters r' = Some (param_pages ps pgs) /\ r_columns r' = match cs with [] => None | _ => Some (col_pages cs pgs) end.
Proof.
  intros h ps cs t buffer max pgs fuel n HO DC FR BH [pss [ds [F [B E]]]] NO SO SH FU EQ. set (data := List.concat (map (bytes ps cs) pgs)).
  destruct (open_binary h ps cs data buffer max HO DC FR BH) as [r0 [E0 [SU0 [_ [RB [RM [_ [P0 [R0 [C0 _]]]]]]]]]].
  assert (O := open_broken h t pss ds data buffer max HO F B E). rewrite E0 in O. cbn [rbind] in O. set (r := moved r0 _ _ _) in O.
  assert (SU : set_up r ps cs) by (destruct SU0 as [S1 S2 S3 S4 S5 S6]; constructor; cbn [r moved r_ascii r_pkeys r_max r_ckeys r_varlen r_content r_data]; assumption).
  destruct (read_pages r ps cs None pgs fuel n SU NO) as [r' [RD [PR [CR _]]]]; try assumption; try discriminate.
  - cbn [r moved r_pointer r_file]. rewrite app_length. lia.
  - cbn [r moved r_pointer r_file]. rewrite Nat2Z.id. rewrite skipn_app, skipn_all, Nat.sub_diag. reflexivity.
  - cbn [r moved r_max]. now rewrite RM.
  - cbn [r moved r_buffer]. now rewrite RB.
  - now left.
  - exists r, r'. split; [exact O|]. split; [exact RD|]. rewrite PR, CR. cbn [r moved r_columns]. rewrite C0. unfold scanned.
    assert (CH : forall i pgs, chosen None i pgs = pgs) by (intros i l; revert i; induction l as [|x l IH]; intros i; [reflexivity|]; cbn [chosen asked]; now rewrite IH).
    assert (UP : forall i pgs, upto None i pgs = pgs) by (intros i l; revert i; induction l as [|x l IH]; intros i; [reflexivity|]; cbn [upto]; now rewrite IH).
    rewrite CH, ?UP. split; [reflexivity|]. destruct cs; [reflexivity|]. destruct (r_varlen r); reflexivity.
Qed.
Lemma comment_false : forall p, part_ok p -> is_comment p = false.
Proof.
  intros p [_ [_ [_ [_ X]]]]. unfold is_comment. destruct (drop_bws p) as [|c r] eqn:E; [reflexivity|]. destruct (Ascii.eqb_spec c "!"%char) as [->|]; [exfalso|reflexivity].
  assert (Y : exists a, p = a ++ "!"%char :: r /\ forall d, In d a -> is_bws d = true).
  { clear X. induction p as [|d p IH]; [discriminate|]. cbn [drop_bws] in E. destruct (is_bws d) eqn:D.
    - destruct (IH E) as [a [-> A]]. exists (d :: a). split; [reflexivity|]. intros x [<-|I]; auto.
    - injection E as -> ->. exists []. split; [reflexivity|]. intros x []. }
  destruct Y as [a [-> A]]. destruct (X a r eq_refl) as [d [I D]]. rewrite (A d I) in D. discriminate.
Qed.
Lemma join_in : forall ps (p : text) c, In p ps -> In c p -> In c (join [" "%char] ps).
Proof.
  induction ps as [|a ps IH]; intros p c I J; [contradiction|]. destruct ps as [|b ps]; [destruct I as [<-|[]]; exact J|]. rewrite join_more, !in_app_iff. destruct I as [<-|I]; [now left|right; right; eauto].
Qed.
Lemma broken_unbroken : forall w c ps, broken w c ps -> ~ In cr (command_text w c) -> Forall unbroken ps.
Proof.
  intros w c ps [_ [E [F _]]] N. rewrite Forall_forall in *. intros p I d J. destruct (F p I) as [_ [NN _]]. split; [intros ->; contradiction|]. intros ->. apply N. rewrite E, in_app_iff. left. eapply join_in; eauto.
Qed.
Lemma header_in : forall h, ~ In cr (header_text h) -> Forall (fun l => ~ In cr l) (h_before h) /\ ~ In cr (h_first h) /\ Forall (fun l => ~ In cr (hline_text l)) (h_lines h) /\ ~ In cr (command_text (T "&data") (h_data h)).
Proof.
  intros h N. unfold header_text in N. rewrite !in_app_iff in N. split; [|split; [tauto|split; [|tauto]]].
  - apply Forall_forall. intros l I J. apply N. left. apply in_concat. exists (l ++ [newline]). split; [apply in_map_iff; eauto|apply in_or_app; now left].
  - apply Forall_forall. intros l I J. apply N. right. right. right. left. apply in_concat. exists (hline_text l). split; [apply in_map_iff; eauto|exact J].
Qed.
Lemma broken_rows : forall h pss ds, header_ok h -> gapless h -> Forall2 broken_line (h_lines h) pss -> broken (T "&data") (h_data h) ds ->
  let rows := h_before h ++ [h_first h] ++ List.concat pss ++ ds in
  Forall unbroken rows /\ List.length (filter (fun l => negb (is_comment l)) rows) = (1 + line_count (h_lines h) pss + List.length ds)%nat.
Proof.
  intros h pss ds [HB [HF [HL [HD HA]]]] [GB [[b GF] [GL GC]]] F B rows. destruct (header_in h GC) as [C1 [C2 [C3 C4]]]. split.
  - unfold rows. repeat (apply Forall_app; split).
    + rewrite Forall_forall in *. intros l I c J. destruct (HB l I) as [X _]. split; intros ->; [contradiction|now apply (C1 l I)].
    + constructor; [|constructor]. intros c J. destruct HF as [X _]. split; intros ->; contradiction.
    + clear - F HL C3. induction F as [|l ps hs pss H F IH]; [constructor|]. inversion HL as [|? ? L1 L2]; subst. inversion C3 as [|? ? N1 N2]; subst. cbn [List.concat]. apply Forall_app. split; [|auto].
      destruct l as [t|c|c]; cbn [broken_line hline_text] in *; [subst ps; constructor; [|constructor]|now apply (broken_unbroken _ _ _ H)|now apply (broken_unbroken _ _ _ H)].
      intros c J. destruct L1 as [X _]. split; intros ->; [contradiction|]. apply N1. apply in_or_app. now left.
    + now apply (broken_unbroken _ _ _ B).
  - unfold rows. rewrite !filter_app, !app_length. rewrite filter_none.
    2: { apply Forall_forall. intros l I. rewrite Forall_forall in HB, GB. apply comment_row; auto. }
    rewrite GF. change (filter (fun l => negb (is_comment l)) [T "SDDS1" ++ b]) with [T "SDDS1" ++ b].
    assert (K : forall w c ps, broken w c ps -> filter (fun l => negb (is_comment l)) ps = ps).
    { intros w c ps [_ [_ [P _]]]. apply filter_keep. eapply Forall_impl; [|exact P]. exact comment_false. }
    rewrite (K _ _ _ B). cbn [List.length]. enough (X : List.length (filter (fun l => negb (is_comment l)) (List.concat pss)) = line_count (h_lines h) pss) by (rewrite X; lia).
    clear - F HL GL K. induction F as [|l ps hs pss H F IH]; [reflexivity|]. inversion HL as [|? ? L1 L2]; subst. cbn [List.concat]. rewrite filter_app, app_length, IH; [|assumption|intros t I; apply GL; now right].
    destruct l as [t|c|c]; cbn [broken_line line_count] in *; [subst ps; cbn [filter]; rewrite (comment_row t L1) by (apply GL; now left); reflexivity| |]; now rewrite (K _ _ _ H).
Qed.
Lemma broken_ascii : forall h ps cs t (buffer : bool) max aps pgs fuel n, header_ok h -> declares h ps cs -> Forall fixed_readable (params_of (h_lines h)) -> ascii_header h -> broken_header h t ->
  cs <> [] -> names_ok ps cs -> Forall2 (asound max ps cs) aps pgs ->
  (if buffer then gapless h /\ (List.length aps <= 1)%nat else Forall aseen aps) -> (List.length pgs < fuel)%nat ->
  Forall (fun pg => has_rows cs pg = true -> same_length n pg) pgs ->
  exists r r', open_sdds (t ++ List.concat (map apage_text aps)) buffer max = Ok r /\ read fuel r None = Some (r', Ok tt) /\
    r_parameters r' = Some (aparam_pages ps pgs) /\ r_columns r' = Some (col_pages cs pgs).
Proof.
  intros h ps cs t buffer max aps pgs fuel n HO DC FR AH [pss [ds [F [B ET]]]] NC NO SO BC FU EQ.
  destruct (open_ascii h ps cs (List.concat (map apage_text aps)) buffer max HO DC FR AH NC) as [r0 [E0 [SU0 [_ [RB [RM [_ [P0 [R0 [C0 _]]]]]]]]]].
  assert (O := open_broken h t pss ds (List.concat (map apage_text aps)) buffer max HO F B ET). rewrite E0 in O. cbn [rbind] in O. set (r := moved r0 _ _ _) in O.
  assert (SU : aset_up r ps cs) by (destruct SU0; constructor; cbn [r moved r_ascii r_pkeys r_max r_ckeys r_varlen r_content r_data]; assumption).
  assert (X : exists r', read fuel r None = Some (r', Ok tt) /\ r_parameters r' = Some (aparam_pages ps pgs) /\ r_columns r' = Some (col_pages cs pgs)).
  2: { destruct X as [r' X]. exists r, r'. split; [exact O|exact X]. }
  assert (RB' : r_buffer r = buffer) by exact RB. assert (RM' : r_max r = max) by exact RM.
  apply (aread_pages r ps cs aps pgs fuel n); auto; rewrite ?RM', ?RB'; auto.
  - unfold source_of, start. rewrite RB', (as_ascii _ _ _ SU). change (r_file r) with (t ++ List.concat (map apage_text aps)). destruct buffer; cbn [alines ended buffered negb nl].
    + destruct BC as [G ONE]. split; [lia|]. rewrite Nat2Z.id. change (r_count r) with (1 + line_count (h_lines h) pss + List.length ds)%nat. unfold buffered_lines.
      destruct (broken_rows h pss ds HO G F B) as [U CNT]. rewrite ET. unfold lines_text. rewrite splitlines_lines by exact U. rewrite filter_app, skipn_app. rewrite CNT, Nat.sub_diag. cbn [skipn].
      rewrite skipn_all2 by (rewrite CNT; lia). cbn [app].
      destruct aps as [|ap [|? ?]]; [reflexivity| |cbn in ONE; lia]. inversion SO as [|? ? ? ? S1 _]; subst. destruct (apage_rows _ _ _ _ _ S1) as [U1 NM].
      cbn [map List.concat]. rewrite !app_nil_r. unfold apage_text. rewrite <- (app_nil_r (List.concat _)). rewrite splitlines_lines by assumption. cbn [splitlines_aux]. rewrite app_nil_r.
      rewrite filter_keep by assumption. unfold ended. cbn [buffered negb nl]. rewrite <- (map_id (apage_lines ap)) at 1. apply map_ext. intros. now rewrite app_nil_r.
    + split; [reflexivity|]. change (r_pointer r) with (Z.of_nat (List.length t)). split; [rewrite app_length; lia|]. rewrite Nat2Z.id. rewrite skipn_app, skipn_all, Nat.sub_diag. cbn [skipn app].
      rewrite (pages_lines max ps cs aps pgs SO). f_equal.
  - destruct buffer; [right; tauto|now left].
  - destruct buffer; [now left|right; assumption].
Qed.

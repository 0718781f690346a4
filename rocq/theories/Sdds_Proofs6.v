(** Lemmas for the SDDS claims: the whole header. *)
From Coq Require Import List Bool Arith Ascii String ZArith Reals Lia.
From Verif Require Import PyBase PyText Lte_Spec Sdds_Model Sdds_Spec Sdds_Proofs Sdds_Proofs2 Sdds_Proofs3 Sdds_Proofs4 Sdds_Proofs5.
Import ListNotations.
Open Scope Z_scope.

Lemma word_parameter : command_word (T "&parameter").
Proof. exists "&"%char, (T "parameter"). split; [reflexivity|]. cbn. intros d I. repeat (destruct I as [<-|I]; [repeat split; discriminate|]). contradiction. Qed.
Lemma word_column : command_word (T "&column").
Proof. exists "&"%char, (T "column"). split; [reflexivity|]. cbn. intros d I. repeat (destruct I as [<-|I]; [repeat split; discriminate|]). contradiction. Qed.
Lemma word_data : command_word (T "&data").
Proof. exists "&"%char, (T "data"). split; [reflexivity|]. cbn. intros d I. repeat (destruct I as [<-|I]; [repeat split; discriminate|]). contradiction. Qed.

(* ------------------------------------------------------------------ *)
(** Commands are single lines *)
Definition command_body (w : text) (c : command) : text := w ++ c_gap c ++ List.concat (map attr_text (c_attrs c)) ++ c_end c ++ T "&end".
Lemma command_text_body : forall w c, command_text w c = command_body w c ++ [newline].
Proof. intros. unfold command_text, command_body. now rewrite <- !app_assoc. Qed.
Lemma blank_not : forall g c, blanks_only g -> In c g -> c <> newline /\ c <> "&"%char.
Proof. intros g c [_ H] I. destruct (H c I) as [->| ->]; split; discriminate. Qed.
Lemma in_escaped : forall c v, In c (escaped v) -> In c v \/ c = escape_char.
Proof.
  intros c v. induction v as [|d v IH]; intros I; [now left|]. cbn [escaped] in I. apply in_app_iff in I. destruct I as [I|I].
  - destruct (Ascii.eqb d quote_char || Ascii.eqb d escape_char).
    + destruct I as [<-|[<-|[]]]; [now right|left; now left].
    + destruct I as [<-|[]]. left; now left.
  - destruct (IH I) as [J|J]; [left; now right|now right].
Qed.
Lemma attr_line : forall keys a, attr_ok keys a -> ~ In newline (attr_text a).
Proof.
  intros keys a [[_ [K _]] [[V _] G]] I. unfold attr_text in I. rewrite !in_app_iff in I. destruct I as [I|[I|[I|[I|I]]]].
  - destruct (K _ I) as [_ [_ [_ [_ [X _]]]]]. now apply X.
  - cbn in I. destruct I as [I|[]]. discriminate.
  - destruct (at_quoted a); [rewrite !in_app_iff in I; destruct I as [[I|[]]|[I|[I|[]]]]; try discriminate; destruct (in_escaped _ _ I) as [J|J]; [contradiction|discriminate]|contradiction].
  - destruct (at_comma a); [destruct I as [I|[]]; discriminate|contradiction].
  - destruct (blank_not _ _ G I) as [X _]. now apply X.
Qed.
Lemma command_line : forall keys w c, ~ In newline w -> command_ok keys c -> ~ In newline (command_body w c).
Proof.
  intros keys w c W [G [A [_ B]]] I. unfold command_body in I. rewrite !in_app_iff in I. destruct I as [I|[I|[I|[I|I]]]]; [contradiction| | | |].
  - destruct (blank_not _ _ G I) as [X _]. now apply X.
  - apply in_concat in I. destruct I as [t [I J]]. apply in_map_iff in I. destruct I as [a [<- I]]. rewrite Forall_forall in A. eapply attr_line; eauto.
  - destruct (B _ I) as [X|X]; discriminate.
  - cbn in I. repeat (destruct I as [I|I]; [discriminate|]). contradiction.
Qed.
Lemma attr_amp : forall keys a, attr_ok keys a -> ~ In "&"%char (at_value a) -> ~ In "&"%char (attr_text a).
Proof.
  intros keys a [[_ [K _]] [[V _] G]] NV I. unfold attr_text in I. rewrite !in_app_iff in I. destruct I as [I|[I|[I|[I|I]]]].
  - destruct (K _ I) as [_ [X _]]. now apply X.
  - cbn in I. destruct I as [I|[]]. discriminate.
  - destruct (at_quoted a); [rewrite !in_app_iff in I; destruct I as [[I|[]]|[I|[I|[]]]]; try discriminate; destruct (in_escaped _ _ I) as [J|J]; [contradiction|discriminate]|contradiction].
  - destruct (at_comma a); [destruct I as [I|[]]; discriminate|contradiction].
  - destruct (blank_not _ _ G I) as [_ X]. now apply X.
Qed.
Lemma flines_command : forall keys w c s, ~ In newline w -> command_ok keys c -> flines (command_text w c ++ s) = command_text w c :: flines s.
Proof. intros. rewrite command_text_body, <- app_assoc. cbn [app]. rewrite flines_line by (eapply command_line; eassumption). reflexivity. Qed.
Lemma occurs_end : forall w c, occurs (T "&end") (command_text w c) = true.
Proof.
  intros. unfold command_text. replace (w ++ c_gap c ++ List.concat (map attr_text (c_attrs c)) ++ c_end c ++ T "&end" ++ [newline]) with
    ((w ++ c_gap c ++ List.concat (map attr_text (c_attrs c)) ++ c_end c) ++ T "&end" ++ [newline]) by (now rewrite <- !app_assoc). apply occurs_mid.
Qed.
Lemma namelist_line : forall w c, In w namelists -> existsb (fun nl => occurs nl (command_text w c)) namelists = true.
Proof. intros w c I. apply existsb_exists. exists w. split; [assumption|]. unfold command_text. apply (occurs_mid w []). Qed.
Lemma data_not_namelist : forall c, command_ok data_attributes c -> (forall a, In a (c_attrs c) -> ~ In "&"%char (at_value a)) ->
  existsb (fun nl => occurs nl (command_text (T "&data") c)) namelists = false.
Proof.
  intros c [G [A [_ B]]] N.
  set (mid := T "data" ++ c_gap c ++ List.concat (map attr_text (c_attrs c)) ++ c_end c).
  assert (E : command_text (T "&data") c = "&"%char :: mid ++ T "&end" ++ [newline]) by (unfold command_text, mid; cbn [app]; rewrite <- !app_assoc; reflexivity).
  assert (M : ~ In "&"%char mid).
  { unfold mid. rewrite !in_app_iff. intros [I|[I|[I|I]]].
    - cbn in I. repeat (destruct I as [I|I]; [discriminate|]). contradiction.
    - destruct (blank_not _ _ G I) as [_ X]. now apply X.
    - apply in_concat in I. destruct I as [t [I J]]. apply in_map_iff in I. destruct I as [a [<- I]]. rewrite Forall_forall in A. eapply attr_amp; eauto.
    - destruct (B _ I) as [X|X]; discriminate. }
  apply not_true_is_false. intros H. apply existsb_exists in H. destruct H as [nl [I O]].
  assert (X : exists p, nl = "&"%char :: p /\ occurs nl (T "&end" ++ [newline]) = false /\ prefixb p (T "data" ++ c_gap c ++ List.concat (map attr_text (c_attrs c)) ++ c_end c ++ T "&end" ++ [newline]) = false).
  { unfold namelists in I. repeat (destruct I as [<-|I]; [eexists; split; [reflexivity|split; reflexivity]|]). contradiction. }
  destruct X as [p [-> [X Y]]]. rewrite E in O. cbn [occurs prefixb] in O. rewrite Ascii.eqb_refl in O. cbn [andb] in O.
  unfold mid in O at 1. rewrite <- !app_assoc in O. rewrite Y in O. cbn [orb] in O.
  rewrite occurs_past in O by assumption. discriminate.
Qed.
Lemma skippable_amp : forall w c, List.hd " "%char w = "&"%char -> skippable (command_text w c) = false.
Proof. intros [|a w] c H; [discriminate|]. cbn in H. subst a. unfold command_text. apply not_skippable; discriminate. Qed.

(* ------------------------------------------------------------------ *)
(** Collecting the commands *)
Fixpoint lines_of (hs : list hline) : list text :=
  match hs with
  | [] => []
  | Ignored _ :: r => lines_of r
  | Param c :: r => command_text (T "&parameter") c :: lines_of r
  | Col c :: r => command_text (T "&column") c :: lines_of r
  end.
Definition line_ok (l : hline) : Prop :=
  match l with Ignored t => ignorable t | Param c => command_ok parameter_attributes c | Col c => command_ok column_attributes c end.
Lemma no_newline_word : forall w, In w (T "&data" :: namelists) -> ~ In newline w.
Proof. intros w I J. cbn in I. repeat (destruct I as [<-|I]; [cbn in J; repeat (destruct J as [J|J]; [discriminate|]); contradiction|]). contradiction. Qed.
Lemma scan_header : forall hs d s hd n, Forall line_ok hs -> command_ok data_attributes d -> (forall a, In a (c_attrs d) -> ~ In "&"%char (at_value a)) ->
  scan None hd n (flines (List.concat (map hline_text hs) ++ command_text (T "&data") d ++ s)) =
  Ok (hd ++ lines_of hs ++ [command_text (T "&data") d], (n + List.length (lines_of hs) + 1)%nat, flines s).
Proof.
  intros hs d s hd n F D N. revert hd n. induction F as [|h hs H F IH]; intros hd n.
  - cbn [map List.concat app lines_of List.length]. rewrite (flines_command data_attributes) by (auto; apply no_newline_word; now left).
    cbn [scan]. rewrite skippable_amp by reflexivity. rewrite data_not_namelist by assumption.
    replace (prefixb (T "&data") (command_text (T "&data") d)) with true by (symmetry; apply prefixb_app).
    rewrite occurs_end. replace (n + 0 + 1)%nat with (Datatypes.S n) by lia. reflexivity.
  - destruct h as [l|c|c]; cbn [map List.concat lines_of hline_text line_ok] in *; rewrite <- !app_assoc.
    + cbn [app]. rewrite flines_line by apply H. cbn [scan]. rewrite skippable_ignorable by assumption. apply IH.
    + rewrite (flines_command parameter_attributes) by (auto; apply no_newline_word; cbn; tauto). cbn [scan].
      rewrite skippable_amp by reflexivity. rewrite namelist_line by (cbn; tauto). rewrite occurs_end, IH. rewrite <- app_assoc. cbn [List.length app].
      replace (Datatypes.S n + List.length (lines_of hs) + 1)%nat with (n + Datatypes.S (List.length (lines_of hs)) + 1)%nat by lia. reflexivity.
    + rewrite (flines_command column_attributes) by (auto; apply no_newline_word; cbn; tauto). cbn [scan].
      rewrite skippable_amp by reflexivity. rewrite namelist_line by (cbn; tauto). rewrite occurs_end, IH. rewrite <- app_assoc. cbn [List.length app].
      replace (Datatypes.S n + List.length (lines_of hs) + 1)%nat with (n + Datatypes.S (List.length (lines_of hs)) + 1)%nat by lia. reflexivity.
Qed.

(* ------------------------------------------------------------------ *)
(** Their meaning *)
Definition attribute_or_empty (c : command) (k : text) : text := match attribute_of c k with Some v => v | None => [] end.
Record param_rel (c : command) (d : datum) : Prop := {
  pr_fields : forall k, In k text_fields -> field (d_fields d) k = FStr (attribute_or_empty c k);
  pr_data : in_data c = true -> d_key d = data_type (attribute_or_empty c (T "type")) /\ field (d_fields d) (T "fixed_value") = FNone;
  pr_fixed : forall v, attribute_of c (T "fixed_value") = Some v -> d_key d = None /\
    parse_fixed_value (attribute_or_empty c (T "type")) v = Ok (field (d_fields d) (T "fixed_value")) }.
Record col_rel (c : command) (d : datum) : Prop := {
  cr_fields : forall k, In k text_fields -> field (d_fields d) k = FStr (attribute_or_empty c k);
  cr_length : field (d_fields d) (T "field_length") = match attribute_of c (T "field_length") with Some v => FStr v | None => FInt 0 end;
  cr_key : d_key d = data_type (attribute_or_empty c (T "type")) }.

Lemma field_set : forall fs k j v, k <> j -> field (set_field fs j v) k = field fs k.
Proof.
  intros fs k j v N. unfold field, set_field. induction fs as [|[i w] fs IH]; [reflexivity|]. cbn [map List.find fst].
  destruct (teqb i j) eqn:E; cbn [List.find fst].
  - apply teqb_eq in E. subst i. rewrite (teqb_neq j k) by congruence. exact IH.
  - destruct (teqb i k); [reflexivity|exact IH].
Qed.
Lemma field_set_same : forall fs j v, In j (map fst fs) -> field (set_field fs j v) j = v.
Proof.
  intros fs j v I. unfold field, set_field. induction fs as [|[i w] fs IH]; [contradiction|]. cbn [map List.find fst].
  destruct (teqb i j) eqn:E; cbn [List.find fst].
  - now rewrite teqb_refl.
  - rewrite E. apply IH. destruct I as [I|I]; [|exact I]. cbn in I. subst i. rewrite teqb_refl in E. discriminate.
Qed.
Lemma param_field : forall c k, In k text_fields -> field (fields_of parameter_defaults c) k = FStr (attribute_or_empty c k).
Proof. intros c k I. rewrite field_of. unfold attribute_or_empty. unfold text_fields in I. repeat (destruct I as [<-|I]; [cbn [List.find]; cbn; destruct (attribute_of c _); reflexivity|]). contradiction. Qed.
Lemma col_field : forall c k, In k text_fields -> field (fields_of column_defaults c) k = FStr (attribute_or_empty c k).
Proof. intros c k I. rewrite field_of. unfold attribute_or_empty. unfold text_fields in I. repeat (destruct I as [<-|I]; [cbn [List.find]; cbn; destruct (attribute_of c _); reflexivity|]). contradiction. Qed.
Lemma fixed_field : forall c, field (fields_of parameter_defaults c) (T "fixed_value") = match attribute_of c (T "fixed_value") with Some v => FStr v | None => FNone end.
Proof. intros c. rewrite field_of. reflexivity. Qed.
Lemma length_field : forall c, field (fields_of column_defaults c) (T "field_length") = match attribute_of c (T "field_length") with Some v => FStr v | None => FInt 0 end.
Proof. intros c. rewrite field_of. reflexivity. Qed.
Lemma data_type_word : forall k, data_type (kind_word k) = Some (dt_of k).
Proof. destruct k; reflexivity. Qed.

(** a parameter that can be read: fixed, or with a type *)
Definition param_readable (c : command) : Prop := fixed_readable c /\ (in_data c = true -> exists k, attribute_of c (T "type") = Some (kind_word k)).
Definition col_readable (c : command) : Prop := attribute_of c (T "field_length") = None /\ exists k, attribute_of c (T "type") = Some (kind_word k).

Lemma parse_fixed_ok : forall c v, fixed_readable c -> attribute_of c (T "fixed_value") = Some v -> exists x, parse_fixed_value (attribute_or_empty c (T "type")) v = Ok x.
Proof.
  intros c v R E. destruct v as [|v0 v]; [cbn; eauto|]. destruct (R _ E ltac:(discriminate)) as [A B]. unfold attribute_or_empty, parse_fixed_value.
  destruct (attribute_of c (T "type")) as [ty|] eqn:ET; [|cbn; eauto].
  destruct (teqb ty (T "short") || teqb ty (T "long")) eqn:SL.
  - apply orb_true_iff in SL. destruct A as [z Z]. { destruct SL as [X|X]; apply teqb_eq in X; subst ty; auto. } rewrite Z. eauto.
  - destruct (teqb ty (T "double")) eqn:X; [|eauto]. apply teqb_eq in X. subst ty. destruct (B eq_refl) as [x ->]. eauto.
Qed.
Lemma parse_parameter : forall c ct, command_ok parameter_attributes c -> param_readable c -> exists d, param_rel c d /\
  parse_one ct (command_text (T "&parameter") c) = Ok {| c_parameters := c_parameters ct ++ [d]; c_columns := c_columns ct; c_data := c_data ct; c_associates := c_associates ct |}.
Proof.
  intros c ct OK [FR TY]. unfold parse_one. destruct (uwords_command parameter_attributes (T "&parameter") c word_parameter OK) as [l ->].
  change (teqb (T "&parameter") (T "&parameter")) with true. cbv iota. rewrite (shlex_command parameter_attributes _ c word_parameter OK). cbn [rbind].
  unfold parameter. change (T "&parameter") with ("&"%char :: T "parameter").
  rewrite (parse_command parameter_attributes parameter_defaults _ c eq_refl meaningful_parameter OK).
  rewrite fixed_field. rewrite param_field by (cbn; tauto). cbn [text_of].
  destruct (attribute_of c (T "fixed_value")) as [v|] eqn:EV.
  - destruct (parse_fixed_ok c v FR EV) as [x X]. rewrite X. cbn [rbind]. eexists. split; [|reflexivity]. constructor; cbn [d_fields d_key].
    + intros k I. rewrite field_set by (intros ->; cbn in I; intuition discriminate). now apply param_field.
    + unfold in_data. rewrite EV. discriminate.
    + intros w W. split; [reflexivity|]. rewrite field_set_same by (cbn; tauto). congruence.
  - assert (D : in_data c = true) by (unfold in_data; now rewrite EV). destruct (TY D) as [k K].
    assert (X : data_type (attribute_or_empty c (T "type")) = Some (dt_of k)) by (unfold attribute_or_empty; rewrite K; apply data_type_word).
    rewrite X. cbn [rbind]. eexists. split; [|reflexivity]. constructor; cbn [d_fields d_key].
    + intros j I. now apply param_field.
    + intros _. rewrite X, fixed_field, EV. split; reflexivity.
    + intros w W. congruence.
Qed.
Lemma parse_column : forall c ct, command_ok column_attributes c -> col_readable c -> exists d, col_rel c d /\
  parse_one ct (command_text (T "&column") c) = Ok {| c_parameters := c_parameters ct; c_columns := c_columns ct ++ [d]; c_data := c_data ct; c_associates := c_associates ct |}.
Proof.
  intros c ct OK [FL [k K]]. unfold parse_one. destruct (uwords_command column_attributes (T "&column") c word_column OK) as [l ->].
  change (teqb (T "&column") (T "&parameter")) with false. change (teqb (T "&column") (T "&column")) with true. cbv iota.
  rewrite (shlex_command column_attributes _ c word_column OK). cbn [rbind].
  unfold column. change (T "&column") with ("&"%char :: T "column").
  rewrite (parse_command column_attributes column_defaults _ c eq_refl meaningful_column OK).
  rewrite col_field by (cbn; tauto). cbn [text_of]. rewrite length_field, FL.
  assert (X : data_type (attribute_or_empty c (T "type")) = Some (dt_of k)) by (unfold attribute_or_empty; rewrite K; apply data_type_word).
  assert (R : forall kk, col_rel c {| d_fields := fields_of column_defaults c; d_key := Some kk |} <-> kk = dt_of k).
  { intros kk. split; [intros H; pose proof (cr_key _ _ H) as J; cbn [d_key] in J; rewrite X in J; now injection J|]. intros ->. constructor; cbn [d_fields d_key].
    - intros j I. now apply col_field.
    - now rewrite length_field.
    - now rewrite X. }
  rewrite X. destruct k; cbn [dt_of rbind] in *; (eexists; split; [|reflexivity]); now apply R.
Qed.
Lemma parse_data : forall c ct, command_ok data_attributes c ->
  parse_one ct (command_text (T "&data") c) =
  Ok {| c_parameters := c_parameters ct; c_columns := c_columns ct; c_data := c_data ct ++ [fields_of data_defaults c]; c_associates := c_associates ct |}.
Proof.
  intros c ct OK. unfold parse_one. destruct (uwords_command data_attributes (T "&data") c word_data OK) as [l ->].
  change (teqb (T "&data") (T "&parameter")) with false. change (teqb (T "&data") (T "&column")) with false. change (teqb (T "&data") (T "&data")) with true. cbv iota.
  rewrite (shlex_command data_attributes _ c word_data OK). cbn [rbind].
  change (T "&data") with ("&"%char :: T "data"). now rewrite (parse_command data_attributes data_defaults _ c eq_refl meaningful_data OK).
Qed.
Lemma parse_lines : forall hs d ct, Forall line_ok hs -> command_ok data_attributes d -> Forall param_readable (params_of hs) -> Forall col_readable (cols_of hs) ->
  exists dp dc, Forall2 param_rel (params_of hs) dp /\ Forall2 col_rel (cols_of hs) dc /\
  parse_all ct (lines_of hs ++ [command_text (T "&data") d]) =
  Ok {| c_parameters := c_parameters ct ++ dp; c_columns := c_columns ct ++ dc; c_data := c_data ct ++ [fields_of data_defaults d]; c_associates := c_associates ct |}.
Proof.
  intros hs d ct F D. revert ct. induction F as [|h hs H F IH]; intros ct P C.
  - exists [], []. split; [constructor|split; [constructor|]]. cbn [lines_of app parse_all]. rewrite parse_data by assumption. cbn [rbind parse_all c_parameters]. now rewrite !app_nil_r.
  - destruct h as [l|c|c]; cbn [params_of cols_of lines_of line_ok app parse_all] in *.
    + apply IH; assumption.
    + inversion P as [|? ? P1 P2]; subst. destruct (parse_parameter c ct H P1) as [x [R E]]. rewrite E. cbn [rbind].
      match goal with |- context [parse_all ?c' _] => destruct (IH c' P2 C) as [dp [dc [A [B X]]]] end.
      exists (x :: dp), dc. split; [constructor; assumption|split; [assumption|]]. rewrite X. cbn [c_parameters c_columns c_data c_associates]. now rewrite <- app_assoc.
    + inversion C as [|? ? C1 C2]; subst. destruct (parse_column c ct H C1) as [x [R E]]. rewrite E. cbn [rbind].
      match goal with |- context [parse_all ?c' _] => destruct (IH c' P C2) as [dp [dc [A [B X]]]] end.
      exists dp, (x :: dc). split; [assumption|split; [constructor; assumption|]]. rewrite X. cbn [c_parameters c_columns c_data c_associates]. now rewrite <- app_assoc.
Qed.

(* ------------------------------------------------------------------ *)
(** Opening *)
Lemma names_readable : forall h ps cs, Forall fixed_readable (params_of (h_lines h)) -> declares h ps cs ->
  Forall param_readable (params_of (h_lines h)) /\ Forall col_readable (cols_of (h_lines h)).
Proof.
  intros h ps cs FR [A B]. split.
  - apply Forall_forall. intros c I. rewrite Forall_forall in FR. split; [now apply FR|]. intros D.
    assert (J : In c (filter in_data (params_of (h_lines h)))) by (apply filter_In; split; assumption).
    clear - A J. induction A as [|c' nk l m [_ T] A IH]; [contradiction|]. destruct J as [->|J]; [eauto|auto].
  - clear - B. induction B as [|c nk l m [[_ T] L] B IH]; constructor; [split; eauto|assumption].
Qed.
Lemma keyed_params : forall hs dp ps, Forall2 param_rel hs dp -> Forall2 (fun c nk => names_kind c (fst nk) (snd nk)) (filter in_data hs) ps -> keyed dp = map coded ps.
Proof.
  intros hs dp ps R. revert ps. induction R as [|c d hs dp H R IH]; intros ps F; cbn [filter] in F; [inversion F; reflexivity|].
  destruct (in_data c) eqn:D.
  - inversion F as [|? [n k] ? ps' [N K] F']; subst. destruct (pr_data _ _ H D) as [X _]. cbn [fst snd] in *.
    unfold keyed in *. cbn [flat_map]. unfold attribute_or_empty in X. rewrite K, data_type_word in X. rewrite X. cbn [app map coded fst snd].
    rewrite (IH ps' F'). unfold d_name. rewrite (pr_fields _ _ H) by (cbn; tauto). unfold attribute_or_empty. rewrite N. reflexivity.
  - unfold in_data in D. destruct (attribute_of c (T "fixed_value")) as [v|] eqn:V; [|discriminate]. destruct (pr_fixed _ _ H v V) as [X _].
    unfold keyed in *. cbn [flat_map]. rewrite X. apply IH. assumption.
Qed.
Lemma keyed_cols : forall hs dc cs, Forall2 col_rel hs dc -> Forall2 (fun c nk => names_kind c (fst nk) (snd nk) /\ attribute_of c (T "field_length") = None) hs cs -> keyed dc = map coded cs.
Proof.
  intros hs dc cs R. revert cs. induction R as [|c d hs dc H R IH]; intros cs F; [inversion F; reflexivity|].
  inversion F as [|? [n k] ? cs' [[N K] _] F']; subst. pose proof (cr_key _ _ H) as X. cbn [fst snd] in *.
  unfold keyed in *. cbn [flat_map]. unfold attribute_or_empty in X. rewrite K, data_type_word in X. rewrite X. cbn [app map coded fst snd].
  rewrite (IH cs' F'). unfold d_name. rewrite (cr_fields _ _ H) by (cbn; tauto). unfold attribute_or_empty. rewrite N. reflexivity.
Qed.
Lemma strings_coded : forall nks, existsb (fun nk => is_string (snd nk)) (map coded nks) = has_strings nks.
Proof. unfold has_strings. induction nks as [|[n k] nks IH]; [reflexivity|]. cbn. rewrite IH. now destruct k. Qed.

Definition is_ascii (h : header) : bool := match attribute_of (h_data h) (T "mode") with Some m => teqb m (T "ascii") | None => false end.
Lemma mode_field : forall c, field (fields_of data_defaults c) (T "mode") = FStr (match attribute_of c (T "mode") with Some v => v | None => T "binary" end).
Proof. intros c. rewrite field_of. cbn. now destruct (attribute_of c _). Qed.
Lemma counts_field : forall c, field (fields_of data_defaults c) (T "no_row_counts") = match attribute_of c (T "no_row_counts") with Some v => FStr v | None => FInt 0 end.
Proof. intros c. rewrite field_of. reflexivity. Qed.

Lemma open_general : forall h ps cs data buffer max, header_ok h -> declares h ps cs -> Forall fixed_readable (params_of (h_lines h)) ->
  exists ct, Forall2 param_rel (params_of (h_lines h)) (c_parameters ct) /\ Forall2 col_rel (cols_of (h_lines h)) (c_columns ct) /\
  keyed (c_parameters ct) = map coded ps /\ keyed (c_columns ct) = map coded cs /\
  open_sdds (header_text h ++ data) buffer max =
    do pk <- parameter_keys (is_ascii h) max ct (fields_of data_defaults (h_data h));
    Ok {| r_file := header_text h ++ data; r_buffer := buffer; r_max := max; r_pointer := Z.of_nat (List.length (header_text h));
          r_count := (List.length (lines_of (h_lines h)) + 2)%nat; r_content := ct; r_data := fields_of data_defaults (h_data h);
          r_ascii := is_ascii h; r_varlen := negb (is_ascii h) && has_strings (cs ++ ps);
          r_pkeys := pk; r_ckeys := column_keys (is_ascii h) max (c_columns ct);
          r_pages := []; r_rows := []; r_parameters := None; r_columns := None |}.
Proof.
  intros h ps cs data buffer max [HB [HF [HL [HD HA]]]] DC FR. destruct (names_readable h ps cs FR DC) as [PR CR].
  destruct (parse_lines (h_lines h) (h_data h) no_content HL HD PR CR) as [dp [dc [RP [RC PA]]]].
  exists {| c_parameters := dp; c_columns := dc; c_data := [fields_of data_defaults (h_data h)]; c_associates := [] |}. cbn [c_parameters c_columns].
  split; [assumption|]. split; [assumption|]. destruct DC as [D1 D2].
  assert (KP : keyed dp = map coded ps) by (eapply keyed_params; eassumption).
  assert (KC : keyed dc = map coded cs) by (eapply keyed_cols; eassumption).
  split; [assumption|]. split; [assumption|].
  unfold open_sdds, read_header. set (f := header_text h ++ data).
  assert (RL : read_line (flines f) = Ok (h_first h ++ [newline], flines (List.concat (map hline_text (h_lines h)) ++ command_text (T "&data") (h_data h) ++ data))).
  { unfold f, header_text. rewrite <- !app_assoc. rewrite read_line_skips by assumption. destruct HF as [N [[a [b E]] X]].
    rewrite (app_assoc (h_first h)). rewrite <- (app_assoc (h_first h)). cbn [app]. rewrite flines_line by assumption. cbn [read_line].
    destruct (h_first h) as [|c r] eqn:EF; [exfalso; destruct a; discriminate|].
    rewrite not_skippable; [reflexivity| |].
    - intros ->. apply N. now left.
    - intros ->. now apply (X r). }
  rewrite RL. cbn [rbind]. replace (occurs (T "SDDS1") (h_first h ++ [newline])) with true.
  2: { destruct HF as [_ [[a [b ->]] _]]. rewrite <- !app_assoc. symmetry. apply occurs_mid. }
  rewrite scan_header by assumption. cbn [rbind app]. rewrite PA. cbn [rbind c_data no_content app c_parameters c_columns c_associates].
  rewrite mode_field. replace (teqb _ (T "ascii")) with (is_ascii h).
  2: { unfold is_ascii. destruct (attribute_of (h_data h) (T "mode")); reflexivity. }
  rewrite KP, KC. rewrite concat_flines. rewrite existsb_app, !strings_coded.
  replace (has_strings cs || has_strings ps) with (has_strings (cs ++ ps)) by (unfold has_strings; now rewrite existsb_app).
  replace (Z.of_nat (List.length f) - Z.of_nat (List.length data)) with (Z.of_nat (List.length (header_text h))) by (unfold f; rewrite app_length; lia).
  replace (1 + List.length (lines_of (h_lines h)) + 1)%nat with (List.length (lines_of (h_lines h)) + 2)%nat by lia. reflexivity.
Qed.

(** a binary file *)
Lemma open_binary : forall h ps cs data buffer max, header_ok h -> declares h ps cs -> Forall fixed_readable (params_of (h_lines h)) -> binary_header h ->
  exists r, open_sdds (header_text h ++ data) buffer max = Ok r /\ set_up r ps cs /\
    r_file r = header_text h ++ data /\ r_buffer r = buffer /\ r_max r = max /\ r_pointer r = Z.of_nat (List.length (header_text h)) /\
    r_pages r = [] /\ r_rows r = [] /\ r_columns r = None /\
    Forall2 param_rel (params_of (h_lines h)) (c_parameters (r_content r)) /\ Forall2 col_rel (cols_of (h_lines h)) (c_columns (r_content r)) /\
    r_count r = (List.length (lines_of (h_lines h)) + 2)%nat.
Proof.
  intros h ps cs data buffer max HO DC FR [B1 B2]. destruct (open_general h ps cs data buffer max HO DC FR) as [ct [RP [RC [KP [KC E]]]]].
  assert (A : is_ascii h = false).
  { unfold is_ascii. destruct (attribute_of (h_data h) (T "mode")) as [m|]; [|reflexivity]. apply teqb_neq. intros ->. now apply B1. }
  rewrite A in E. unfold parameter_keys in E. cbn [negb andb rbind] in E. rewrite E. eexists. split; [reflexivity|].
  split; [constructor; cbn [r_ascii r_pkeys r_max r_ckeys r_varlen r_content r_data negb andb]|cbn; repeat split; auto].
  - reflexivity.
  - now rewrite KP.
  - unfold column_keys. rewrite KC. destruct cs as [|[n k] cs]; reflexivity.
  - reflexivity.
  - destruct DC as [_ D2]. clear - RC D2. split; intros X.
    + rewrite X in RC. inversion RC as [Y|]. rewrite <- Y in D2. now inversion D2.
    + subst cs. inversion D2 as [Y|]. rewrite <- Y in RC. now inversion RC.
  - rewrite counts_field. destruct B2 as [-> | ->]; reflexivity.
Qed.

(** Opening and reading a binary file *)
Lemma open_and_read : forall h ps cs buffer max sel pgs fuel n, header_ok h -> declares h ps cs -> Forall fixed_readable (params_of (h_lines h)) -> binary_header h ->
  names_ok ps cs -> sel <> Some [] -> Forall (sound max ps cs) pgs ->
  (buffer = true \/ Forall seen pgs) -> (sel = None \/ has_strings (cs ++ ps) = true \/ buffer = true) -> (List.length pgs < fuel)%nat ->
  Forall (fun pg => has_rows cs pg = true -> same_length n pg) pgs ->
  exists r r', open_sdds (header_text h ++ List.concat (map (bytes ps cs) pgs)) buffer max = Ok r /\ read fuel r sel = Some (r', Ok tt) /\
    r_parameters r' = Some (param_pages ps (chosen sel 0 pgs)) /\
    r_columns r' = match cs with [] => None | _ => Some (col_pages cs (if has_strings (cs ++ ps) then upto sel 0 pgs else chosen sel 0 pgs)) end.
Proof.
  intros h ps cs buffer max sel pgs fuel n HO DC FR BH NO NE SO SH OK FU EQ.
  destruct (open_binary h ps cs (List.concat (map (bytes ps cs) pgs)) buffer max HO DC FR BH) as [r [E [SU [RF [RB [RM [RP [P0 [R0 [C0 _]]]]]]]]]].
  destruct (read_pages r ps cs sel pgs fuel n SU NO NE) as [r' [RD [PR [CR _]]]]; try assumption.
  - rewrite RP, RF, app_length. lia.
  - rewrite RP, RF, Nat2Z.id. rewrite skipn_app, skipn_all, Nat.sub_diag. reflexivity.
  - now rewrite RM.
  - now rewrite RB.
  - rewrite (su_varlen _ _ _ SU), RB. exact OK.
  - exists r, r'. split; [exact E|]. split; [exact RD|]. split; [exact PR|]. rewrite CR, C0. unfold scanned. rewrite (su_varlen _ _ _ SU). reflexivity.
Qed.

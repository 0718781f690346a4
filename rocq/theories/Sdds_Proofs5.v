(** Lemmas for the SDDS claims: opening a file with a regular header. *)
From Coq Require Import List Bool Arith Ascii String ZArith Reals Lia.
From Verif Require Import PyBase PyText Lte_Spec Sdds_Model Sdds_Spec Sdds_Proofs Sdds_Proofs2 Sdds_Proofs3 Sdds_Proofs4.
Import ListNotations.
Open Scope Z_scope.

(* ------------------------------------------------------------------ *)
(** Lines *)
Lemma flines_line : forall l s, ~ In newline l -> flines (l ++ newline :: s) = (l ++ [newline]) :: flines s.
Proof.
  induction l as [|c l IH]; intros s N.
  - cbn [app flines]. now rewrite Ascii.eqb_refl.
  - cbn [app flines]. destruct (Ascii.eqb_spec c newline) as [->|D]; [exfalso; apply N; now left|].
    rewrite IH by (intros I; apply N; now right). reflexivity.
Qed.
Lemma concat_flines : forall s, List.concat (flines s) = s.
Proof.
  induction s as [|c s IH]; [reflexivity|]. cbn [flines]. destruct (Ascii.eqb c newline); [cbn; now rewrite IH|].
  destruct (flines s) as [|l ls] eqn:E; cbn in *; [now rewrite <- IH|now rewrite IH].
Qed.
Lemma skippable_ignorable : forall l, ignorable l -> skippable (l ++ [newline]) = true.
Proof. intros l [_ [->|[r ->]]]; cbn [app skippable]; [now rewrite Ascii.eqb_refl|]. rewrite Ascii.eqb_refl. apply orb_true_r. Qed.
Lemma not_skippable : forall c r s, c <> newline -> c <> "!"%char -> skippable ((c :: r) ++ s) = false.
Proof.
  intros c r s A B. cbn [app skippable]. destruct (Ascii.eqb_spec c newline) as [->|_]; [contradiction|].
  destruct (Ascii.eqb_spec c "!"%char) as [->|_]; [contradiction|]. reflexivity.
Qed.
Lemma read_line_skips : forall ls s, Forall ignorable ls -> read_line (flines (List.concat (map (fun l => l ++ [newline]) ls) ++ s)) = read_line (flines s).
Proof.
  induction ls as [|l ls IH]; intros s F; [reflexivity|]. inversion F as [|? ? I F']; subst. cbn [map List.concat]. rewrite <- !app_assoc. cbn [app].
  rewrite flines_line by apply I. cbn [read_line]. rewrite skippable_ignorable by assumption. now apply IH.
Qed.

(* ------------------------------------------------------------------ *)
(** Finding a command word *)
Lemma prefixb_app : forall p s, prefixb p (p ++ s) = true.
Proof. induction p as [|c p IH]; intros s; [reflexivity|]. cbn. now rewrite Ascii.eqb_refl, IH. Qed.
Lemma prefixb_true : forall p s, prefixb p s = true -> exists r, s = p ++ r.
Proof.
  induction p as [|c p IH]; intros s H; [now exists s|]. destruct s as [|d s]; [discriminate H|]. cbn [prefixb] in H. apply andb_true_iff in H. destruct H as [E H].
  apply Ascii.eqb_eq in E. destruct (IH s H) as [r ->]. exists r. cbn. now rewrite E.
Qed.
Lemma occurs_mid : forall p a b, occurs p (a ++ p ++ b) = true.
Proof.
  intros p a b. induction a as [|c a IH].
  - cbn [app]. destruct (p ++ b) eqn:E; cbn [occurs]; rewrite <- E, prefixb_app; reflexivity.
  - cbn [app occurs]. rewrite IH. apply orb_true_r.
Qed.
Lemma occurs_past : forall c p u s, ~ In c u -> occurs (c :: p) s = false -> occurs (c :: p) (u ++ s) = false.
Proof.
  induction u as [|d u IH]; intros s N H; [assumption|]. cbn [app occurs prefixb]. destruct (Ascii.eqb_spec c d) as [->|D]; [exfalso; apply N; now left|].
  cbn [andb orb]. apply IH; auto. intros I; apply N; now right.
Qed.

(* ------------------------------------------------------------------ *)
(** Splitting a command into words *)
Definition wordy (c : ascii) : Prop := lex_ws c = false /\ c <> dquote /\ c <> backslash.
Lemma shlex_word : forall w tok q out s, (forall c, In c w -> wordy c) -> shlex InWord tok q out (w ++ s) = shlex InWord (tok ++ w) q out s.
Proof.
  induction w as [|c w IH]; intros tok q out s H; [now rewrite app_nil_r|]. destruct (H c (or_introl eq_refl)) as [W [D B]]. cbn [app shlex].
  rewrite W. destruct (Ascii.eqb_spec c dquote) as [->|_]; [contradiction|]. destruct (Ascii.eqb_spec c backslash) as [->|_]; [contradiction|].
  rewrite IH by (intros; apply H; now right). now rewrite <- app_assoc.
Qed.
Lemma shlex_first : forall c w out s, (forall d, In d (c :: w) -> wordy d) -> shlex Between [] false out ((c :: w) ++ s) = shlex InWord (c :: w) false out s.
Proof.
  intros c w out s H. destruct (H c (or_introl eq_refl)) as [W [D B]]. cbn [app shlex].
  rewrite W. destruct (Ascii.eqb_spec c backslash) as [->|_]; [contradiction|]. destruct (Ascii.eqb_spec c dquote) as [->|_]; [contradiction|].
  rewrite shlex_word by (intros; apply H; now right). reflexivity.
Qed.
Lemma shlex_quote : forall v tok out s, shlex InQuote tok true out (escaped v ++ dquote :: s) = shlex InWord (tok ++ v) true out s.
Proof.
  induction v as [|c v IH]; intros tok out s.
  - cbn [escaped app shlex]. rewrite Ascii.eqb_refl. now rewrite app_nil_r.
  - cbn [escaped]. destruct (Ascii.eqb_spec c quote_char) as [->|D]; [|destruct (Ascii.eqb_spec c escape_char) as [->|B]].
    + cbn [orb app shlex]. change (Ascii.eqb escape_char dquote) with false. change (Ascii.eqb escape_char backslash) with true.
      change (Ascii.eqb quote_char backslash) with false. change (Ascii.eqb quote_char dquote) with true. cbn [andb negb].
      rewrite IH. now rewrite <- app_assoc.
    + cbn [orb app shlex]. change (Ascii.eqb escape_char dquote) with false. change (Ascii.eqb escape_char backslash) with true. cbn [andb negb].
      rewrite IH. now rewrite <- app_assoc.
    + cbn [orb app shlex]. destruct (Ascii.eqb_spec c dquote) as [->|_]; [now contradiction D|].
      destruct (Ascii.eqb_spec c backslash) as [->|_]; [now contradiction B|]. rewrite IH. now rewrite <- app_assoc.
Qed.
Lemma blank_ws : forall c, blank_char c -> lex_ws c = true.
Proof. intros c [->| ->]; reflexivity. Qed.
Lemma shlex_gap : forall g tok out s, (forall c, In c g -> blank_char c) -> shlex Between tok false out (g ++ s) = shlex Between (match g with [] => tok | _ => [] end) false out s.
Proof.
  induction g as [|c g IH]; intros tok out s H; [reflexivity|]. cbn [app shlex]. rewrite blank_ws by (apply H; now left).
  rewrite IH by (intros; apply H; now right). now destruct g.
Qed.
Lemma shlex_end_gap : forall g tok q out s, tok <> [] -> blanks_only g -> shlex InWord tok q out (g ++ s) = shlex Between [] false (out ++ [tok]) s.
Proof.
  intros g tok q out s T [N B]. destruct g as [|c g]; [contradiction|]. cbn [app shlex]. rewrite blank_ws by (apply B; now left).
  replace (emit tok q out) with (out ++ [tok]) by (destruct tok; [contradiction|reflexivity]).
  rewrite shlex_gap by (intros; apply B; now right). now destruct g.
Qed.

Definition comma_of (a : attr) : text := if at_comma a then T "," else [].
Definition token (a : attr) : text := at_key a ++ T "=" ++ at_value a ++ comma_of a.
Lemma wordy_comma : wordy ","%char.
Proof. repeat split; discriminate. Qed.
Lemma wordy_equals : wordy "="%char.
Proof. repeat split; discriminate. Qed.
Lemma not_lex_ws : forall c, ~ blank_char c -> c <> ascii_of_nat 13 -> c <> newline -> lex_ws c = false.
Proof.
  intros c B R N. unfold lex_ws. destruct (Ascii.eqb_spec c " "%char) as [->|_]; [exfalso; apply B; now left|].
  destruct (Ascii.eqb_spec c (ascii_of_nat 9)) as [->|_]; [exfalso; apply B; now right|].
  destruct (Ascii.eqb_spec c (ascii_of_nat 13)) as [->|_]; [contradiction|]. destruct (Ascii.eqb_spec c newline) as [->|_]; [contradiction|]. reflexivity.
Qed.
Lemma key_wordy : forall keys k c, key_ok keys k -> In c k -> wordy c.
Proof. intros keys k c [_ [H _]] I. destruct (H c I) as [_ [_ [A [B [C [D E]]]]]]. split; [now apply not_lex_ws|split; assumption]. Qed.
Lemma shlex_attr : forall keys a out s, attr_ok keys a -> shlex Between [] false out (attr_text a ++ s) = shlex Between [] false (out ++ [token a]) s.
Proof.
  intros keys a out s [K [[V1 [V2 V3]] G]]. unfold attr_text. rewrite <- !app_assoc.
  destruct (at_key a) as [|k0 k] eqn:EK; [destruct K as [K _]; contradiction|].
  assert (CW : forall c, In c (comma_of a) -> wordy c) by (unfold comma_of; destruct (at_comma a); intros c I; [destruct I as [<-|[]]; apply wordy_comma|contradiction]).
  rewrite (shlex_first k0 k) by (intros d I; rewrite <- EK in *; eapply key_wordy; eassumption).
  rewrite (shlex_word (T "=")) by (intros c [<-|[]]; apply wordy_equals).
  fold (comma_of a). unfold token. rewrite EK. destruct (at_quoted a).
  - cbn [app]. cbn [shlex]. change (lex_ws quote_char) with false. change (Ascii.eqb quote_char dquote) with true. cbn iota.
    rewrite <- !app_assoc. cbn [app]. change quote_char with dquote. rewrite shlex_quote.
    rewrite shlex_word by assumption. rewrite shlex_end_gap by (try assumption; discriminate). cbn [app]. rewrite <- !app_assoc. reflexivity.
  - rewrite shlex_word. 2: { intros c I. destruct (V3 eq_refl c I) as [A [B [D E]]]. split; [apply not_lex_ws; [assumption|assumption|intros ->; contradiction]|split; assumption]. }
    rewrite shlex_word by assumption. rewrite shlex_end_gap by (try assumption; discriminate). cbn [app]. rewrite <- !app_assoc. reflexivity.
Qed.
Lemma shlex_attrs : forall keys l out s, Forall (attr_ok keys) l -> shlex Between [] false out (List.concat (map attr_text l) ++ s) = shlex Between [] false (out ++ map token l) s.
Proof.
  induction l as [|a l IH]; intros out s F; [cbn; now rewrite app_nil_r|]. inversion F as [|? ? A F']; subst. cbn [map List.concat]. rewrite <- app_assoc.
  rewrite (shlex_attr keys) by assumption. rewrite IH by assumption. now rewrite <- app_assoc.
Qed.
Definition command_word (w : text) : Prop := exists c r, w = c :: r /\ forall d, In d w -> wordy d /\ is_uws d = false.
Lemma shlex_command : forall keys w c, command_word w -> command_ok keys c -> shlex_split (command_text w c) = Ok (w :: map token (c_attrs c) ++ [T "&end"]).
Proof.
  intros keys w c [c0 [r [-> W]]] [G [A [_ B]]]. unfold shlex_split, command_text.
  rewrite shlex_first by (intros d I; now apply W). rewrite shlex_end_gap by (try assumption; discriminate).
  rewrite (shlex_attrs keys) by assumption. rewrite shlex_gap by assumption. destruct (c_end c); reflexivity.
Qed.
Lemma uwords_word : forall w d s, (forall c, In c w -> is_uws c = false) -> w <> [] -> is_uws d = true -> exists l, uwords (w ++ d :: s) = w :: l.
Proof.
  intros w d s H N D. unfold uwords.
  assert (G : forall w cur, (forall c, In c w -> is_uws c = false) -> rev cur ++ w <> [] -> exists l, uwords_aux cur (w ++ d :: s) = (rev cur ++ w) :: l).
  { clear w H N. induction w as [|c w IH]; intros cur H N.
    - rewrite app_nil_r in *. cbn [app uwords_aux]. rewrite D. destruct cur; [contradiction|]. eauto.
    - cbn [app uwords_aux]. rewrite H by (now left). destruct (IH (c :: cur)) as [l E]; [intros; apply H; now right|cbn; rewrite <- app_assoc; cbn; destruct (rev cur); discriminate|].
      cbn [rev] in E. rewrite <- app_assoc in E. eauto. }
  destruct (G w [] H) as [l E]; [exact N|]. eauto.
Qed.
Lemma uwords_command : forall keys w c, command_word w -> command_ok keys c -> exists l, uwords (command_text w c) = w :: l.
Proof.
  intros keys w c [c0 [r [-> W]]] [[N G] _]. unfold command_text. destruct (c_gap c) as [|d g]; [contradiction|]. cbn [app].
  apply (uwords_word (c0 :: r) d); [intros e I; now apply W|discriminate|]. destruct (G d (or_introl eq_refl)) as [->| ->]; reflexivity.
Qed.

(* ------------------------------------------------------------------ *)
(** The fields of a command *)
Definition fields_of (defaults : fields) (c : command) : fields :=
  map (fun kv => (fst kv, match attribute_of c (fst kv) with Some v => FStr v | None => snd kv end)) defaults.
Definition meaningful (k : text) : Prop := ~ In "="%char k /\ exists c r, k = c :: r /\ c <> "&"%char.

Lemma drop_commas_rev : forall v, last v " "%char <> ","%char -> drop_commas (rev v) = rev v.
Proof.
  intros v. destruct (rev v) as [|c r] eqn:E; [reflexivity|]. intros L. assert (V : v = rev r ++ [c]) by (rewrite <- (rev_involutive v), E; reflexivity).
  rewrite V, last_last in L. cbn [drop_commas]. destruct (Ascii.eqb_spec c ","%char); [contradiction|reflexivity].
Qed.
Lemma rstrip_value : forall v, last v " "%char <> ","%char -> rstrip_commas v = v /\ rstrip_commas (v ++ T ",") = v.
Proof.
  intros v L. unfold rstrip_commas. rewrite rev_app_distr. change (rev (T ",") ++ rev v) with (","%char :: rev v). cbn [drop_commas]. rewrite Ascii.eqb_refl.
  rewrite !drop_commas_rev by assumption. rewrite rev_involutive. split; reflexivity.
Qed.
Lemma token_value : forall keys a, attr_ok keys a -> rstrip_commas (after_equals (token a)) = at_value a.
Proof.
  intros keys a [[_ [K _]] [[_ [L _]] _]]. unfold token, after_equals. change (T "=" ++ at_value a ++ comma_of a) with ("="%char :: at_value a ++ comma_of a).
  rewrite find1_app by (intros I; destruct (K _ I) as [X _]; now apply X).
  replace (skipn (Datatypes.S (List.length (at_key a))) (at_key a ++ "="%char :: at_value a ++ comma_of a)) with (at_value a ++ comma_of a).
  2: { rewrite skipn_app. rewrite skipn_all2 by lia. replace (Datatypes.S (List.length (at_key a)) - List.length (at_key a))%nat with 1%nat by lia. reflexivity. }
  unfold comma_of. destruct (rstrip_value (at_value a) L) as [A B]. destruct (at_comma a); [assumption|]. now rewrite app_nil_r.
Qed.
Lemma app_split : forall (a b c d : text), a ++ b = c ++ d -> (exists r, a = c ++ r) \/ (exists r x, c = a ++ x :: r /\ exists y, b = x :: r ++ y).
Proof.
  induction a as [|x a IH]; intros b c d E.
  - destruct c as [|y c]; [left; exists []; reflexivity|]. right. cbn in *. subst b. exists c, y. split; [reflexivity|]. exists d. reflexivity.
  - destruct c as [|y c]; [left; eexists; reflexivity|]. cbn in E. injection E as -> E. destruct (IH b c d E) as [[r ->]|[r [z [-> [w ->]]]]]; [left|right]; cbn; eauto.
Qed.
Lemma token_prefix : forall keys k a, In k keys -> meaningful k -> attr_ok keys a -> prefixb k (token a) = teqb (at_key a) k.
Proof.
  intros keys k a I [NE _] [[N [K U]] _]. destruct (teqb (at_key a) k) eqn:E.
  - apply teqb_eq in E. unfold token. rewrite E. apply prefixb_app.
  - destruct (prefixb k (token a)) eqn:P; [|reflexivity]. exfalso. apply prefixb_true in P. destruct P as [r P]. unfold token in P.
    destruct (app_split _ _ _ _ P) as [[r' X]|[r' [x [X [y Y]]]]].
    + pose proof (U k r' I X) as Z. rewrite Z in E. rewrite teqb_refl in E. discriminate.
    + change (T "=" ++ at_value a ++ comma_of a) with ("="%char :: at_value a ++ comma_of a) in Y. injection Y as Y _. subst x. apply NE. rewrite X. apply in_or_app. right. now left.
Qed.
Lemma fold_tokens : forall keys k l v0, In k keys -> meaningful k -> Forall (attr_ok keys) l -> NoDup (map at_key l) ->
  fold_left (fun v e => if prefixb k e then FStr (rstrip_commas (after_equals e)) else v) (map token l) v0 =
  match option_map at_value (List.find (fun a => teqb (at_key a) k) l) with Some v => FStr v | None => v0 end.
Proof.
  intros keys k l v0 I M. revert v0. induction l as [|a l IH]; intros v0 F ND; [reflexivity|]. inversion F as [|? ? A F']; subst. inversion ND as [|? ? NI ND']; subst.
  cbn [map fold_left List.find]. rewrite (token_prefix keys) by assumption. rewrite IH by assumption. destruct (teqb (at_key a) k) eqn:E; [|reflexivity].
  apply teqb_eq in E. assert (X : List.find (fun a => teqb (at_key a) k) l = None).
  { destruct (List.find (fun a => teqb (at_key a) k) l) as [b|] eqn:X; [|reflexivity]. apply find_some in X. destruct X as [X Y]. apply teqb_eq in Y. exfalso. apply NI.
    rewrite E, <- Y. now apply in_map. }
  rewrite X. cbn [option_map]. now rewrite (token_value keys) by assumption.
Qed.
Lemma prefix_amp : forall k w, meaningful k -> prefixb k ("&"%char :: w) = false.
Proof. intros k w [_ [c [r [-> N]]]]. cbn [prefixb]. destruct (Ascii.eqb_spec c "&"%char); [contradiction|reflexivity]. Qed.
Lemma parse_command : forall keys defaults w c, map fst defaults = keys -> Forall meaningful keys -> command_ok keys c ->
  parse_fields defaults (("&"%char :: w) :: map token (c_attrs c) ++ [T "&end"]) = fields_of defaults c.
Proof.
  intros keys defaults w c E M [_ [A [ND _]]]. unfold parse_fields, fields_of. apply map_ext_in. intros [k v] I. cbn [fst snd]. f_equal.
  assert (KI : In k keys) by (subst keys; now apply (in_map fst) in I).
  assert (MK : meaningful k) by (rewrite Forall_forall in M; now apply M).
  cbn [fold_left]. rewrite prefix_amp by assumption. rewrite fold_left_app. rewrite (fold_tokens keys) by assumption.
  cbn [fold_left]. change (T "&end") with ("&"%char :: T "end"). rewrite prefix_amp by assumption. reflexivity.
Qed.
Ltac meaningful := repeat constructor; try (cbn; intuition discriminate); (eexists _, _; split; [reflexivity|discriminate]).
Lemma meaningful_parameter : Forall meaningful parameter_attributes. Proof. meaningful. Qed.
Lemma meaningful_column : Forall meaningful column_attributes. Proof. meaningful. Qed.
Lemma meaningful_data : Forall meaningful data_attributes. Proof. meaningful. Qed.
Lemma field_of : forall defaults c k, field (fields_of defaults c) k =
  match List.find (fun kv => teqb (fst kv) k) defaults with Some kv => match attribute_of c k with Some v => FStr v | None => snd kv end | None => FNone end.
Proof.
  intros defaults c k. unfold field, fields_of. induction defaults as [|[j v] defaults IH]; [reflexivity|]. cbn [map List.find fst snd].
  destruct (teqb j k) eqn:E; [|assumption]. apply teqb_eq in E. subst j. reflexivity.
Qed.

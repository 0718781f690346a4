(** Lemmas for the SDDS claims: what the writer writes. *)
From Coq Require Import List Bool Arith Ascii String ZArith Reals Lia.
From Verif Require Import PyBase PyText Lte_Spec Sdds_Model Sdds_Spec Sdds_Proofs Sdds_Proofs2 Sdds_Proofs3 Sdds_Proofs4 Sdds_Proofs5 Sdds_Proofs6.
Import ListNotations.
Open Scope Z_scope.

(* ------------------------------------------------------------------ *)
(** Integers in decimal *)
Lemma digits_value_app : forall a acc b, digits_value acc (a ++ b) = digits_value (digits_value acc a) b.
Proof. induction a as [|c a IH]; intros acc b; [reflexivity|]. cbn [app digits_value]. apply IH. Qed.
Lemma digit_facts : forall d, 0 <= d < 10 -> is_digit (digit d) = true /\ digit_value (digit d) = d /\ (nat_of_ascii (digit d) < 128)%nat.
Proof.
  intros d H. unfold digit, is_digit, digit_value. rewrite nat_ascii_embedding by lia.
  split; [|split; [|lia]]. 2: lia. apply andb_true_iff. split; apply Nat.leb_le; lia.
Qed.
Lemma dec_digits_spec : forall fuel z acc, 0 <= z < 2 ^ Z.of_nat fuel -> (0 < fuel)%nat ->
  exists w, dec_digits fuel z acc = w ++ acc /\ w <> [] /\ forallb is_digit w = true /\ digits_value 0 w = z.
Proof.
  induction fuel as [|fuel IH]; intros z acc H F; [lia|]. cbn [dec_digits]. destruct (Z.ltb_spec z 10) as [L|L].
  - destruct (digit_facts z) as [A [B _]]; [lia|]. exists [digit z]. cbn [app forallb digits_value]. rewrite A, B. repeat split; discriminate.
  - assert (D : z / 10 * 10 <= z) by (pose proof (Z.mul_div_le z 10 ltac:(lia)); lia).
    assert (P : 0 <= z / 10) by (apply Z.div_pos; lia).
    assert (M := Z.mod_pos_bound z 10 ltac:(lia)). assert (DM := Z.div_mod z 10 ltac:(lia)).
    rewrite Nat2Z.inj_succ, Z.pow_succ_r in H by lia.
    assert (FF : (0 < fuel)%nat) by (destruct fuel; [cbn in H; lia|lia]).
    destruct (IH (z / 10) (digit (z mod 10) :: acc)) as [w [E [N [W V]]]]; [lia|assumption|].
    destruct (digit_facts (z mod 10) M) as [A [B _]].
    exists (w ++ [digit (z mod 10)]). rewrite E, <- app_assoc. split; [reflexivity|]. split; [now destruct w|]. split.
    + rewrite forallb_app, W. cbn [forallb]. now rewrite A.
    + rewrite digits_value_app, V. cbn [digits_value]. rewrite B. lia.
Qed.
Lemma dec_nonneg_spec : forall z, 0 <= z -> dec_nonneg z <> [] /\ forallb is_digit (dec_nonneg z) = true /\ digits_value 0 (dec_nonneg z) = z.
Proof.
  intros z H. unfold dec_nonneg. pose proof (Z.log2_nonneg z) as L.
  destruct (dec_digits_spec (Z.to_nat (Z.log2 z + 1)) z []) as [w [E R]].
  - split; [lia|]. rewrite Z2Nat.id by lia. destruct (Z.eq_dec z 0) as [->|N]; [cbn; lia|]. apply Z.log2_spec. lia.
  - lia.
  - rewrite app_nil_r in E. now rewrite E.
Qed.
Lemma digit_not_ws : forall c, is_digit c = true -> is_ws c = false.
Proof.
  intros c H. unfold is_digit, is_ws in *. apply andb_true_iff in H. destruct H as [A B]. apply Nat.leb_le in A. apply Nat.leb_le in B.
  apply orb_false_iff. split; apply andb_false_iff; right; apply Nat.leb_gt; lia.
Qed.
Lemma trim_no_ws : forall s, forallb (fun c => negb (is_ws c)) s = true -> trim s = s.
Proof.
  intros s H. unfold trim. assert (D : forall s, forallb (fun c => negb (is_ws c)) s = true -> drop_ws s = s).
  { intros [|c r] K; [reflexivity|]. cbn in K. apply andb_true_iff in K. destruct K as [K _]. apply negb_true_iff in K. now apply drop_ws_id. }
  rewrite (D s H). apply rdrop_tight. intros r c E. subst s. rewrite forallb_app in H. apply andb_true_iff in H. destruct H as [_ H]. cbn in H.
  apply andb_true_iff in H. destruct H as [H _]. now apply negb_true_iff in H.
Qed.
Definition dec_char (c : ascii) : Prop := is_digit c = true \/ c = "-"%char.
Lemma dec_chars : forall z c, In c (dec z) -> dec_char c.
Proof.
  intros z c I. unfold dec in I. destruct (z <? 0) eqn:S.
  - apply in_app_or in I. destruct I as [[<-|[]]|I]; [now right|]. left. apply Z.ltb_lt in S. destruct (dec_nonneg_spec (- z)) as [_ [F _]]; [lia|].
    rewrite forallb_forall in F. now apply F.
  - left. apply Z.ltb_ge in S. destruct (dec_nonneg_spec z S) as [_ [F _]]. rewrite forallb_forall in F. now apply F.
Qed.
Lemma dec_char_ws : forall c, dec_char c -> is_ws c = false.
Proof. intros c [H| ->]; [now apply digit_not_ws|reflexivity]. Qed.
Lemma dec_nonempty : forall z, dec z <> [].
Proof. intros z. unfold dec. destruct (z <? 0) eqn:S; [discriminate|]. apply Z.ltb_ge in S. now apply dec_nonneg_spec. Qed.
Lemma py_int_dec : forall z, py_int (dec z) = Some z.
Proof.
  intros z. unfold py_int. rewrite trim_no_ws.
  2: { apply forallb_forall. intros c I. apply negb_true_iff. apply dec_char_ws. eapply dec_chars; eassumption. }
  unfold dec. destruct (z <? 0) eqn:S.
  - apply Z.ltb_lt in S. destruct (dec_nonneg_spec (- z)) as [N [F V]]; [lia|]. change (T "-" ++ dec_nonneg (- z)) with ("-"%char :: dec_nonneg (- z)).
    unfold sign_of. rewrite Ascii.eqb_refl. unfold int_of. rewrite F, V. destruct (dec_nonneg (- z)); [contradiction|]. cbn [option_map]. f_equal. lia.
  - apply Z.ltb_ge in S. destruct (dec_nonneg_spec z S) as [N [F V]]. destruct (dec_nonneg z) as [|c r] eqn:E; [contradiction|].
    unfold sign_of. assert (D : is_digit c = true) by (cbn in F; now apply andb_true_iff in F).
    destruct (Ascii.eqb_spec c "-"%char) as [->|_]; [discriminate|]. destruct (Ascii.eqb_spec c "+"%char) as [->|_]; [discriminate|].
    unfold int_of. rewrite F, V. cbn [option_map]. f_equal. lia.
Qed.

(* ------------------------------------------------------------------ *)
(** Encoding *)
Lemma encode_app : forall a b, encode (a ++ b) = encode a ++ encode b.
Proof. intros. unfold encode. apply flat_map_app. Qed.
Lemma encode_ascii : forall s, ascii_only s -> encode s = s.
Proof.
  induction s as [|c s IH]; intros H; [reflexivity|]. unfold encode in *. cbn [flat_map]. rewrite IH by (intros d I; apply H; now right).
  unfold encode_char. destruct (Nat.ltb_spec (nat_of_ascii c) 128) as [_|L]; [reflexivity|]. specialize (H c (or_introl eq_refl)). lia.
Qed.
Definition asciib (s : text) : bool := forallb (fun c => (nat_of_ascii c <? 128)%nat) s.
Lemma asciib_only : forall s, asciib s = true <-> ascii_only s.
Proof. intros s. unfold asciib. rewrite forallb_forall. split; intros H c I; specialize (H c I); now apply Nat.ltb_lt. Qed.
Lemma asciib_app : forall a b, asciib (a ++ b) = asciib a && asciib b.
Proof. intros. apply forallb_app. Qed.

(* ------------------------------------------------------------------ *)
(** The header the writer writes *)
Definition opt (key v : text) (q : bool) : list attr :=
  match v with [] => [] | _ => [{| at_key := key; at_value := v; at_quoted := q; at_comma := true; at_gap := T " " |}] end.
Definition fixed_attr (x : fixed) : list attr :=
  match x with
  | NoFix => []
  | FixInt z => opt (T "fixed_value") (dec z) false
  | FixFloat s => opt (T "fixed_value") s false
  | FixStr t => opt (T "fixed_value") t true
  end.
Definition param_command (p : wparam) : command :=
  {| c_gap := T " "; c_end := [];
     c_attrs := opt (T "name") (p_name p) false ++ opt (T "type") (p_type p) false ++ opt (T "units") (p_units p) true ++
                opt (T "symbol") (p_symbol p) true ++ opt (T "format_string") (p_format p) true ++ opt (T "description") (p_description p) true ++
                (if fixed_truthy (p_fixed p) then fixed_attr (p_fixed p) else []) |}.
Definition col_command (c : wcol) : command :=
  {| c_gap := T " "; c_end := T " ";
     c_attrs := opt (T "name") (w_name c) false ++ opt (T "type") (w_type c) false ++ opt (T "units") (w_units c) true ++
                opt (T "symbol") (w_symbol c) true ++ opt (T "format_string") (w_format c) true ++ opt (T "description") (w_description c) true |}.
Definition mode_command (ascii : bool) : command :=
  {| c_gap := T " "; c_end := []; c_attrs := opt (T "mode") (if ascii then T "ascii" else T "binary") false |}.
Definition written_header (w : writer) (ascii : bool) : header :=
  {| h_before := []; h_first := T "SDDS1";
     h_lines := Ignored (T "!# little-endian") :: map (fun p => Param (param_command p)) (w_params w) ++ map (fun c => Col (col_command c)) (w_cols w);
     h_data := mode_command ascii |}.

Lemma opt_attribute : forall k v, List.concat (map attr_text (opt k v false)) = attribute (k ++ T "=") v.
Proof. intros k [|c v]; [reflexivity|]. unfold opt, attribute, attr_text. cbn [map List.concat at_key at_value at_quoted at_comma at_gap]. rewrite app_nil_r, <- !app_assoc. reflexivity. Qed.
Lemma escaped_plain : forall v, (forall c, In c v -> c <> quote_char /\ c <> escape_char /\ c <> newline) -> escaped v = v.
Proof.
  induction v as [|c v IH]; intros H; [reflexivity|]. destruct (H c (or_introl eq_refl)) as [A [B _]]. cbn [escaped].
  destruct (Ascii.eqb_spec c quote_char) as [->|_]; [contradiction|]. destruct (Ascii.eqb_spec c escape_char) as [->|_]; [contradiction|].
  cbn. now rewrite IH by (intros d I; apply H; now right).
Qed.
Lemma opt_quoted : forall k v, plain_value true v -> List.concat (map attr_text (opt k v true)) = quoted (k ++ T "=") v.
Proof. intros k [|c v] [P _]; [reflexivity|]. apply escaped_plain in P. unfold opt, quoted, attr_text. cbn [map List.concat at_key at_value at_quoted at_comma at_gap]. rewrite P. rewrite app_nil_r, <- !app_assoc. reflexivity. Qed.
Lemma fixed_attr_text : forall ty x, fixed_ok ty x -> fixed_truthy x = true -> List.concat (map attr_text (fixed_attr x)) = attribute (T "fixed_value=") (fixed_text x).
Proof.
  intros ty [|z|s|t] OK H; cbn [fixed_attr fixed_text].
  - discriminate.
  - rewrite opt_attribute. reflexivity.
  - rewrite opt_attribute. reflexivity.
  - rewrite opt_quoted by apply OK. destruct t as [|c t]; [discriminate|]. unfold quoted, attribute. cbn [app]. rewrite <- !app_assoc. reflexivity.
Qed.
Lemma concat_attrs : forall a b, List.concat (map attr_text (a ++ b)) = List.concat (map attr_text a) ++ List.concat (map attr_text b).
Proof. intros. now rewrite map_app, concat_app. Qed.
Lemma parameter_line_raw : forall p, param_plain p -> parameter_line p = encode (command_text (T "&parameter") (param_command p)).
Proof.
  intros p OK. unfold parameter_line, command_text, param_command. cbn [c_gap c_attrs c_end]. f_equal.
  rewrite !concat_attrs, !opt_attribute. rewrite !opt_quoted by apply OK. rewrite <- !app_assoc. cbn [app].
  destruct (fixed_truthy (p_fixed p)) eqn:F; [|reflexivity]. destruct OK as [_ [_ [E|E]]]; [rewrite E in F; discriminate|].
  now rewrite (fixed_attr_text _ _ E) by assumption.
Qed.
Lemma column_line_raw : forall c, col_meta c -> w_length c = 0 -> column_line c = encode (command_text (T "&column") (col_command c)).
Proof.
  intros c OK L. unfold column_line, command_text, col_command. cbn [c_gap c_attrs c_end]. f_equal. rewrite L. cbn [Z.eqb].
  rewrite !concat_attrs, !opt_attribute. rewrite !opt_quoted by apply OK. rewrite <- !app_assoc. reflexivity.
Qed.
Lemma data_line_raw : forall a, data_line a = command_text (T "&data") (mode_command a).
Proof. intros [|]; reflexivity. Qed.

Lemma ascii_attribute : forall k v, asciib k = true -> ascii_only v -> asciib (attribute k v) = true.
Proof. intros k [|c v] K V; [reflexivity|]. unfold attribute. rewrite !asciib_app, K. apply asciib_only in V. rewrite V. reflexivity. Qed.
Lemma ascii_quoted : forall k v, asciib k = true -> ascii_only v -> asciib (quoted k v) = true.
Proof. intros k [|c v] K V; [reflexivity|]. unfold quoted. rewrite !asciib_app, K. apply asciib_only in V. rewrite V. reflexivity. Qed.
Lemma ascii_dec : forall z, ascii_only (dec z).
Proof.
  intros z c I. destruct (dec_chars z c I) as [D| ->]; [|cbn; lia]. unfold is_digit in D. apply andb_true_iff in D. destruct D as [_ D]. apply Nat.leb_le in D. lia.
Qed.
Lemma ascii_fixed : forall ty x, fixed_ok ty x -> ascii_only (fixed_text x).
Proof.
  intros ty [|z|s|t] H; cbn [fixed_ok fixed_text] in *; [contradiction| | |].
  - apply ascii_dec.
  - apply H.
  - destruct H as [_ [_ [A _]]]. apply asciib_only. rewrite !asciib_app. apply asciib_only in A. rewrite A. reflexivity.
Qed.
Lemma ascii_type : forall t, good_type t -> ascii_only t.
Proof. intros t [k ->]. apply asciib_only. now destruct k. Qed.
Lemma param_type : forall p, param_ok p -> good_type (p_type p).
Proof.
  intros p [_ H]. destruct (p_data p) as [v|].
  - destruct H as [H _]. destruct v; cbn in H; [exists Double|exists Long|contradiction]; apply H.
  - destruct (p_fixed p); cbn in H; [contradiction| | |].
    + destruct H as [[H|H] _]; [now exists Short|now exists Long].
    + exists Double. apply H.
    + exists Str. apply H.
Qed.
Lemma fixed_truthy_ok : forall ty x, fixed_ok ty x -> fixed_truthy x = true.
Proof.
  intros ty [|z|s|t] H; cbn in *; [contradiction| | |].
  - apply negb_true_iff, Z.eqb_neq. apply H.
  - destruct H as [_ [_ [v [E N]]]]. rewrite E. destruct (Req_EM_T v 0); [contradiction|reflexivity].
  - destruct H as [_ [N _]]. destruct t; [contradiction|reflexivity].
Qed.
Lemma param_ok_plain : forall p, param_ok p -> param_plain p.
Proof.
  intros p OK. split; [apply OK|]. split; [now apply param_type|]. destruct OK as [_ H]. destruct (p_data p); [left; apply H|now right].
Qed.
Lemma params_ok_plain : forall ps, Forall param_ok ps -> Forall param_plain ps.
Proof. intros ps F. eapply Forall_impl; [|exact F]. apply param_ok_plain. Qed.
Lemma parameter_line_text : forall p, param_plain p -> parameter_line p = command_text (T "&parameter") (param_command p).
Proof.
  intros p OK. rewrite parameter_line_raw by assumption. apply encode_ascii, asciib_only.
  assert (Q : forall k, List.concat (map attr_text (opt k (p_units p) true)) = quoted (k ++ T "=") (p_units p) /\
    List.concat (map attr_text (opt k (p_symbol p) true)) = quoted (k ++ T "=") (p_symbol p) /\
    List.concat (map attr_text (opt k (p_format p) true)) = quoted (k ++ T "=") (p_format p) /\
    List.concat (map attr_text (opt k (p_description p) true)) = quoted (k ++ T "=") (p_description p)).
  { intros k. repeat split; apply opt_quoted; apply OK. }
  destruct OK as [[[N1 [N2 _]] [[U _] [[S _] [[F _] [D _]]]]] [GT H]]. pose proof (ascii_type _ GT) as AT.
  unfold command_text, param_command. cbn [c_gap c_attrs c_end].
  rewrite !concat_attrs, !opt_attribute. destruct (Q (T "units")) as [-> _]. destruct (Q (T "symbol")) as [_ [-> _]].
  destruct (Q (T "format_string")) as [_ [_ [-> _]]]. destruct (Q (T "description")) as [_ [_ [_ ->]]]. rewrite !asciib_app.
  rewrite !ascii_attribute, !ascii_quoted by (assumption || reflexivity).
  destruct (fixed_truthy (p_fixed p)) eqn:FT; [|reflexivity].
  destruct H as [H|H]; [rewrite H in FT; discriminate|]. rewrite (fixed_attr_text _ _ H) by assumption. rewrite ascii_attribute; [reflexivity|reflexivity|].
  eapply ascii_fixed; eassumption.
Qed.
Lemma column_line_text : forall c, col_meta c -> good_type (w_type c) -> column_line c = command_text (T "&column") (col_command c).
Proof.
  intros c OK GT. rewrite column_line_raw by (assumption || apply OK). apply encode_ascii, asciib_only.
  pose proof (ascii_type _ GT) as AT. unfold command_text, col_command. cbn [c_gap c_attrs c_end]. rewrite !concat_attrs, !opt_attribute. rewrite !opt_quoted by apply OK. rewrite !asciib_app.
  destruct OK as [[N1 [N2 _]] [[U _] [[S _] [[F _] [[D _] L]]]]].
  rewrite !ascii_attribute, !ascii_quoted by (assumption || reflexivity). reflexivity.
Qed.
Lemma header_pieces_text : forall w a, Forall param_plain (w_params w) -> Forall (fun c => col_meta c /\ good_type (w_type c)) (w_cols w) ->
  List.concat (header_pieces w a) = header_text (written_header w a).
Proof.
  intros w a P C. unfold header_pieces, header_text, written_header. cbn [h_before h_first h_lines h_data map List.concat app].
  rewrite !concat_app. cbn [List.concat app]. rewrite app_nil_r. rewrite data_line_raw. rewrite map_app, concat_app, !map_map.
  assert (EP : map parameter_line (w_params w) = map (fun p => hline_text (Param (param_command p))) (w_params w)).
  { apply map_ext_in. intros p I. rewrite Forall_forall in P. now apply parameter_line_text, P. }
  assert (EC : map column_line (w_cols w) = map (fun c => hline_text (Col (col_command c))) (w_cols w)).
  { apply map_ext_in. intros c I. rewrite Forall_forall in C. destruct (C c I). now apply column_line_text. }
  rewrite EP, EC. cbn [hline_text]. rewrite <- !app_assoc. reflexivity.
Qed.

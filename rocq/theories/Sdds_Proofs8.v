(** Lemmas for the SDDS claims: the file the writer writes is regular, and is read back. *)
From Coq Require Import List Bool Arith Ascii String ZArith Reals Lia.
From Verif Require Import PyBase PyText Lte_Spec Sdds_Model Sdds_Spec Sdds_Proofs Sdds_Proofs2 Sdds_Proofs3 Sdds_Proofs4 Sdds_Proofs5 Sdds_Proofs6 Sdds_Proofs7.
Import ListNotations.
Open Scope Z_scope.

(* ------------------------------------------------------------------ *)
(** The attributes the writer writes are regular *)
Lemma prefix_true : forall m r k, k = m ++ r -> prefixb m k = true.
Proof. intros m r k ->. apply prefixb_app. Qed.
Ltac key_known := split; [discriminate|split;
  [intros c I; cbn in I; repeat (destruct I as [<-|I]; [unfold blank_char; repeat split; try discriminate; intros [X|X]; discriminate|]); contradiction
  |intros m r I E; apply prefix_true in E; cbn in I; repeat (destruct I as [<-|I]; [solve [reflexivity|discriminate E]|]); contradiction]].
Lemma key_name : key_ok parameter_attributes (T "name") /\ key_ok column_attributes (T "name"). Proof. split; key_known. Qed.
Lemma key_type : key_ok parameter_attributes (T "type") /\ key_ok column_attributes (T "type"). Proof. split; key_known. Qed.
Lemma key_units : key_ok parameter_attributes (T "units") /\ key_ok column_attributes (T "units"). Proof. split; key_known. Qed.
Lemma key_symbol : key_ok parameter_attributes (T "symbol") /\ key_ok column_attributes (T "symbol"). Proof. split; key_known. Qed.
Lemma key_format : key_ok parameter_attributes (T "format_string") /\ key_ok column_attributes (T "format_string"). Proof. split; key_known. Qed.
Lemma key_description : key_ok parameter_attributes (T "description") /\ key_ok column_attributes (T "description"). Proof. split; key_known. Qed.
Lemma key_fixed : key_ok parameter_attributes (T "fixed_value"). Proof. key_known. Qed.
Lemma key_mode : key_ok data_attributes (T "mode"). Proof. key_known. Qed.

Lemma plain_carried : forall q v, plain_value q v -> carried q v.
Proof.
  intros q v [A [B C]]. split; [intros I; destruct (A _ I) as [_ [_ X]]; now apply X|]. split; [exact B|].
  intros E c I. destruct (A c I) as [X [Y _]]. destruct (C E c I). auto.
Qed.
Lemma opt_ok : forall keys k v q, key_ok keys k -> plain_value q v -> Forall (attr_ok keys) (opt k v q).
Proof.
  intros keys k [|c v] q K V; [constructor|]. constructor; [|constructor]. split; [assumption|split; [now apply plain_carried|]].
  split; [discriminate|]. intros d [<-|[]]. now left.
Qed.
Lemma plain_word : forall k, plain_value false (kind_word k).
Proof.
  intros k. split; [|split].
  - intros c I. destruct k; cbn in I; repeat (destruct I as [<-|I]; [repeat split; discriminate|]); contradiction.
  - destruct k; discriminate.
  - intros _ c I. destruct k; cbn in I; repeat (destruct I as [<-|I]; [split; [intros [X|X]; discriminate|discriminate]|]); contradiction.
Qed.
Lemma plain_type : forall t, good_type t -> plain_value false t.
Proof. intros t [k ->]. apply plain_word. Qed.
Lemma digit_range : forall c, dec_char c -> (45 <= nat_of_ascii c <= 57)%nat.
Proof. intros c [H| ->]; [|cbn; lia]. unfold is_digit in H. apply andb_true_iff in H. destruct H as [A B]. apply Nat.leb_le in A. apply Nat.leb_le in B. lia. Qed.
Lemma char_neq : forall c d, nat_of_ascii c <> nat_of_ascii d -> c <> d.
Proof. intros c d H ->. now apply H. Qed.
Lemma plain_dec : forall z, plain_value false (dec z).
Proof.
  intros z. assert (R : forall c, In c (dec z) -> (45 <= nat_of_ascii c <= 57)%nat) by (intros c I; apply digit_range; eapply dec_chars; eassumption).
  split; [|split].
  - intros c I. specialize (R c I). repeat split; apply char_neq; cbn; lia.
  - destruct (exists_last (dec_nonempty z)) as [r [c E]]. rewrite E, last_last. apply char_neq. specialize (R c). rewrite E in R. specialize (R ltac:(apply in_or_app; right; now left)). cbn. lia.
  - intros _ c I. specialize (R c I). split; [intros [X|X]; revert X|]; apply char_neq; cbn; lia.
Qed.
Lemma fixed_attr_ok : forall ty x, fixed_ok ty x -> Forall (attr_ok parameter_attributes) (fixed_attr x).
Proof.
  intros ty [|z|s|t] H; cbn [fixed_ok fixed_attr] in *; [contradiction| | |]; apply opt_ok; try apply key_fixed.
  - apply plain_dec.
  - apply H.
  - apply H.
Qed.

Lemma opt_keys : forall k v q rest j, In j (map at_key (opt k v q ++ rest)) -> j = k \/ In j (map at_key rest).
Proof. intros k [|c v] q rest j I; [now right|]. destruct I as [<-|I]; [now left|now right]. Qed.
Lemma opt_nodup : forall k v q rest, ~ In k (map at_key rest) -> NoDup (map at_key rest) -> NoDup (map at_key (opt k v q ++ rest)).
Proof. intros k [|c v] q rest N D; [assumption|]. cbn. now constructor. Qed.
Lemma fixed_keys : forall (b : bool) x j, In j (map at_key (if b then fixed_attr x else [])) -> j = T "fixed_value".
Proof.
  intros [|] x j I; [|contradiction]. destruct x; cbn [fixed_attr] in I; [contradiction| | |];
    (rewrite <- (app_nil_r (opt _ _ _)) in I; apply opt_keys in I; destruct I as [I|[]]; exact I).
Qed.
Lemma fixed_nodup : forall (b : bool) x, NoDup (map at_key (if b then fixed_attr x else [])).
Proof.
  intros [|] x; [|constructor]. destruct x; cbn [fixed_attr]; [constructor| | |]; rewrite <- (app_nil_r (opt _ _ _)); apply opt_nodup; try constructor; intros [].
Qed.
Ltac not_key := let I := fresh in intros I; repeat (apply opt_keys in I; destruct I as [I|I]; [discriminate|]);
  solve [apply fixed_keys in I; discriminate|destruct I].
Lemma param_command_ok : forall p, param_plain p -> command_ok parameter_attributes (param_command p).
Proof.
  intros p OK. destruct OK as [[[N1 [N2 N3]] [[U1 U] [[S1 S] [[F1 F] [D1 D]]]]] [GT H]]. pose proof (plain_type _ GT) as PT.
  split; [|split; [|split]].
  - split; [discriminate|]. intros d [<-|[]]. now left.
  - cbn [param_command c_attrs]. rewrite !Forall_app. repeat (split; [apply opt_ok; [first [apply key_name|apply key_type|apply key_units|apply key_symbol|apply key_format|apply key_description]|assumption]|]).
    destruct (fixed_truthy (p_fixed p)) eqn:FT; [|constructor]. destruct H as [H|H]; [rewrite H in FT; discriminate|].
    eapply fixed_attr_ok; eassumption.
  - cbn [param_command c_attrs]. repeat (apply opt_nodup; [not_key|]). apply fixed_nodup.
  - intros d [].
Qed.
Lemma col_command_ok : forall c, col_meta c -> good_type (w_type c) -> command_ok column_attributes (col_command c).
Proof.
  intros c [[N1 [N2 N3]] [[U1 U] [[S1 S] [[F1 F] [[D1 D] L]]]]] GT. pose proof (plain_type _ GT) as PT.
  split; [|split; [|split]].
  - split; [discriminate|]. intros d [<-|[]]. now left.
  - cbn [col_command c_attrs]. rewrite !Forall_app. repeat split; (apply opt_ok; [first [apply key_name|apply key_type|apply key_units|apply key_symbol|apply key_format|apply key_description]|assumption]).
  - cbn [col_command c_attrs]. rewrite <- (app_nil_r (opt (T "description") _ _)). repeat (apply opt_nodup; [not_key|]). constructor.
  - intros d [<-|[]]. now left.
Qed.
Lemma written_ok : forall w a, Forall param_plain (w_params w) -> Forall (fun c => col_meta c /\ good_type (w_type c)) (w_cols w) -> header_ok (written_header w a).
Proof.
  intros w a P C. unfold header_ok, written_header. cbn [h_before h_first h_lines h_data]. split; [constructor|]. split; [|split; [|split]].
  - split; [intros I; cbn in I; repeat (destruct I as [I|I]; [discriminate|]); contradiction|]. split; [now exists [], []|]. intros r E. discriminate.
  - constructor; [|apply Forall_app; split].
    + split; [intros I; cbn in I; repeat (destruct I as [I|I]; [discriminate|]); contradiction|]. right. now exists (T "# little-endian").
    + rewrite Forall_map. eapply Forall_impl; [|exact P]. intros p. apply param_command_ok.
    + rewrite Forall_map. eapply Forall_impl; [|exact C]. intros c [X Y]. now apply col_command_ok.
  - split; [|split; [|split]].
    + split; [discriminate|]. intros d [<-|[]]. now left.
    + apply opt_ok; [apply key_mode|]. split; [|split].
      * intros c I. destruct a; cbn in I; repeat (destruct I as [<-|I]; [repeat split; discriminate|]); contradiction.
      * destruct a; discriminate.
      * intros _ c I. destruct a; cbn in I; repeat (destruct I as [<-|I]; [split; [intros [X|X]; discriminate|discriminate]|]); contradiction.
    + destruct a; repeat constructor; intros [].
    + intros d [].
  - intros b I J. destruct a; cbn in I; (destruct I as [<-|[]]); cbn in J; repeat (destruct J as [J|J]; [discriminate|]); contradiction.
Qed.

(* ------------------------------------------------------------------ *)
(** What the header says *)
Lemma attribute_opt : forall gap fin k v q rest j,
  attribute_of {| c_gap := gap; c_attrs := opt k v q ++ rest; c_end := fin |} j =
  if teqb k j then match v with [] => attribute_of {| c_gap := gap; c_attrs := rest; c_end := fin |} j | _ => Some v end
  else attribute_of {| c_gap := gap; c_attrs := rest; c_end := fin |} j.
Proof.
  intros gap fin k [|c v] q rest j; unfold attribute_of; cbn [opt app c_attrs List.find at_key]; [now destruct (teqb k j)|]. destruct (teqb k j); reflexivity.
Qed.
Lemma attribute_fixed : forall gap fin (b : bool) x j, j <> T "fixed_value" -> attribute_of {| c_gap := gap; c_attrs := if b then fixed_attr x else []; c_end := fin |} j = None.
Proof.
  intros gap fin b x j N. unfold attribute_of. cbn [c_attrs]. destruct (List.find (fun a => teqb (at_key a) j) (if b then fixed_attr x else [])) as [a|] eqn:E; [|reflexivity].
  apply find_some in E. destruct E as [I E]. apply teqb_eq in E. apply (in_map at_key) in I. apply fixed_keys in I. congruence.
Qed.
Definition or_none (v : text) : option text := match v with [] => None | _ => Some v end.
Definition param_attribute (p : wparam) (k : text) : text :=
  if teqb k (T "name") then p_name p else if teqb k (T "type") then p_type p else if teqb k (T "units") then p_units p
  else if teqb k (T "symbol") then p_symbol p else if teqb k (T "format_string") then p_format p else p_description p.
Definition col_attribute (c : wcol) (k : text) : text :=
  if teqb k (T "name") then w_name c else if teqb k (T "type") then w_type c else if teqb k (T "units") then w_units c
  else if teqb k (T "symbol") then w_symbol c else if teqb k (T "format_string") then w_format c else w_description c.
Ltac known_attribute := unfold param_command, col_command; rewrite ?attribute_opt;
  repeat match goal with |- context [teqb ?a ?b] => let e := eval vm_compute in (teqb a b) in change (teqb a b) with e end; cbv iota.
Lemma param_said : forall p k, In k text_fields -> attribute_of (param_command p) k = or_none (param_attribute p k).
Proof.
  intros p k I. unfold text_fields in I.
  repeat (destruct I as [<-|I]; [known_attribute; rewrite attribute_fixed by discriminate; unfold param_attribute, or_none;
    repeat match goal with |- context [teqb ?a ?b] => let e := eval vm_compute in (teqb a b) in change (teqb a b) with e end; cbv iota; reflexivity|]). contradiction.
Qed.
Lemma col_said : forall c k, In k text_fields -> attribute_of (col_command c) k = or_none (col_attribute c k).
Proof.
  intros c k I. unfold text_fields in I. unfold col_command. rewrite <- (app_nil_r (opt (T "description") _ _)).
  repeat (destruct I as [<-|I]; [known_attribute; unfold col_attribute, or_none;
    repeat match goal with |- context [teqb ?a ?b] => let e := eval vm_compute in (teqb a b) in change (teqb a b) with e end; cbv iota; reflexivity|]). contradiction.
Qed.
Lemma col_length_said : forall c, attribute_of (col_command c) (T "field_length") = None.
Proof. intros c. unfold col_command. rewrite <- (app_nil_r (opt (T "description") _ _)). known_attribute. reflexivity. Qed.
Lemma param_fixed_said : forall p, attribute_of (param_command p) (T "fixed_value") =
  if fixed_truthy (p_fixed p) then match p_fixed p with NoFix => None | FixInt z => Some (dec z) | FixFloat s => or_none s | FixStr t => or_none t end else None.
Proof.
  intros p. known_attribute. destruct (fixed_truthy (p_fixed p)); [|reflexivity]. destruct (p_fixed p) as [|z|s|t]; cbn [fixed_attr]; [reflexivity| | |];
    rewrite <- (app_nil_r (opt _ _ _)), attribute_opt; change (teqb (T "fixed_value") (T "fixed_value")) with true; cbv iota; [|destruct s; reflexivity|destruct t; reflexivity].
  destruct (dec z) eqn:E; [now apply dec_nonempty in E|reflexivity].
Qed.
Lemma params_of_written : forall w a, params_of (h_lines (written_header w a)) = map param_command (w_params w).
Proof.
  intros w a. cbn [written_header h_lines params_of]. induction (w_params w) as [|p ps IH]; cbn; [|now rewrite IH]. induction (w_cols w); [reflexivity|assumption].
Qed.
Lemma cols_of_written : forall w a, cols_of (h_lines (written_header w a)) = map col_command (w_cols w).
Proof.
  intros w a. cbn [written_header h_lines cols_of]. induction (w_params w) as [|p ps IH]; cbn; [|assumption]. induction (w_cols w) as [|c cs IH]; cbn; [reflexivity|now rewrite IH].
Qed.
Definition wkind (v : wvalue) : kind := match v with WDouble _ => Double | WInt _ => Long | WStr _ => Str end.
Definition wvalue_of (v : wvalue) : value := match v with WDouble b => VDouble b | WInt z => VInt z | WStr t => VStr t end.
Definition layout (ps : list wparam) : list (text * kind) := flat_map (fun p => match p_data p with Some v => [(p_name p, wkind v)] | None => [] end) ps.
Lemma given_layout : forall ps, map fst (layout ps) = map fst (given ps).
Proof. induction ps as [|p ps IH]; [reflexivity|]. unfold layout, given in *. cbn. destruct (p_data p) as [[b|z|t]|]; cbn; now rewrite IH. Qed.
Lemma or_none_some : forall v, v <> [] -> or_none v = Some v.
Proof. intros [|c v] H; [contradiction|reflexivity]. Qed.
Lemma fixed_readable_written : forall p, param_plain p -> fixed_readable (param_command p) /\ in_data (param_command p) = match p_fixed p with NoFix => true | _ => false end.
Proof.
  intros p [M [GT H]]. unfold fixed_readable, in_data. rewrite param_fixed_said. destruct H as [H|H].
  - rewrite H. cbn. split; [discriminate|reflexivity].
  - rewrite (fixed_truthy_ok _ _ H). rewrite param_said by (cbn; tauto). change (param_attribute p (T "type")) with (p_type p).
    destruct (p_fixed p) as [|z|s|t]; cbn [fixed_ok] in H; [contradiction| | |].
    + split; [|reflexivity]. intros v E _. injection E as <-. split; [intros _; exists z; apply py_int_dec|].
      destruct H as [[-> | ->] _]; discriminate.
    + destruct H as [-> [[N _] [v [E _]]]]. rewrite or_none_some by assumption. split; [|reflexivity]. intros v' E' _. injection E' as <-.
      split; [intros [X|X]; discriminate|]. eauto.
    + destruct H as [-> [N _]]. rewrite or_none_some by assumption. split; [|reflexivity]. intros v' E' _. split; [intros [X|X]; discriminate|discriminate].
Qed.
Lemma in_data_written : forall p, param_ok p -> in_data (param_command p) = match p_data p with Some _ => true | None => false end.
Proof.
  intros p OK. destruct (fixed_readable_written p (param_ok_plain p OK)) as [_ ->]. destruct OK as [_ H]. destruct (p_data p); [now destruct H as [_ ->]|].
  destruct (p_fixed p); [contradiction|reflexivity|reflexivity|reflexivity].
Qed.
Lemma value_kind : forall ty v, value_ok ty v -> ty = kind_word (wkind v).
Proof. intros ty [b|z|t] H; cbn in *; [apply H|apply H|contradiction]. Qed.
Lemma written_declares : forall w a k, Forall param_ok (w_params w) -> Forall (fun c => col_meta c /\ w_type c = kind_word k) (w_cols w) ->
  declares (written_header w a) (layout (w_params w)) (map (fun c => (w_name c, k)) (w_cols w)).
Proof.
  intros w a k P C. unfold declares. rewrite params_of_written, cols_of_written. split.
  - induction P as [|p ps H P IH]; [constructor|]. cbn [map filter layout flat_map]. rewrite (in_data_written p H).
    destruct (p_data p) as [v|] eqn:ED; [|assumption]. cbn [app]. constructor; [|assumption]. cbn [fst snd]. destruct H as [[[N _] _] H]. rewrite ED in H.
    split; rewrite param_said by (cbn; tauto); [now apply or_none_some|]. change (param_attribute p (T "type")) with (p_type p).
    destruct H as [H _]. rewrite (value_kind _ _ H). apply or_none_some. destruct (wkind v); discriminate.
  - induction C as [|c cs [M T] C IH]; [constructor|]. cbn [map]. constructor; [|assumption]. cbn [fst snd]. split; [|apply col_length_said].
    destruct M as [[N _] _]. split; rewrite col_said by (cbn; tauto); [now apply or_none_some|]. change (col_attribute c (PyText.T "type")) with (w_type c).
    rewrite T. apply or_none_some. destruct k; discriminate.
Qed.
Lemma written_fixed : forall w a, Forall param_plain (w_params w) -> Forall fixed_readable (params_of (h_lines (written_header w a))).
Proof. intros w a P. rewrite params_of_written, Forall_map. eapply Forall_impl; [|exact P]. intros p H. now apply fixed_readable_written. Qed.
Lemma written_binary : forall w, binary_header (written_header w false).
Proof. intros w. split; [discriminate|left; reflexivity]. Qed.

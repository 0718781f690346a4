(** Lemmas for the SDDS claims: descriptions, and headers that are not well formed. *)
From Coq Require Import List Bool Arith Ascii String ZArith Reals Lia.
From Verif Require Import PyBase PyText Lte_Spec Sdds_Model Sdds_Spec Sdds_Proofs Sdds_Proofs2 Sdds_Proofs3 Sdds_Proofs4 Sdds_Proofs5 Sdds_Proofs6 Sdds_Proofs7 Sdds_Proofs8 Sdds_Proofs9.
Import ListNotations.
Open Scope Z_scope.

(* ------------------------------------------------------------------ *)
(** Descriptions by name *)
Lemma find_unique : forall {A} (f : A -> text) l x, NoDup (map f l) -> In x l -> List.find (fun d => teqb (f d) (f x)) l = Some x.
Proof.
  induction l as [|y l IH]; intros x N I; [contradiction|]. cbn [map] in N. inversion N as [|? ? N1 N2]; subst. cbn [List.find]. destruct I as [->|I].
  - now rewrite teqb_refl.
  - rewrite teqb_neq; [now apply IH|]. intros E. apply N1. rewrite E. now apply in_map.
Qed.
Lemma NoDup_rev_map : forall {A} (f : A -> text) l, NoDup (map f l) -> NoDup (map f (rev l)).
Proof. intros A f l N. rewrite map_rev. now apply NoDup_rev. Qed.
Lemma described_rel : forall (R : command -> datum -> Prop) cmds ds c,
  (forall c d, R c d -> d_name d = attribute_or_empty c (T "name")) -> Forall2 R cmds ds ->
  NoDup (map (fun c => attribute_or_empty c (T "name")) cmds) -> In c cmds ->
  exists d, R c d /\ forall k, described ds (attribute_or_empty c (T "name")) k = Ok (field (d_fields d) k).
Proof.
  intros R cmds ds c NM F ND I.
  assert (EN : map d_name ds = map (fun c => attribute_or_empty c (T "name")) cmds).
  { clear - NM F. induction F as [|x d cmds ds H F IH]; [reflexivity|]. cbn [map]. rewrite IH. f_equal. now apply NM. }
  assert (X : exists d, R c d /\ In d ds).
  { clear - F I. induction F as [|x d cmds ds H F IH]; [contradiction|]. destruct I as [->|I]; [exists d; split; [assumption|now left]|]. destruct (IH I) as [e [A B]]. exists e. split; [assumption|now right]. }
  destruct X as [d [RD ID]]. exists d. split; [assumption|]. intros k. unfold described. rewrite <- (NM _ _ RD). rewrite (find_unique d_name (rev ds) d); [reflexivity| |now rewrite <- in_rev].
  apply NoDup_rev_map. now rewrite EN.
Qed.
Lemma param_rel_name : forall c d, param_rel c d -> d_name d = attribute_or_empty c (T "name").
Proof. intros c d H. unfold d_name. rewrite (pr_fields _ _ H) by (cbn; tauto). reflexivity. Qed.
Lemma col_rel_name : forall c d, col_rel c d -> d_name d = attribute_or_empty c (T "name").
Proof. intros c d H. unfold d_name. rewrite (cr_fields _ _ H) by (cbn; tauto). reflexivity. Qed.

Lemma param_empty : forall p k, In k text_fields -> attribute_or_empty (param_command p) k = param_attribute p k.
Proof. intros p k I. unfold attribute_or_empty. rewrite param_said by assumption. now destruct (param_attribute p k). Qed.
Lemma col_empty : forall c k, In k text_fields -> attribute_or_empty (col_command c) k = col_attribute c k.
Proof. intros c k I. unfold attribute_or_empty. rewrite col_said by assumption. now destruct (col_attribute c k). Qed.

Lemma fixed_reported : forall p d, param_plain p -> param_rel (param_command p) d -> field (d_fields d) (T "fixed_value") = fixed_value (p_fixed p).
Proof.
  intros p d PP R. pose proof PP as [_ [_ H]]. destruct H as [H|H].
  - destruct (fixed_readable_written p PP) as [_ ID]. rewrite H in *. apply (pr_data _ _ R) in ID. destruct ID as [_ ->]. reflexivity.
  - pose proof (pr_fixed _ _ R) as F. rewrite param_fixed_said, (fixed_truthy_ok _ _ H) in F. rewrite param_empty in F by (cbn; tauto). change (param_attribute p (T "type")) with (p_type p) in F.
    destruct (p_fixed p) as [|z|s|t]; cbn [fixed_ok fixed_value] in *; [contradiction| | |].
    + destruct (F _ eq_refl) as [_ E]. unfold parse_fixed_value in E. pose proof (dec_nonempty z) as NE. destruct (dec z) as [|c0 s0] eqn:DZ; [contradiction|]. rewrite <- DZ in E.
      assert (X : teqb (p_type p) (T "short") || teqb (p_type p) (T "long") = true) by (destruct H as [[-> | ->] _]; reflexivity).
      rewrite X, py_int_dec in E. congruence.
    + destruct H as [T [[N _] [v [E' _]]]]. rewrite or_none_some in F by assumption. destruct (F _ eq_refl) as [_ E]. rewrite T in E. unfold parse_fixed_value in E. destruct s as [|c0 s0]; [contradiction|].
      change (teqb (PyText.T "double") (PyText.T "short") || teqb (PyText.T "double") (PyText.T "long")) with false in E. change (teqb (PyText.T "double") (PyText.T "double")) with true in E. cbv iota in E. rewrite E' in *. congruence.
    + destruct H as [T [N _]]. rewrite or_none_some in F by assumption. destruct (F _ eq_refl) as [_ E]. rewrite T in E. unfold parse_fixed_value in E. destruct t as [|c0 s0]; [contradiction|].
      change (teqb (PyText.T "string") (PyText.T "short") || teqb (PyText.T "string") (PyText.T "long")) with false in E. change (teqb (PyText.T "string") (PyText.T "double")) with false in E. cbv iota in E. congruence.
Qed.
Lemma told_params : forall r w, describable w -> Forall2 param_rel (map param_command (w_params w)) (c_parameters (r_content r)) ->
  Forall2 col_rel (map col_command (w_cols w)) (c_columns (r_content r)) -> Forall (told_param r) (w_params w) /\ Forall (told_col r) (w_cols w).
Proof.
  intros r w [DP [DC [NP NC]]] FP FC. split; apply Forall_forall.
  - intros p I. destruct (described_rel param_rel _ _ (param_command p) param_rel_name FP) as [d [R D]].
    + rewrite map_map. erewrite map_ext; [exact NP|]. intros q. cbn beta. rewrite param_empty by (cbn; tauto). reflexivity.
    + now apply in_map.
    + rewrite param_empty in D by (cbn; tauto). change (param_attribute p (T "name")) with (p_name p) in D.
      assert (G : forall k, In k text_fields -> parameter_info r (p_name p) k = Ok (FStr (param_attribute p k))).
      { intros k K. unfold parameter_info. rewrite D, (pr_fields _ _ R) by assumption. now rewrite param_empty. }
      unfold told_param. rewrite !G by (cbn; tauto). repeat (split; [reflexivity|]). unfold parameter_info. rewrite D. f_equal. apply fixed_reported; [|assumption].
      rewrite Forall_forall in DP. now apply DP.
  - intros c I. destruct (described_rel col_rel _ _ (col_command c) col_rel_name FC) as [d [R D]].
    + rewrite map_map. erewrite map_ext; [exact NC|]. intros q. cbn beta. rewrite col_empty by (cbn; tauto). reflexivity.
    + now apply in_map.
    + rewrite col_empty in D by (cbn; tauto). change (col_attribute c (T "name")) with (w_name c) in D.
      assert (G : forall k, In k text_fields -> column_info r (w_name c) k = Ok (FStr (col_attribute c k))).
      { intros k K. unfold column_info. rewrite D, (cr_fields _ _ R) by assumption. now rewrite col_empty. }
      unfold told_col. rewrite !G by (cbn; tauto). repeat split; reflexivity.
Qed.

(** a file begun by the writer, whatever follows the header *)
Lemma kinds_exist : forall (cols : list wcol), Forall (fun c => col_meta c /\ good_type (w_type c)) cols ->
  exists cs, Forall2 (fun c nk => names_kind c (fst nk) (snd nk) /\ attribute_of c (T "field_length") = None) (map col_command cols) cs /\ (cols = [] <-> cs = []).
Proof.
  intros cols F. induction F as [|c cols [[N _] [k K]] F [cs [IH _]]]; [exists []; split; [constructor|tauto]|].
  exists ((w_name c, k) :: cs). split; [|split; discriminate]. cbn [map]. constructor; [|assumption]. cbn [fst snd]. split; [|apply col_length_said].
  destruct N as [N _]. split; rewrite col_said by (cbn; tauto); [now apply or_none_some|]. change (col_attribute c (T "type")) with (w_type c). rewrite K. apply or_none_some. destruct k; discriminate.
Qed.
Lemma layouts_exist : forall ps, Forall param_plain ps ->
  exists nks, Forall2 (fun c nk => names_kind c (fst nk) (snd nk)) (filter in_data (map param_command ps)) nks.
Proof.
  intros ps F. induction F as [|p ps [M [[k K] H]] F [nks IH]]; [exists []; constructor|]. cbn [map filter]. destruct (in_data (param_command p)); [|eauto].
  exists ((p_name p, k) :: nks). constructor; [|assumption]. destruct M as [[N _] _]. cbn [fst snd]. split; rewrite param_said by (cbn; tauto); [now apply or_none_some|].
  change (param_attribute p (T "type")) with (p_type p). rewrite K. apply or_none_some. destruct k; discriminate.
Qed.
Lemma open_written : forall w a data buffer max, describable w -> a = false \/ w_cols w <> [] ->
  exists r, open_sdds (header_text (written_header w a) ++ data) buffer max = Ok r /\ Forall (told_param r) (w_params w) /\ Forall (told_col r) (w_cols w).
Proof.
  intros w a data buffer max D A. pose proof D as [DP [DC _]].
  destruct (kinds_exist _ DC) as [cs [C CE]]. destruct (layouts_exist _ DP) as [ps P].
  assert (DL : declares (written_header w a) ps cs) by (unfold declares; rewrite params_of_written, cols_of_written; split; assumption).
  destruct (open_general (written_header w a) ps cs data buffer max (written_ok w a DP DC) DL (written_fixed w a DP)) as [ct [RP [RC [KP [KC E]]]]].
  rewrite params_of_written in RP. rewrite cols_of_written in RC.
  assert (PK : exists pk, parameter_keys (is_ascii (written_header w a)) max ct (fields_of data_defaults (h_data (written_header w a))) = Ok pk).
  { unfold parameter_keys. destruct A as [-> | A]; [eexists; reflexivity|]. destruct a; [|eexists; reflexivity].
    change (is_ascii (written_header w true)) with true. cbn [negb]. rewrite counts_field. change (attribute_of (h_data (written_header w true)) (T "no_row_counts")) with (@None text). cbv iota.
    change (truthy (FInt 0)) with false. cbn [negb andb]. destruct (c_columns ct) eqn:CC; [|eexists; reflexivity]. exfalso. inversion RC as [Y|]. destruct (w_cols w); [contradiction|discriminate]. }
  destruct PK as [pk PK]. rewrite PK in E. cbn [rbind] in E. rewrite E. eexists. split; [reflexivity|]. apply told_params; assumption.
Qed.
Lemma stack_some : forall w, equal_lengths w -> column_stack (map w_data (w_cols w)) <> None.
Proof.
  intros w EL. unfold column_stack. destruct (w_cols w) as [|c cs] eqn:E; [discriminate|]. cbn [map].
  replace (forallb (fun e => Nat.eqb (col_length e) (col_length (w_data c))) (map w_data cs)) with true; [discriminate|].
  symmetry. apply forallb_forall. intros e I. apply in_map_iff in I. destruct I as [d [<- I]]. apply Nat.eqb_eq. apply EL; rewrite E; [now right|now left].
Qed.
Lemma save_head : forall w a show sc, column_stack (map w_data (w_cols w)) <> None -> exists rest, fst (save w a show sc) = header_pieces w a ++ rest.
Proof.
  intros w a show sc NE. unfold save. destruct (column_stack (map w_data (w_cols w))) as [rows|]; [|contradiction].
  destruct (negb a && (2 ^ 32 <=? Z.of_nat (List.length rows))); [exists []; now rewrite app_nil_r|].
  destruct (parameter_pieces a show (w_params w)) as [ps x]. destruct x; eexists; reflexivity.
Qed.
Lemma written_told : forall w a show sc buffer max, describable w -> equal_lengths w -> a = false \/ w_cols w <> [] ->
  exists r, open_sdds (List.concat (fst (save w a show sc))) buffer max = Ok r /\ Forall (told_param r) (w_params w) /\ Forall (told_col r) (w_cols w).
Proof.
  intros w a show sc buffer max D EL A. destruct (save_head w a show sc (stack_some w EL)) as [rest ->]. rewrite concat_app.
  pose proof D as [DP [DC _]]. rewrite header_pieces_text by assumption. now apply open_written.
Qed.

(* ------------------------------------------------------------------ *)
(** Lines *)
Lemma occurs_spec : forall w l, occurs w l = true <-> contains w l.
Proof.
  intros w l. split.
  - induction l as [|c l IH]; intros H; cbn [occurs] in H; apply orb_true_iff in H; destruct H as [H|H].
    + apply prefixb_true in H. destruct H as [r ->]. now exists [], r.
    + discriminate.
    + apply prefixb_true in H. destruct H as [r ->]. now exists [], r.
    + destruct (IH H) as [a [b ->]]. now exists (c :: a), b.
  - intros [a [b ->]]. apply occurs_mid.
Qed.
Lemma contains_newline : forall w l, ~ In newline w -> w <> [] -> (contains w (l ++ [newline]) <-> contains w l).
Proof.
  intros w l N NE. split; intros [a [b E]].
  - destruct b as [|x b] using rev_ind.
    + exfalso. rewrite app_nil_r in E. apply N. destruct (exists_last NE) as [w' [x ->]]. rewrite app_assoc in E. apply app_inj_tail in E. destruct E as [_ <-]. apply in_or_app. right. now left.
    + rewrite !app_assoc in E. apply app_inj_tail in E. destruct E as [E _]. exists a, b. now rewrite E, !app_assoc.
  - exists a, (b ++ [newline]). now rewrite E, <- !app_assoc.
Qed.
Lemma occurs_line : forall w l, ~ In newline w -> w <> [] -> (occurs w (l ++ [newline]) = true <-> contains w l).
Proof. intros w l N NE. rewrite occurs_spec. now apply contains_newline. Qed.
Lemma occurs_line_false : forall w l, ~ In newline w -> w <> [] -> ~ contains w l -> occurs w (l ++ [newline]) = false.
Proof. intros w l N NE C. apply not_true_is_false. intros H. apply C. now apply occurs_line. Qed.
Lemma not_ignorable : forall l s, ~ In newline l -> ~ ignorable l -> skippable (l ++ s) = false.
Proof.
  intros [|c l] s N I; [exfalso; apply I; split; [assumption|now left]|]. apply not_skippable.
  - intros ->. apply N. now left.
  - intros ->. apply I. split; [assumption|]. right. eauto.
Qed.
Lemma end_word : ~ In newline (T "&end") /\ T "&end" <> [].
Proof. split; [|discriminate]. intros I. cbn in I. repeat (destruct I as [I|I]; [discriminate|]). contradiction. Qed.
Lemma known_word : forall w, In w known_commands -> ~ In newline w /\ w <> [].
Proof. intros w I. split; [apply no_newline_word; right; exact I|]. intros ->. cbn in I. repeat (destruct I as [I|I]; [discriminate|]). contradiction. Qed.
Lemma starts_existsb : forall l, starts_command l -> existsb (fun nl => occurs nl (l ++ [newline])) namelists = true.
Proof. intros l [w [I C]]. apply existsb_exists. exists w. split; [exact I|]. destruct (known_word w I). now apply occurs_line. Qed.
Lemma starts_not : forall l s, line_ends s -> ~ starts_command l -> existsb (fun nl => occurs nl (match s with [] => l | _ => l ++ [newline] end)) namelists = false.
Proof.
  intros l s LE H. apply not_true_is_false. intros E. apply existsb_exists in E. destruct E as [w [I C]]. apply H. exists w. split; [exact I|]. destruct (known_word w I) as [N NE].
  destruct s; [now apply occurs_spec|now apply occurs_line].
Qed.

Lemma scan_inside : forall m data acc hd n rest, Forall (fun x => ignorable x \/ (~ In newline x /\ ~ ignorable x /\ ~ contains (T "&end") x)) m ->
  exists acc' n', scan (Some (data, acc)) hd n (map (fun l => l ++ [newline]) m ++ rest) = scan (Some (data, acc')) hd n' rest.
Proof.
  induction m as [|x m IH]; intros data acc hd n rest F; [exists acc, n; reflexivity|]. inversion F as [|? ? H F']; subst. cbn [map app scan]. destruct H as [H|[N [I C]]].
  - rewrite skippable_ignorable by assumption. now apply IH.
  - rewrite not_ignorable by assumption. destruct end_word. rewrite occurs_line_false by assumption. now apply IH.
Qed.
Lemma scan_complete : forall ls, complete ls -> forall hd n rest, exists hd' n', scan None hd n (map (fun l => l ++ [newline]) ls ++ rest) = scan None hd' n' rest.
Proof.
  intros ls C. destruct end_word as [EN EE]. induction C as [|l ls I C IH|l ls N I S E C IH|l m e ls N I S E M NE IE EE' C IH]; intros hd n rest.
  - exists hd, n. reflexivity.
  - cbn [map app scan]. rewrite skippable_ignorable by assumption. apply IH.
  - cbn [map app scan]. rewrite not_ignorable, starts_existsb by assumption. rewrite (proj2 (occurs_line _ _ EN EE) E). apply IH.
  - cbn [map app scan]. rewrite not_ignorable, starts_existsb by assumption. rewrite occurs_line_false by assumption. rewrite map_app, <- app_assoc.
    match goal with |- context [scan _ _ _ (_ ++ ?R)] => destruct (scan_inside m false (l ++ [newline]) hd (Datatypes.S n) R M) as [acc [n' X]] end.
    assert (Y : exists hd' n'', scan (Some (false, acc)) hd n' (map (fun l => l ++ [newline]) (e :: ls) ++ rest) = scan None hd' n'' rest).
    { cbn [map app scan]. rewrite not_ignorable by assumption. rewrite (proj2 (occurs_line _ _ EN EE) EE'). apply IH. }
    destruct Y as [hd' [n'' Y]]. exists hd', n''. etransitivity; [exact X|exact Y].
Qed.
Lemma complete_lines : forall ls, complete ls -> Forall (fun l => ~ In newline l) ls.
Proof.
  intros ls C. induction C as [|l ls I C IH|l ls N I S E C IH|l m e ls N I S E M NE IE EE' C IH].
  - constructor.
  - constructor; [apply I|assumption].
  - constructor; assumption.
  - constructor; [assumption|]. apply Forall_app. split; [|now constructor].
    eapply Forall_impl; [|exact M]. intros x [X|[X _]]; [apply X|assumption].
Qed.
Lemma flines_ls : forall ls s, Forall (fun l => ~ In newline l) ls -> flines (lines_text ls ++ s) = map (fun l => l ++ [newline]) ls ++ flines s.
Proof.
  induction ls as [|l ls IH]; intros s F; [reflexivity|]. inversion F as [|? ? N F']; subst. unfold lines_text in *. cbn [map List.concat]. rewrite <- !app_assoc. cbn [app].
  rewrite flines_line by assumption. now rewrite IH.
Qed.
Lemma flines_last : forall l s, ~ In newline l -> l <> [] -> line_ends s -> exists rest, flines (l ++ s) = (match s with [] => l | _ => l ++ [newline] end) :: rest.
Proof.
  intros l s N NE [-> | [r ->]]; [|rewrite flines_line by assumption; eauto]. rewrite app_nil_r. exists []. clear -N NE. induction l as [|c l IH]; [contradiction|].
  cbn [flines]. destruct (Ascii.eqb_spec c newline) as [->|]; [exfalso; apply N; now left|]. destruct l as [|d l]; [reflexivity|]. rewrite IH; [reflexivity| |discriminate]. intros I. apply N. now right.
Qed.

(** first line *)
Lemma read_first : forall before first s, Forall ignorable before -> ~ In newline first -> ~ ignorable first -> line_ends s -> exists rest,
  read_line (flines (lines_text before ++ first ++ s)) = Ok (match s with [] => first | _ => first ++ [newline] end, rest).
Proof.
  intros before first s B N I LE. unfold lines_text. rewrite read_line_skips by assumption.
  assert (NE : first <> []) by (intros ->; apply I; split; [assumption|now left]).
  destruct (flines_last first s N NE LE) as [rest ->]. cbn [read_line]. exists rest.
  destruct s; cbv iota.
  - pose proof (not_ignorable first [] N I) as X. rewrite app_nil_r in X. now rewrite X.
  - now rewrite not_ignorable by assumption.
Qed.
Lemma rejected_first : forall before first s buffer max, Forall ignorable before -> ~ In newline first -> ~ ignorable first -> line_ends s -> ~ contains (T "SDDS1") first ->
  open_sdds (lines_text before ++ first ++ s) buffer max = Err GenericException.
Proof.
  intros before first s buffer max B N I LE C. unfold open_sdds, read_header. destruct (read_first before first s B N I LE) as [rest ->]. cbn [rbind].
  match goal with |- context [occurs ?w ?l] => destruct (occurs w l) eqn:H; [|reflexivity] end. exfalso. apply C. destruct s.
  - now apply occurs_spec.
  - apply occurs_line in H; [assumption| |discriminate]. intros J. cbn in J. repeat (destruct J as [J|J]; [discriminate|]). contradiction.
Qed.
Lemma first_facts : forall first, first_ok first -> ~ ignorable first /\ occurs (T "SDDS1") (first ++ [newline]) = true /\ first <> [].
Proof.
  intros first [N [[a [b E]] X]]. assert (NE : first <> []) by (intros ->; destruct a; discriminate). split; [|split; [|assumption]].
  - intros [_ [Y|[r Y]]]; [contradiction|]. exact (X r Y).
  - rewrite E, <- !app_assoc. apply occurs_mid.
Qed.
Lemma header_scan : forall before first ls s, Forall ignorable before -> first_ok first -> complete ls -> exists hd n,
  read_header (lines_text before ++ (first ++ [newline]) ++ lines_text ls ++ s) = scan None hd n (flines s).
Proof.
  intros before first ls s B F C. destruct (first_facts first F) as [NI [OC NE]]. unfold read_header. unfold lines_text at 1. rewrite read_line_skips by assumption. rewrite <- app_assoc. cbn [app].
  rewrite flines_line by apply F. cbn [read_line]. rewrite (not_ignorable first [newline]) by (assumption || apply F). cbn [rbind]. rewrite OC.
  rewrite flines_ls by (now apply complete_lines). destruct (scan_complete ls C [] 1%nat (flines s)) as [hd [n ->]]. eauto.
Qed.
Lemma rejected_line : forall before first ls bad s buffer max, Forall ignorable before -> first_ok first -> complete ls -> ~ In newline bad -> ~ ignorable bad -> line_ends s ->
  ~ starts_command bad -> (forall r, bad <> T "&data" ++ r) -> open_sdds (lines_text before ++ (first ++ [newline]) ++ lines_text ls ++ bad ++ s) buffer max = Err GenericException.
Proof.
  intros before first ls bad s buffer max B F C N I LE NS ND. unfold open_sdds. destruct (header_scan before first ls (bad ++ s) B F C) as [hd [n ->]].
  assert (NE : bad <> []) by (intros ->; apply I; split; [assumption|now left]).
  destruct (flines_last bad s N NE LE) as [rest ->]. cbn [scan]. pose proof (starts_not bad s LE NS) as X. destruct s as [|c s]; cbv iota in *; rewrite X.
  - pose proof (not_ignorable bad [] N I) as Y. rewrite app_nil_r in Y. rewrite Y. destruct (prefixb (T "&data") bad) eqn:P; [|reflexivity]. exfalso. apply prefixb_true in P. destruct P as [r P]. now apply (ND r).
  - rewrite not_ignorable by assumption. destruct (prefixb (T "&data") (bad ++ [newline])) eqn:P; [|reflexivity]. exfalso. apply prefixb_true in P. destruct P as [r P].
    destruct r as [|x r] using rev_ind.
    + rewrite app_nil_r in P. change (T "&data") with (T "&dat" ++ ["a"%char]) in P. apply app_inj_tail in P. destruct P as [_ P]. discriminate.
    + rewrite app_assoc in P. apply app_inj_tail in P. destruct P as [P _]. now apply (ND r).
Qed.

(* ------------------------------------------------------------------ *)
(** Files that end within the header *)
Lemma never_ends : forall before first ls buffer max, Forall ignorable before -> first_ok first -> complete ls ->
  open_sdds (lines_text before ++ (first ++ [newline]) ++ lines_text ls) buffer max = Diverges.
Proof.
  intros before first ls buffer max B F C. unfold open_sdds. rewrite <- (app_nil_r (lines_text ls)). destruct (header_scan before first ls [] B F C) as [hd [n ->]]. reflexivity.
Qed.
Lemma empty_never_ends : forall before buffer max, Forall ignorable before -> open_sdds (lines_text before) buffer max = Diverges.
Proof.
  intros before buffer max B. unfold open_sdds, read_header. rewrite <- (app_nil_r (lines_text before)). unfold lines_text. rewrite read_line_skips by assumption. reflexivity.
Qed.
(** the loop behind this outcome: no number of turns is enough *)
Lemma turns_empty : forall n, turns n [] [] = None.
Proof. induction n as [|n IH]; [reflexivity|]. cbn. exact IH. Qed.
Lemma turns_none : forall fs n, read_line fs = Diverges -> turns n [] fs = None.
Proof.
  induction fs as [|l fs IH]; intros n H; [apply turns_empty|]. cbn [read_line] in H. destruct (skippable l) eqn:S; [|discriminate]. destruct n as [|n]; [reflexivity|]. cbn [turns skippable readline fst snd].
  destruct n as [|n]; cbn [turns]; rewrite S; [reflexivity|]. destruct fs as [|l2 fs]; [apply turns_empty|]. cbn [readline fst snd]. specialize (IH (Datatypes.S n) H). exact IH.
Qed.

(** Parsing what was read always finishes *)
Lemma shlex_finishes : forall s st tok q out, shlex st tok q out s <> Diverges.
Proof.
  induction s as [|c s IH]; intros st tok q out; cbn [shlex]; [destruct st; discriminate|].
  destruct st; repeat match goal with |- context [if ?b then _ else _] => destruct b end; apply IH.
Qed.
Lemma parse_fixed_finishes : forall ty v, parse_fixed_value ty v <> Diverges.
Proof. intros ty [|c v]; cbn [parse_fixed_value]; [discriminate|]. repeat match goal with |- context [if ?b then _ else _] => destruct b | |- context [match ?x with Some _ => _ | None => _ end] => destruct x end; discriminate. Qed.
Lemma parse_one_finishes : forall c nl, parse_one c nl <> Diverges.
Proof.
  intros c nl. unfold parse_one. destruct (uwords nl) as [|w ws]; [discriminate|].
  repeat match goal with |- (if ?b then _ else _) <> _ => destruct b end; try discriminate; (destruct (shlex_split nl) as [es|e|] eqn:SH; [|discriminate|exfalso; exact (shlex_finishes _ _ _ _ _ SH)]); cbn [rbind]; try discriminate.
  - unfold parameter. destruct (field _ _).
    1-3: destruct (data_type _); discriminate.
    destruct (parse_fixed_value _ t) eqn:P; cbn [rbind]; try discriminate. exfalso. exact (parse_fixed_finishes _ _ P).
  - unfold column. destruct (data_type _) as [[]|]; cbn [rbind]; try discriminate. destruct (field _ _) as [|z| |]; cbn [rbind]; try discriminate. destruct z; discriminate.
Qed.
Lemma parse_all_finishes : forall hd c, parse_all c hd <> Diverges.
Proof. induction hd as [|l hd IH]; intros c; [discriminate|]. cbn [parse_all]. destruct (parse_one c l) eqn:P; cbn [rbind]; [apply IH|discriminate|]. exfalso. exact (parse_one_finishes _ _ P). Qed.
Lemma open_finishes : forall f buffer max, read_header f <> Diverges -> open_sdds f buffer max <> Diverges.
Proof.
  intros f buffer max H. unfold open_sdds. destruct (read_header f) as [[[hd count] rest]|e|]; cbn [rbind]; [|discriminate|contradiction].
  destruct (parse_all no_content hd) as [c|e|] eqn:P; cbn [rbind]; [|discriminate|exfalso; exact (parse_all_finishes _ _ P)].
  destruct (c_data c); [discriminate|]. destruct (parameter_keys _ max c f0) as [pk|e|] eqn:K; cbn [rbind]; try discriminate.
  exfalso. revert K. unfold parameter_keys. repeat match goal with |- context [if ?b then _ else _] => destruct b end; try discriminate; destruct (parameter_groups _ _ _); discriminate.
Qed.
(** a header with a data command, on one line or on several *)
Lemma header_finishes : forall before first ls d m e s, Forall ignorable before -> first_ok first -> complete ls ->
  ~ In newline d -> ~ starts_command d -> (exists r, d = T "&data" ++ r) ->
  (contains (T "&end") d /\ m = [] /\ e = [] \/
   ~ contains (T "&end") d /\ Forall (fun x => ignorable x \/ (~ In newline x /\ ~ ignorable x /\ ~ contains (T "&end") x)) m /\ ~ In newline e /\ ~ ignorable e /\ contains (T "&end") e) ->
  read_header (lines_text before ++ (first ++ [newline]) ++ lines_text ls ++ (d ++ [newline]) ++ lines_text m ++ (match e with [] => [] | _ => e ++ [newline] end) ++ s) <> Diverges.
Proof.
  intros before first ls d m e s B F C N NS [r D] H. destruct (header_scan before first ls ((d ++ [newline]) ++ lines_text m ++ (match e with [] => [] | _ => e ++ [newline] end) ++ s) B F C) as [hd [n ->]].
  destruct end_word as [EN EE]. rewrite <- app_assoc. cbn [app]. rewrite flines_line by assumption. cbn [scan].
  assert (NI : skippable (d ++ [newline]) = false) by (rewrite D, <- app_assoc; reflexivity). rewrite NI.
  pose proof (starts_not d [newline] (or_intror (ex_intro _ [] eq_refl)) NS) as X. cbv iota in X. rewrite X.
  replace (prefixb (T "&data") (d ++ [newline])) with true by (rewrite D, <- app_assoc; symmetry; apply prefixb_app).
  destruct H as [[E _]|[E [M [NE [IE EE']]]]].
  - rewrite (proj2 (occurs_line _ _ EN EE) E). discriminate.
  - rewrite occurs_line_false by assumption. rewrite flines_ls.
    2: { eapply Forall_impl; [|exact M]. intros x [Y|[Y _]]; [apply Y|assumption]. }
    match goal with |- scan _ _ _ (_ ++ ?R) <> _ => destruct (scan_inside m true (d ++ [newline]) hd (Datatypes.S n) R M) as [acc [n' ->]] end.
    destruct e as [|c e]; [exfalso; apply IE; split; [assumption|now left]|]. rewrite <- app_assoc. cbn [app]. change (c :: e ++ newline :: s) with ((c :: e) ++ newline :: s).
    rewrite flines_line by assumption. cbn [scan]. rewrite not_ignorable by assumption. rewrite (proj2 (occurs_line _ _ EN EE) EE'). discriminate.
Qed.

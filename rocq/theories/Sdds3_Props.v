(** C96 and C97: SDDS files that stop early, and headers with commands over several lines. *)
From Coq Require Import List Bool Arith Ascii String ZArith Reals Lia.
From Verif Require Import PyBase PyText Sdds_Model Sdds_Spec Sdds_Proofs Sdds_Proofs2 Sdds_Proofs3 Sdds_Proofs4 Sdds_Proofs6 Sdds_Proofs12 Sdds_Proofs19 Sdds_Spec2 Sdds_Proofs20 Sdds_Samples Sdds_Props Sdds2_Props.
Import ListNotations.
Open Scope Z_scope.

(* ------------------------------------------------------------------ *)
(** ** C96 A binary file that stops inside a page.
    Full statement: reading it raises, with and without the buffer. With the buffer it does,
    wherever the file is cut. *)
Theorem C96_cut_partial : forall h ps cs pgs pg max fuel n, header_for h ps cs -> binary_header h -> Forall (sound max ps cs) pgs -> sound max ps cs pg -> (List.length pgs < fuel)%nat ->
  (List.length (binary_file h ps cs pgs) < n < List.length (binary_file h ps cs (pgs ++ [pg])))%nat ->
  load_fails (firstn n (binary_file h ps cs (pgs ++ [pg]))) true max None fuel ValueError.
Proof.
  intros h ps cs pgs pg max fuel n [HO [DC [FR NO]]] BH SO SP FU N. unfold binary_file in *. rewrite map_app, concat_app in *. cbn [map List.concat] in *. rewrite app_nil_r in *.
  rewrite !app_length in N. set (k := (n - List.length (header_text h) - List.length (List.concat (map (bytes ps cs) pgs)))%nat).
  replace (firstn n (header_text h ++ List.concat (map (bytes ps cs) pgs) ++ bytes ps cs pg)) with (header_text h ++ List.concat (map (bytes ps cs) pgs) ++ firstn k (bytes ps cs pg)).
  - apply (read_cut h ps cs pgs pg (firstn k (bytes ps cs pg)) (skipn k (bytes ps cs pg)) max fuel); auto.
    + now rewrite firstn_skipn.
    + intros E. apply (f_equal (@List.length ascii)) in E. rewrite firstn_length in E. cbn [List.length] in E. subst k. lia.
    + intros E. apply (f_equal (@List.length ascii)) in E. rewrite skipn_length in E. cbn [List.length] in E. subst k. lia.
  - rewrite !firstn_app. rewrite (firstn_all2 (header_text h)) by lia. rewrite (firstn_all2 (List.concat (map (bytes ps cs) pgs))) by lia. reflexivity.
Qed.
Print Assumptions C96_cut_partial.
(** Without the buffer, a file that stops inside a page is read without any error: the page has the
    rows that are there, although its row count says otherwise. *)
Definition cut_page : text :=
  lines_file ["SDDS1"; "&parameter name=i type=long &end"; "&column name=n type=long &end"; "&data mode=binary &end"]%string
    (little 4 3 ++ little 4 10 ++ little 4 11 ++ little 4 12 ++ [ "001"; "000" ]%char).
Theorem C96_unbuffered_refuted : load_fails cut_page true 100 None 5 ValueError /\
  loads cut_page false 100 None 5 (Some [Some {| a_names := [row_counts; T "i"]; a_rows := [[VInt 3; VInt 10]] |}]) (Some [Some {| a_names := [T "n"]; a_rows := [[VInt 11]; [VInt 12]] |}]).
Proof. split; [fails|runs]. Qed.
Print Assumptions C96_unbuffered_refuted.
Example C96_applies : forall n, (List.length (binary_file (header_1 false) params_1 cols_1 [page_1]) < n < List.length (binary_file (header_1 false) params_1 cols_1 [page_1; page_2]))%nat ->
  load_fails (firstn n (binary_file (header_1 false) params_1 cols_1 [page_1; page_2])) true 100 None 2 ValueError.
Proof.
  intros n N. pose proof pages_1_sound as S. inversion S as [|? ? S1 S']; subst. inversion S' as [|? ? S2 _]; subst.
  apply (C96_cut_partial (header_1 false) params_1 cols_1 [page_1] page_2 100 2 n); auto; [apply header_1_for|apply header_1_binary].
Qed.

(* ------------------------------------------------------------------ *)
(** ** C97 Header commands may go over several lines.
    A header whose commands are broken into lines between their attributes means the same as with
    every command on one line: the outcome of opening is the same, with the same descriptions. *)
Theorem C97_metadata : forall h t data buffer max, header_ok h -> broken_header h t ->
  match open_sdds (header_text h ++ data) buffer max, open_sdds (t ++ data) buffer max with
  | Ok r, Ok r' => forall name key, parameter_info r' name key = parameter_info r name key /\ column_info r' name key = column_info r name key
  | Err e, Err e' => e = e'
  | Diverges, Diverges => True
  | _, _ => False
  end.
Proof.
  intros h t data buffer max HO [pss [ds [F [B E]]]]. rewrite (open_broken h t pss ds data buffer max HO F B E).
  destruct (open_sdds (header_text h ++ data) buffer max) as [r|e|]; cbn [rbind]; [|reflexivity|exact I]. intros name key. split; reflexivity.
Qed.
Print Assumptions C97_metadata.
(** ... and so do the data: binary pages, *)
Theorem C97_binary : forall h ps cs t buffer max pgs fuel n, header_for h ps cs -> binary_header h -> broken_header h t -> Forall (sound max ps cs) pgs ->
  buffer = true \/ Forall seen pgs -> (List.length pgs < fuel)%nat -> Forall (same_length n) pgs -> (0 < n)%nat ->
  loads (t ++ List.concat (map (bytes ps cs) pgs)) buffer max None fuel (Some (param_pages ps pgs)) (all_columns cs pgs).
Proof.
  intros h ps cs t buffer max pgs fuel n [HO [DC [FR NO]]] BH BR SO SH FU EQ N.
  destruct (broken_binary h ps cs t buffer max pgs fuel n HO DC FR BH BR NO SO SH FU (same_any cs pgs n EQ)) as [r [r' [E [R [P C]]]]].
  exists r, r'. repeat (split; [assumption|]). rewrite C. destruct cs; [reflexivity|]. now rewrite <- (all_have_rows _ pgs n EQ N).
Qed.
Print Assumptions C97_binary.
(** and ASCII pages: all of them without the buffer, one with it. *)
Theorem C97_ascii : forall h ps cs t (buffer : bool) max aps pgs fuel n, header_for h ps cs -> ascii_header h -> broken_header h t -> cs <> [] -> Forall2 (asound max ps cs) aps pgs ->
  (if buffer then gapless h /\ (List.length aps <= 1)%nat else Forall aseen aps) -> (List.length pgs < fuel)%nat -> Forall (same_length n) pgs -> (0 < n)%nat ->
  loads (t ++ List.concat (map apage_text aps)) buffer max None fuel (Some (aparam_pages ps pgs)) (all_columns cs pgs).
Proof.
  intros h ps cs t buffer max aps pgs fuel n [HO [DC [FR NO]]] AH BR NC SO BU FU EQ N.
  destruct (broken_ascii h ps cs t buffer max aps pgs fuel n HO DC FR AH BR NC NO SO BU FU (same_any cs pgs n EQ)) as [r [r' [E [R [P C]]]]].
  exists r, r'. repeat (split; [assumption|]). rewrite C, <- (all_have_rows cs pgs n EQ N). destruct cs; [contradiction|reflexivity].
Qed.
Print Assumptions C97_ascii.

(** A case: the header of the samples with three of its commands broken. *)
Definition part_b (p : text) : bool :=
  negb (teqb p []) && negb (existsb (Ascii.eqb newline) p) && negb (existsb (Ascii.eqb escape_char) p) && Nat.even (count_occ Ascii.ascii_dec p quote_char) &&
  negb (existsb (Ascii.eqb "!") p).
Lemma not_in_b : forall c (p : text), negb (existsb (Ascii.eqb c) p) = true -> ~ In c p.
Proof. intros c p H I. apply negb_true_iff in H. assert (X : existsb (Ascii.eqb c) p = true) by (apply existsb_exists; exists c; split; [exact I|apply Ascii.eqb_refl]). congruence. Qed.
Lemma part_b_ok : forall p, part_b p = true -> part_ok p.
Proof.
  intros p H. unfold part_b in H. repeat (apply andb_true_iff in H; (let Q := fresh in destruct H as [H Q])). split; [|split; [now apply not_in_b|split; [now apply not_in_b|split]]].
  - intros ->. discriminate.
  - now apply Nat.even_spec.
  - intros a b ->. exfalso. match goal with X : negb (existsb (Ascii.eqb "!") _) = true |- _ => apply not_in_b in X; apply X end. apply in_or_app. right. now left.
Qed.
Ltac broken_is := split; [discriminate|]; split; [vm_compute; reflexivity|]; split; [repeat (constructor; [apply part_b_ok; vm_compute; reflexivity|]); constructor|];
  cbn [removelast]; repeat (constructor; [apply not_contains_b; vm_compute; reflexivity|]); constructor.
Definition broken_1 (mode : string) : text :=
  lines_text [T "! a file made for testing"; T "SDDS1"; T "!# little-endian";
    T "&parameter"; T "name=Title, type=string,"; T "description=""name of the run"","; T "&end";
    T "&parameter name=Step, type=long,"; T "description=""a=b &x"", fixed_value=-3,"; T "&end"; T "!";
    T "&column name=x, type=double, units=""m"", description=""position"",  &end"; T "&parameter name=Index, type=short, &end"; T "&column name=tag, type=string,  &end";
    T "&data"; T mode; T "&end"].
Lemma broken_1_header : forall a, broken_header (header_1 a) (broken_1 (if a then "mode=ascii," else "mode=binary,")).
Proof.
  intros a. exists [[T "!# little-endian"]; [T "&parameter"; T "name=Title, type=string,"; T "description=""name of the run"","; T "&end"];
    [T "&parameter name=Step, type=long,"; T "description=""a=b &x"", fixed_value=-3,"; T "&end"]; [T "!"];
    [T "&column name=x, type=double, units=""m"", description=""position"",  &end"]; [T "&parameter name=Index, type=short, &end"]; [T "&column name=tag, type=string,  &end"]],
    [T "&data"; T (if a then "mode=ascii," else "mode=binary,"); T "&end"].
  split; [|split; [destruct a; broken_is|destruct a; reflexivity]].
  cbn [header_1 h_lines]. constructor; [reflexivity|]. constructor; [broken_is|]. constructor; [broken_is|]. constructor; [reflexivity|]. constructor; [broken_is|]. constructor; [broken_is|]. constructor; [broken_is|constructor].
Qed.
Example C97_applies : forall buffer,
  loads (broken_1 "mode=binary," ++ List.concat (map (bytes params_1 cols_1) [page_1; page_2])) buffer 100 None 3 (Some (param_pages params_1 [page_1; page_2])) (all_columns cols_1 [page_1; page_2]) /\
  loads (broken_1 "mode=ascii," ++ apage_text apage_1) buffer 100 None 2 (Some (aparam_pages params_1 [apage_1v])) (all_columns cols_1 [apage_1v]).
Proof.
  intros buffer. split.
  - apply (C97_binary (header_1 false) params_1 cols_1 _ buffer 100 [page_1; page_2] 3 2); auto; [apply header_1_for|apply header_1_binary|exact (broken_1_header false)|apply pages_1_sound|right; apply pages_1_seen|apply pages_1_length].
  - rewrite <- (app_nil_r (apage_text apage_1)).
    apply (C97_ascii (header_1 true) params_1 cols_1 _ buffer 100 [apage_1] [apage_1v] 2 2); auto; [apply header_1_for|apply header_1_ascii|exact (broken_1_header true)|discriminate| | |repeat constructor].
    + pose proof apages_sound as S. inversion S as [|? ? ? ? S1 _]; subst. constructor; [exact S1|constructor].
    + destruct buffer; [split; [apply header_1_gapless|cbn; lia]|]. pose proof apages_seen as S. inversion S; subst. constructor; [assumption|constructor].
Qed.

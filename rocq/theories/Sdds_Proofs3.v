(** Lemmas for the SDDS claims: the loop over the pages of a binary file. *)
From Coq Require Import List Bool Arith Ascii String ZArith Reals Lia.
From Verif Require Import PyBase PyText Lte_Spec Sdds_Model Sdds_Spec Sdds_Proofs Sdds_Proofs2.
Import ListNotations.
Open Scope Z_scope.

(** What the reader makes of a page *)

(** A reader set up for binary data of the given layout *)
Record set_up (r : reader) (ps cs : list (text * kind)) : Prop := {
  su_ascii : r_ascii r = false;
  su_pkeys : r_pkeys r = [(row_counts, I4)] :: parameter_groups false (r_max r) (map coded ps);
  su_ckeys : r_ckeys r = match cs with [] => [] | _ => column_groups [] (map coded cs) end;
  su_varlen : r_varlen r = has_strings (cs ++ ps);
  su_columns : c_columns (r_content r) = [] <-> cs = [];
  su_counts : truthy (field (r_data r) (T "no_row_counts")) = false }.

Lemma Forall2_len : forall {A B} (R : A -> B -> Prop) l m, Forall2 R l m -> List.length m = List.length l.
Proof. induction 1; cbn; congruence. Qed.
Lemma row_counts_length : row_counts <> record_length.
Proof. discriminate. Qed.

(* ------------------------------------------------------------------ *)
(** The parameters of a page *)
Lemma flat_params : forall ps vs, List.length vs = List.length ps -> ~ In record_length (map fst ps) ->
  filter named (flat (param_arrays ps vs)) = combine (map fst ps) vs /\ Forall single (param_arrays ps vs).
Proof.
  induction ps as [|[n k] ps IH]; intros vs L N; destruct vs as [|v vs]; try discriminate; [split; [reflexivity|constructor]|].
  cbn [map fst] in N. cbn in L. destruct (IH vs ltac:(lia)) as [E F]; [intros I; apply N; now right|].
  assert (NM : named (n, v) = true) by (unfold named; cbn [fst]; rewrite teqb_neq; [reflexivity|intros ->; apply N; now left]).
  assert (NL : forall z, named (record_length, z) = false) by (intros; unfold named; cbn [fst]; now rewrite teqb_refl).
  cbn [param_arrays]. destruct (is_str k); cbn [app]; unfold flat in *; cbn [map List.concat a_names a_rows hd combine app filter fst].
  - rewrite NL, NM, E. split; [reflexivity|]. repeat (apply Forall_cons; [unfold single; cbn; eauto|]); exact F.
  - rewrite NM, E. split; [reflexivity|]. repeat (apply Forall_cons; [unfold single; cbn; eauto|]); exact F.
Qed.
Lemma group_names : forall max ps, ~ In record_length (map fst ps) ->
  filter (fun n => negb (teqb n record_length)) (map fst (List.concat (parameter_groups false max (map coded ps)))) = map fst ps.
Proof.
  induction ps as [|[n k] ps IH]; intros N; [reflexivity|]. cbn [map fst] in N.
  assert (NM : teqb n record_length = false) by (apply teqb_neq; intros ->; apply N; now left).
  assert (IH' := IH ltac:(intros I; apply N; now right)).
  assert (RR : teqb record_length record_length = true) by apply teqb_refl.
  destruct k; cbn [map coded parameter_groups dt_of fst snd List.concat app filter]; rewrite ?RR, ?NM; cbn [negb filter]; rewrite ?NM; cbn [negb]; rewrite IH'; reflexivity.
Qed.
Lemma snd_combine : forall (ns : list text) (vs : list value), List.length vs = List.length ns -> map snd (combine ns vs) = vs.
Proof. induction ns as [|n ns IH]; intros [|v vs] L; try discriminate; [reflexivity|]. cbn in *. now rewrite IH by lia. Qed.
Lemma fst_combine : forall (ns : list text) (vs : list value), List.length vs = List.length ns -> map fst (combine ns vs) = ns.
Proof. induction ns as [|n ns IH]; intros [|v vs] L; try discriminate; [reflexivity|]. cbn in *. now rewrite IH by lia. Qed.
Lemma unicode_all : forall max ks (ns : list text) vs, Forall2 (fits max) ks vs -> forall nv, In nv (combine ns vs) -> as_unicode max (snd nv) = Ok (snd nv).
Proof.
  intros max ks ns vs F [n v] I. apply in_combine_r in I. cbn. clear ns. induction F as [|k w ks vs H F IH]; [contradiction|].
  destruct I as [->|I]; [eapply as_unicode_fits; eassumption|auto].
Qed.

Lemma page_params : forall r ps cs pg src position s, set_up r ps cs -> names_ok ps cs -> sound (r_max r) ps cs pg ->
  ahead src position (bytes ps cs pg ++ s) ->
  exists data src' position',
    fetch_groups (r_ascii r) (r_varlen r) true src position None (r_pkeys r) = Ok (data, src', position') /\
    stack (r_max r) (r_pkeys r) [data] = Ok (Some (param_page ps pg)) /\
    entry_of row_counts data = Ok (VInt (Z.of_nat (List.length (pg_rows pg)))) /\
    ahead src' position' (List.concat (map (stored_all (map snd cs)) (pg_rows pg)) ++ s) /\ buffered src' = buffered src.
Proof.
  intros r ps cs pg src position s SU [N1 [N2 [N3 N4]]] [F1 [F2 B]] A.
  assert (N3' : ~ In record_length (map fst ps)) by (intros I; apply N3, in_or_app; now left).
  rewrite (su_ascii _ _ _ SU), (su_pkeys _ _ _ SU). unfold bytes, page_bytes in A. rewrite <- !app_assoc in A.
  set (n := List.length (pg_rows pg)) in *.
  destruct (fetch_one true true src position [(row_counts, I4)] 4 (little 4 (Z.of_nat n))
              (stored_all (map snd ps) (pg_params pg) ++ List.concat (map (stored_all (map snd cs)) (pg_rows pg)) ++ s)) as [src1 [p1 [E1 [A1 B1]]]]; auto.
  assert (D : decode_row [(row_counts, I4)] (little 4 (Z.of_nat n)) = [VInt (Z.of_nat n)]).
  { cbn [decode_row decode width]. rewrite firstn_all2 by (rewrite little_length; lia). rewrite signed_little4 by lia. reflexivity. }
  rewrite D in E1.
  destruct (fetch_params (r_max r) true (r_varlen r) ps (pg_params pg) src1 p1 (List.concat (map (stored_all (map snd cs)) (pg_rows pg)) ++ s)
              (Some {| a_names := [row_counts]; a_rows := [[VInt (Z.of_nat n)]] |})) as [src2 [p2 [E2 [A2 B2]]]]; auto.
  { rewrite (su_varlen _ _ _ SU). unfold has_strings. rewrite existsb_app. destruct (existsb (fun nk => is_str (snd nk)) ps) eqn:E; [left; apply orb_true_r|now right]. }
  set (first := {| a_names := [row_counts]; a_rows := [[VInt (Z.of_nat n)]] |}) in *.
  assert (L : List.length (pg_params pg) = List.length ps) by (apply Forall2_len in F1; now rewrite map_length in F1).
  destruct (flat_params ps (pg_params pg) L N3') as [FL SG].
  assert (NR : named (row_counts, VInt (Z.of_nat n)) = true) by (unfold named; cbn [fst]; now rewrite teqb_neq by exact row_counts_length).
  exists (first :: param_arrays ps (pg_params pg)), src2, p2. split; [|split; [|split; [|split]]].
  - cbn [fetch_groups]. rewrite fill_if by reflexivity. rewrite E1. cbn [rbind]. change (map fst [(row_counts, I4)]) with [row_counts].
    fold first. rewrite E2. reflexivity.
  - cbn [stack]. destruct ps as [|[m k] ps'].
    + destruct (pg_params pg) eqn:PP; [|discriminate]. cbn [param_arrays merge rbind]. unfold param_page, first. rewrite PP. reflexivity.
    + rewrite (merge_flat (r_max r) _ (first :: param_arrays ((m, k) :: ps') (pg_params pg)) (combine (row_counts :: map fst ((m, k) :: ps')) (VInt (Z.of_nat n) :: pg_params pg))).
      * cbn [rbind]. rewrite fst_combine, snd_combine; [reflexivity| |]; cbn [List.length map fst]; rewrite map_length; cbn in L; lia.
      * destruct (pg_params pg); [discriminate|]. cbn [param_arrays]. destruct (is_str k); cbn; lia.
      * constructor; [unfold first; repeat econstructor|assumption].
      * unfold flat in *. cbn [map List.concat]. rewrite filter_app, FL. unfold first at 1 2. cbn [a_names a_rows hd combine filter]. rewrite NR. reflexivity.
      * rewrite fst_combine by (cbn [List.length map fst]; rewrite map_length; cbn in L; lia). constructor; assumption.
      * intros nv [<-|I]; [reflexivity|]. exact (unicode_all _ _ (map fst ((m, k) :: ps')) _ F1 nv I).
      * cbn [List.concat app]. change (map fst ((row_counts, I4) :: ?x)) with (row_counts :: map fst x). cbn [filter].
        rewrite (teqb_neq row_counts record_length row_counts_length). cbn [negb]. rewrite group_names by assumption.
        rewrite fst_combine; [reflexivity|]. cbn [List.length map fst]; rewrite map_length; cbn in L; lia.
  - cbn [entry_of]. unfold first. cbn [a_names]. rewrite teqb_refl. unfold lookup. cbn [a_rows a_names position_of]. rewrite teqb_refl. reflexivity.
  - assumption.
  - congruence.
Qed.

(* ------------------------------------------------------------------ *)
(** The columns of a page *)
Lemma groups_plain : forall nks cur, has_strings nks = false -> column_groups cur (map coded nks) = [cur ++ map coded nks].
Proof.
  induction nks as [|[n k] nks IH]; intros cur H; [now rewrite app_nil_r|]. unfold has_strings in H. cbn in H. apply orb_false_iff in H. destruct H as [K H].
  assert (E : column_groups cur (map coded ((n, k) :: nks)) = column_groups (cur ++ [coded (n, k)]) (map coded nks)) by (destruct k; try discriminate; reflexivity).
  rewrite E, IH by assumption. now rewrite <- app_assoc.
Qed.
Lemma groups_nonempty : forall ks cur, exists g gs, column_groups cur ks = g :: gs.
Proof. induction ks as [|[n k] ks IH]; intros cur; [cbn; eauto|]. destruct k; cbn; eauto. Qed.
Lemma groups_strings : forall nks cur, has_strings nks = true -> exists g h gs, column_groups cur (map coded nks) = g :: h :: gs.
Proof.
  induction nks as [|[n k] nks IH]; intros cur H; [discriminate|]. unfold has_strings in H. cbn in H.
  destruct k; cbn [map coded dt_of fst snd column_groups]; try (apply IH; exact H).
  destruct (groups_nonempty (map coded nks) [(n, DStr None)]) as [g [gs E]]. rewrite E. eauto.
Qed.
Lemma group_names_col : forall nks cur, ~ In record_length (map fst cur ++ map fst nks) ->
  filter (fun n => negb (teqb n record_length)) (map fst (List.concat (column_groups cur (map coded nks)))) = map fst cur ++ map fst nks.
Proof.
  assert (Q : forall l : list text, ~ In record_length l -> filter (fun n => negb (teqb n record_length)) l = l).
  { induction l as [|x l IHl]; intros H; [reflexivity|]. cbn [filter]. rewrite teqb_neq by (intros ->; apply H; now left). cbn [negb]. rewrite IHl; [reflexivity|]. intros I; apply H; now right. }
  induction nks as [|[n k] nks IH]; intros cur N.
  - cbn. rewrite !app_nil_r in *. now apply Q.
  - destruct (is_str k) eqn:K.
    + destruct k; try discriminate. cbn [map coded dt_of fst snd column_groups List.concat]. rewrite !map_app, !filter_app. cbn [map fst].
      rewrite (IH [(n, DStr None)]) by (intros I; apply N, in_or_app; right; exact I). rewrite Q by (intros I; apply N, in_or_app; now left).
      cbn [filter]. rewrite teqb_refl. cbn [negb app]. now rewrite app_nil_r.
    + assert (E : column_groups cur (map coded ((n, k) :: nks)) = column_groups (cur ++ [coded (n, k)]) (map coded nks)) by (destruct k; try discriminate; reflexivity).
      rewrite E, IH; rewrite map_app; cbn [map fst coded]; rewrite <- app_assoc; [reflexivity|exact N].
Qed.
Lemma flat_cols : forall nks vs names cv, List.length vs = List.length nks -> List.length cv = List.length names ->
  ~ In record_length (names ++ map fst nks) ->
  filter named (flat (col_arrays names cv nks vs)) = combine (names ++ map fst nks) (cv ++ vs) /\ Forall single (col_arrays names cv nks vs).
Proof.
  assert (Q : forall (ns : list text) vs, ~ In record_length ns -> filter named (combine ns vs) = combine ns vs).
  { induction ns as [|x ns IHl]; intros vs H; [reflexivity|]. destruct vs as [|v vs]; [reflexivity|]. cbn [combine filter]. unfold named at 1. cbn [fst].
    rewrite teqb_neq by (intros ->; apply H; now left). cbn [negb]. rewrite IHl; [reflexivity|]. intros I; apply H; now right. }
  assert (CA : forall (a c : list text) (b d : list value), List.length b = List.length a -> combine (a ++ c) (b ++ d) = combine a b ++ combine c d).
  { induction a as [|x a IHa]; intros c [|y b] d L; try discriminate; [reflexivity|]. cbn in *. now rewrite IHa by lia. }
  induction nks as [|[n k] nks IH]; intros vs names cv L C N; destruct vs as [|v vs]; try discriminate.
  - cbn [col_arrays map]. rewrite !app_nil_r in *. unfold flat. cbn [map List.concat a_names a_rows hd]. rewrite app_nil_r. split; [now apply Q|].
    constructor; [|constructor]. unfold single. cbn. eauto.
  - cbn in L. cbn [map fst] in *. cbn [col_arrays]. destruct (is_str k).
    + destruct (IH vs [n] [v]) as [E F]; [lia|reflexivity|intros I; apply N, in_or_app; right; exact I|].
      unfold flat in *. cbn [map List.concat a_names a_rows hd]. rewrite filter_app, E.
      split.
      * rewrite CA by assumption. rewrite filter_app, Q by (intros I; apply N, in_or_app; now left).
        cbn [combine filter]. unfold named at 1. cbn [fst]. rewrite teqb_refl. cbn [negb]. rewrite app_nil_r.
        symmetry. apply (CA names (n :: map fst nks) cv (v :: vs)). assumption.
      * constructor; [|assumption]. eexists. split; [reflexivity|]. cbn [a_names]. rewrite !app_length. cbn. lia.
    + destruct (IH vs (names ++ [n]) (cv ++ [v])) as [E F]; [lia|rewrite !app_length; cbn; lia|rewrite <- app_assoc; exact N|].
      rewrite E, <- !app_assoc. split; [reflexivity|assumption].
Qed.
Lemma col_arrays_two : forall nks vs names cv, List.length vs = List.length nks -> has_strings nks = true -> (2 <= List.length (col_arrays names cv nks vs))%nat.
Proof.
  induction nks as [|[n k] nks IH]; intros vs names cv L H; [discriminate|]. destruct vs as [|v vs]; [discriminate|]. cbn [col_arrays]. unfold has_strings in H. cbn in H, L.
  destruct (is_str k).
  - assert (Z : forall nks vs names cv, (1 <= List.length (col_arrays names cv nks vs))%nat).
    { clear. induction nks as [|[n k] nks IH]; intros [|v vs] names cv; cbn; try lia. destruct (is_str k); cbn; [lia|apply IH]. }
    cbn [List.length]. specialize (Z nks vs [n] [v]). lia.
  - apply IH; [lia|assumption].
Qed.

Lemma sizes_plain : forall max nks vs, Forall2 (fits max) (map snd nks) vs -> has_strings nks = false ->
  item_size (map coded nks) = Ok (Z.of_nat (List.length (stored_all (map snd nks) vs))) /\ decode_row (map coded nks) (stored_all (map snd nks) vs) = vs.
Proof.
  induction nks as [|[n k] nks IH]; intros vs F H; cbn [map snd] in F; inversion F as [|? v ? vs' P F']; subst; [split; reflexivity|].
  unfold has_strings in H. cbn in H. apply orb_false_iff in H. destruct H as [K H]. destruct (IH vs' F' H) as [I D].
  cbn [map stored_all snd]. rewrite (stored_payload max) by assumption. rewrite K. cbn [app]. destruct (payload_size max k v P) as [Sz _].
  assert (C : coded (n, k) = (n, filled k v)) by (destruct k, v; cbn in P |- *; try contradiction; try discriminate; reflexivity).
  rewrite C. split.
  - cbn [item_size]. rewrite Sz, I. cbn. rewrite app_length. f_equal. lia.
  - rewrite (decode_filled max) by assumption. now rewrite D.
Qed.
(** with no strings every row has the same size *)
Lemma size_fixed : forall nks, has_strings nks = false -> exists size, item_size (map coded nks) = Ok (Z.of_nat size) /\ (nks <> [] -> (0 < size)%nat).
Proof.
  induction nks as [|[n k] nks IH]; intros H; [exists O; split; [reflexivity|congruence]|]. unfold has_strings in H. cbn in H. apply orb_false_iff in H. destruct H as [K H].
  destruct (IH H) as [m [E _]]. destruct k; try discriminate; cbn [map coded item_size dt_of fst snd size_of rbind]; rewrite E; cbn [rbind].
  - exists (8 + m)%nat. split; [f_equal; lia|lia].
  - exists (2 + m)%nat. split; [f_equal; lia|lia].
  - exists (4 + m)%nat. split; [f_equal; lia|lia].
  - exists (4 + m)%nat. split; [f_equal; lia|lia].
Qed.

Lemma fetch_rows_cols : forall max cs rows src position s, cs <> [] -> NoDup (map fst cs) -> ~ In record_length (map fst cs) ->
  Forall (Forall2 (fits max) (map snd cs)) rows -> ahead src position (List.concat (map (stored_all (map snd cs)) rows) ++ s) ->
  exists src' position', fetch_rows (List.length rows) false true src position (column_groups [] (map coded cs)) =
    Ok (map (col_arrays [] [] cs) rows, src', position') /\ ahead src' position' s /\ buffered src' = buffered src.
Proof.
  intros max cs rows src position s NE ND NR F. revert src position. induction F as [|row rows P F IH]; intros src position A.
  - cbn in *. eauto.
  - cbn [map List.concat] in A. rewrite <- app_assoc in A. cbn [List.length fetch_rows].
    destruct (fetch_cols max cs row [] [] [] None src position (List.concat (map (stored_all (map snd cs)) rows) ++ s)) as [src1 [p1 [E1 [A1 B1]]]]; auto.
    { split; reflexivity. }
    { contradiction. }
    rewrite E1. cbn [rbind]. destruct (IH src1 p1 A1) as [src2 [p2 [E2 [A2 B2]]]]. rewrite E2. cbn [rbind map]. eexists _, _. split; [reflexivity|].
    split; [assumption|congruence].
Qed.
Lemma stack_cols : forall max cs rows, has_strings cs = true -> NoDup (map fst cs) -> ~ In record_length (map fst cs) ->
  Forall (Forall2 (fits max) (map snd cs)) rows -> rows <> [] ->
  stack max (column_groups [] (map coded cs)) (map (col_arrays [] [] cs) rows) = Ok (Some {| a_names := map fst cs; a_rows := rows |}).
Proof.
  intros max cs rows HS ND NR F NE. induction F as [|row rows P F IH]; [contradiction|]. clear NE. cbn [map stack].
  assert (L : List.length row = List.length cs) by (apply Forall2_len in P; now rewrite map_length in P).
  destruct (flat_cols cs row [] [] L eq_refl NR) as [E S]. cbn [app] in E.
  rewrite (merge_flat max _ _ (combine (map fst cs) row)); auto.
  - cbn [rbind]. rewrite fst_combine, snd_combine by (now rewrite map_length).
    destruct rows as [|row2 rows]; [reflexivity|]. rewrite IH by discriminate. reflexivity.
  - now apply col_arrays_two.
  - rewrite fst_combine by (now rewrite map_length). assumption.
  - eapply unicode_all. eassumption.
  - rewrite group_names_col by assumption. cbn [app map]. now rewrite fst_combine by (now rewrite map_length).
Qed.

Lemma page_columns : forall r ps cs rows src position s, set_up r ps cs -> names_ok ps cs -> cs <> [] -> rows <> [] ->
  Forall (Forall2 (fits (r_max r)) (map snd cs)) rows -> ahead src position (List.concat (map (stored_all (map snd cs)) rows) ++ s) ->
  exists data src' position',
    column_data r src position (Some (Z.of_nat (List.length rows))) = Ok (data, src', position') /\
    stack (r_max r) (r_ckeys r) data = Ok (Some {| a_names := map fst cs; a_rows := rows |}) /\
    ahead src' position' s /\ buffered src' = buffered src.
Proof.
  intros r ps cs rows src position s SU [N1 [N2 [N3 N4]]] C NE F A.
  assert (NR : ~ In record_length (map fst cs)) by (intros I; apply N3, in_or_app; now right).
  assert (CK : r_ckeys r = column_groups [] (map coded cs)) by (rewrite (su_ckeys _ _ _ SU); destruct cs; [contradiction|reflexivity]).
  unfold column_data. rewrite CK, (su_ascii _ _ _ SU). destruct (has_strings cs) eqn:HS.
  - assert (V : r_varlen r = true).
    { rewrite (su_varlen _ _ _ SU). unfold has_strings in *. rewrite existsb_app, HS. reflexivity. }
    destruct (groups_strings cs [] HS) as [g [h [gs G]]].
    destruct (fetch_rows_cols (r_max r) cs rows src position s C N2 NR F A) as [src' [p' [E [A' B]]]].
    rewrite V, G. rewrite Nat2Z.id. rewrite <- G, E. eexists _, _, _. split; [reflexivity|]. split; [|split; assumption].
    now apply stack_cols.
  - rewrite groups_plain by assumption. cbn [app]. destruct (size_fixed cs HS) as [size [Sz P]].
    assert (RS : Forall2 (fun b v => List.length b = size /\ decode_row (map coded cs) b = v) (map (stored_all (map snd cs)) rows) rows).
    { clear - F HS Sz. induction F as [|row rows Q F IH]; [constructor|]. constructor; [|assumption].
      destruct (sizes_plain _ cs row Q HS) as [I D]. split; [|assumption]. rewrite Sz in I. injection I as I. lia. }
    assert (L : List.length (List.concat (map (stored_all (map snd cs)) rows)) = (List.length rows * size)%nat).
    { clear - RS. remember (map (stored_all (map snd cs)) rows) as bs. clear Heqbs. induction RS as [|b v bs vs [X _] RS IH]; [reflexivity|]. cbn. rewrite app_length. lia. }
    destruct (fetch_ahead false false src position (map coded cs) size (List.length rows) (List.concat (map (stored_all (map snd cs)) rows)) s)
      as [src' [p' [E [A' B]]]]; auto.
    { rewrite dtype_nodup; [assumption|]. rewrite map_map. cbn [coded fst]. exact N2. }
    rewrite E. cbn [rbind]. eexists _, _, _. split; [reflexivity|]. split; [|split; assumption].
    cbn [stack merge rbind]. rewrite (decode_rows_concat _ _ _ rows RS). rewrite map_map. reflexivity.
Qed.

(* ------------------------------------------------------------------ *)
(** One turn of the page loop *)
Definition taken (r : reader) (pages : option (list Z)) (i : Z) : bool := wanted pages i || r_varlen r.
Definition add_if (b : bool) (l : list (option array)) (x : array) : list (option array) := if b then l ++ [Some x] else l.

Lemma turn_page : forall r ps cs pg pages i g s, set_up r ps cs -> names_ok ps cs -> sound (r_max r) ps cs pg ->
  ahead (g_source g) (g_position g) (bytes ps cs pg ++ s) -> file_end (g_source g) (g_position g) = false -> past pages i = Ok false ->
  (wanted pages i = true \/ r_varlen r = true \/ buffered (g_source g) = true) ->
  exists g', page_turn r pages i g = (g', Ok true) /\
    g_pages g' = add_if (wanted pages i) (g_pages g) (param_page ps pg) /\
    g_rows g' = add_if (taken r pages i && has_rows cs pg) (g_rows g) (col_page cs pg) /\
    ahead (g_source g') (g_position g') s /\ buffered (g_source g') = buffered (g_source g).
Proof.
  intros r ps cs pg pages i g s SU NO SO A FE PA OK. destruct SO as [F1 [F2 BD]].
  destruct (page_params r ps cs pg (g_source g) (g_position g) s SU NO (conj F1 (conj F2 BD)) A) as [data [src1 [p1 [E1 [S1 [R1 [A1 B1]]]]]]].
  unfold page_turn. rewrite PA, FE, E1.
  assert (PS : (if wanted pages i then do x <- stack (r_max r) (r_pkeys r) [data]; Ok (g_pages g ++ [x]) else Ok (g_pages g)) = Ok (add_if (wanted pages i) (g_pages g) (param_page ps pg))).
  { unfold add_if. destruct (wanted pages i); [|reflexivity]. rewrite S1. reflexivity. }
  rewrite PS. cbn [g_pages g_rows g_source g_position].
  assert (RC : match c_columns (r_content r) with
               | [] => Ok (Some 0)
               | _ => if negb (truthy (field (r_data r) (T "no_row_counts"))) then do v <- entry_of row_counts data; Ok (Some (match v with VInt z => z | _ => 0 end)) else Ok (ascii_row_count src1 p1)
               end = Ok (Some (match cs with [] => 0 | _ => Z.of_nat (List.length (pg_rows pg)) end))).
  { destruct (c_columns (r_content r)) as [|d ds] eqn:CC.
    - destruct (su_columns _ _ _ SU) as [H _]. rewrite (H CC). reflexivity.
    - rewrite (su_counts _ _ _ SU). cbn [negb]. rewrite R1. cbn [rbind]. destruct cs; [|reflexivity].
      destruct (su_columns _ _ _ SU) as [_ H]. rewrite (H eq_refl) in CC. discriminate. }
  rewrite RC.
  assert (empty : has_rows cs pg = false -> match cs with [] => 0 | _ => Z.of_nat (List.length (pg_rows pg)) end = 0 /\
                  List.concat (map (stored_all (map snd cs)) (pg_rows pg)) = []).
  { unfold has_rows. destruct cs as [|c cs]; intros E.
    - split; [reflexivity|]. cbn [map stored_all]. clear. induction (pg_rows pg); cbn; auto.
    - destruct (pg_rows pg); [split; reflexivity|discriminate]. }
  destruct (has_rows cs pg) eqn:HR.
  2: { destruct (empty eq_refl) as [Z0 C0]. rewrite Z0. rewrite C0 in A1. eexists. split; [reflexivity|]. cbn [g_pages g_rows g_source g_position].
       rewrite andb_false_r. repeat split; auto; try congruence. }
  assert (CS : cs <> []) by (intros ->; discriminate).
  assert (RW : pg_rows pg <> []) by (intros E; unfold has_rows in HR; rewrite E in HR; destruct cs; discriminate).
  replace (match cs with [] => 0 | _ => Z.of_nat (List.length (pg_rows pg)) end) with (Z.of_nat (List.length (pg_rows pg))) by (destruct cs; [contradiction|reflexivity]).
  destruct (Z.of_nat (List.length (pg_rows pg))) as [|q|q] eqn:QQ; [destruct (pg_rows pg); [contradiction|discriminate]| |lia].
  unfold taken. destruct (wanted pages i || r_varlen r) eqn:TK.
  - destruct (page_columns r ps cs (pg_rows pg) src1 p1 s SU NO CS RW F2 A1) as [data2 [src2 [p2 [E2 [S2 [A2 B2]]]]]].
    rewrite QQ in E2. rewrite E2, S2. eexists. split; [reflexivity|]. cbn [g_pages g_rows g_source g_position andb add_if].
    repeat split; auto; try congruence.
  - apply orb_false_iff in TK. destruct TK as [TK1 TK2].
    assert (BU : buffered (g_source g) = true) by (destruct OK as [O|[O|O]]; congruence).
    assert (NS : has_strings cs = false).
    { rewrite (su_varlen _ _ _ SU) in TK2. unfold has_strings in *. rewrite existsb_app in TK2. apply orb_false_iff in TK2. exact (proj1 TK2). }
    assert (HD : hd [] (r_ckeys r) = map coded cs).
    { rewrite (su_ckeys _ _ _ SU). destruct cs; [contradiction|]. rewrite groups_plain by assumption. reflexivity. }
    rewrite HD. destruct NO as [N1 [N2 [N3 N4]]]. rewrite dtype_nodup by (rewrite map_map; exact N2).
    destruct (size_fixed cs NS) as [size [Sz P]]. rewrite Sz. eexists. split; [reflexivity|]. cbn [g_pages g_rows g_source g_position andb add_if].
    repeat split; auto; try congruence.
    destruct src1 as [f|ls|f ptr]; cbn [ahead] in A1; [|contradiction|cbn in B1; rewrite BU in B1; discriminate].
    destruct A1 as [[X1 X2] X3].
    assert (L : List.length (List.concat (map (stored_all (map snd cs)) (pg_rows pg))) = (List.length (pg_rows pg) * size)%nat).
    { clear - F2 NS Sz. induction F2 as [|row rows Q F IH]; [reflexivity|]. cbn. rewrite app_length.
      destruct (sizes_plain _ cs row Q NS) as [I D]. rewrite Sz in I. injection I as I. lia. }
    assert (Len : Z.of_nat (List.length f) - p1 = Z.of_nat (List.length (pg_rows pg) * size) + Z.of_nat (List.length s)).
    { apply (f_equal (@List.length ascii)) in X3. rewrite skipn_length, app_length in X3. lia. }
    cbn [ahead]. rewrite <- QQ. split; [nia|].
    replace (Z.to_nat (p1 + Z.of_nat size * Z.of_nat (List.length (pg_rows pg)))) with (Z.to_nat p1 + List.length (pg_rows pg) * size)%nat by nia.
    rewrite skipn_plus, X3, skipn_app, <- L, skipn_all, Nat.sub_diag. reflexivity.
Qed.

(** Lemmas for the SDDS claims: writing and reading back. *)
From Coq Require Import List Bool Arith Ascii String ZArith Reals Lia.
From Verif Require Import PyBase PyText Lte_Spec Sdds_Model Sdds_Spec Sdds_Proofs Sdds_Proofs2 Sdds_Proofs3 Sdds_Proofs4 Sdds_Proofs5 Sdds_Proofs6 Sdds_Proofs7 Sdds_Proofs8.
Import ListNotations.
Open Scope Z_scope.

(* ------------------------------------------------------------------ *)
(** The columns *)
Definition kind_rank (k : kind) : nat := match k with Short => 0 | Long => 1 | _ => 3 end.
Lemma data_facts : forall k d vs, data_of k d vs -> rank d = kind_rank k /\ col_length d = List.length vs /\
  (forall max, Forall (fits max k) vs) /\ cells (kind_rank k) d = map (stored k) vs.
Proof.
  intros k d vs H. destruct k, d; cbn in H; try contradiction; destruct H as [F ->]; cbn [rank kind_rank col_length cells]; rewrite map_length;
    (split; [reflexivity|]; split; [reflexivity|]; split; [intros max; rewrite Forall_map; exact F|]); rewrite map_map; cbn [stored].
  - symmetry. apply map_id.
  - apply map_ext. intros. now rewrite little_le.
  - apply map_ext. intros. now rewrite little_le.
Qed.
Lemma transpose_nth : forall n cols, transpose n cols = map (fun i => map (fun c => nth i c []) cols) (seq 0 n).
Proof.
  induction n as [|n IH]; intros cols; [reflexivity|]. cbn [transpose seq map]. f_equal.
  - apply map_ext. intros [|c l]; reflexivity.
  - rewrite IH, <- seq_shift, map_map. apply map_ext. intros i. rewrite map_map. apply map_ext. intros [|c l]; [now destruct i|reflexivity].
Qed.
Lemma stored_all_same : forall k (A : Type) (f : A -> kind) l vs, (forall x, f x = k) -> List.length vs = List.length l -> stored_all (map f l) vs = List.concat (map (stored k) vs).
Proof. induction l as [|x l IH]; intros [|v vs] H L; try discriminate; [reflexivity|]. cbn in *. rewrite H, IH by (auto; lia). reflexivity. Qed.
Lemma concat_concat : forall (l : list (list text)), List.concat (List.concat l) = List.concat (map (@List.concat ascii) l).
Proof. induction l as [|x l IH]; [reflexivity|]. cbn. now rewrite concat_app, IH. Qed.

Section Columns.
Variables (k : kind) (n : nat) (cols : list wcol) (vss : list (list value)).
Hypothesis COLS : Forall2 (col_ok k n) cols vss.
Lemma cols_length : List.length vss = List.length cols.
Proof. now apply Forall2_len in COLS. Qed.
Lemma cols_vss : Forall (fun vs => List.length vs = n /\ forall max, Forall (fits max k) vs) vss.
Proof. clear - COLS. induction COLS as [|c vs cols0 vss0 [_ [_ [D L]]] F IH]; constructor; [|apply IH; assumption]. split; [assumption|]. now apply (data_facts k _ _ D). Qed.
Lemma cols_cells : map (cells (kind_rank k)) (map w_data cols) = map (map (stored k)) vss.
Proof. clear - COLS. induction COLS as [|c vs cols0 vss0 [_ [_ [D L]]] F IH]; [reflexivity|]. cbn [map]. rewrite IH by assumption. f_equal. now apply (data_facts k _ _ D). Qed.
Lemma cols_rank : cols <> [] -> common_rank (map w_data cols) = kind_rank k.
Proof.
  clear - COLS. unfold common_rank. induction COLS as [|c vs cols0 vss0 [_ [_ [D L]]] F IH]; [contradiction|]. intros _. cbn [map fold_right].
  destruct (data_facts k _ _ D) as [-> _]. destruct cols0 as [|c0 cols0]; [cbn; lia|]. rewrite IH by (assumption || discriminate). lia.
Qed.
Lemma cols_lengths : forall c, In c cols -> col_length (w_data c) = n.
Proof. clear - COLS. induction COLS as [|c vs cols0 vss0 [_ [_ [D L]]] F IH]; intros d I; [contradiction|]. destruct I as [<-|I]; [|now apply IH]. destruct (data_facts k _ _ D) as [_ [E _]]. congruence. Qed.
Lemma rows_transposed : transpose n (map (map (stored k)) vss) = map (map (stored k)) (rows_from n vss).
Proof.
  rewrite transpose_nth. unfold rows_from. rewrite map_map. apply map_ext_in. intros i I. rewrite map_map, map_map. apply map_ext_in. intros vs J.
  apply in_seq in I. pose proof cols_vss as V. rewrite Forall_forall in V. destruct (V vs J) as [L _].
  rewrite (nth_indep (map (stored k) vs) [] (stored k (VInt 0))) by (rewrite map_length; lia). apply map_nth.
Qed.
Lemma stack_written : (cols = [] -> n = O) -> column_stack (map w_data cols) = Some (map (map (stored k)) (rows_from n vss)).
Proof.
  intros Z. destruct cols as [|c cs] eqn:EC.
  - rewrite (Z eq_refl). reflexivity.
  - rewrite <- EC in *. assert (X : forallb (fun e => Nat.eqb (col_length e) (col_length (w_data c))) (map w_data cs) = true).
    { apply forallb_forall. intros e I. apply in_map_iff in I. destruct I as [d [<- I]]. apply Nat.eqb_eq. rewrite !cols_lengths by (rewrite EC; cbn; tauto). reflexivity. }
    unfold column_stack. rewrite EC at 1. cbn [map]. rewrite X. rewrite cols_rank by (rewrite EC; discriminate). rewrite cols_cells.
    rewrite cols_lengths by (rewrite EC; now left). now rewrite rows_transposed.
Qed.
Lemma rows_fit : forall max, Forall (Forall2 (fits max) (map (fun _ : wcol => k) cols)) (rows_from n vss).
Proof.
  intros max. unfold rows_from. rewrite Forall_map. apply Forall_forall. intros i I. apply in_seq in I.
  pose proof cols_vss as V. pose proof cols_length as L. clear COLS. revert vss V L. induction cols as [|c cs IH]; intros [|vs vss'] V L; try discriminate; [constructor|].
  inversion V as [|? ? [V1 V2] V3]; subst. cbn [map]. constructor; [|apply IH; auto].
  specialize (V2 max). rewrite Forall_forall in V2. apply V2. apply nth_In. lia.
Qed.
Lemma rows_stored : List.concat (List.concat (map (map (stored k)) (rows_from n vss))) = List.concat (map (stored_all (map (fun _ : wcol => k) cols)) (rows_from n vss)).
Proof.
  rewrite concat_concat, map_map. f_equal. apply map_ext_in. intros row I. symmetry. apply (stored_all_same k); [reflexivity|].
  unfold rows_from in I. apply in_map_iff in I. destruct I as [i [<- _]]. rewrite map_length. apply cols_length.
Qed.
Lemma rows_length : List.length (rows_from n vss) = n.
Proof. unfold rows_from. now rewrite map_length, seq_length. Qed.
End Columns.

(* ------------------------------------------------------------------ *)
(** The parameters *)
Lemma value_facts : forall max ty v, value_ok ty v -> fits max (wkind v) (wvalue_of v) /\ pack ty v = Ok (stored (wkind v) (wvalue_of v)).
Proof.
  intros max ty [b|z|t] H; cbn in H; [| |contradiction]; destruct H as [-> H]; cbn [wkind wvalue_of fits stored].
  - split; [assumption|reflexivity].
  - split; [assumption|]. unfold pack. change (teqb (T "long") (T "double")) with false. change (teqb (T "long") (T "long")) with true. cbv iota.
    replace ((- 2 ^ 31 <=? z) && (z <? 2 ^ 31)) with true by (symmetry; apply andb_true_iff; split; [apply Z.leb_le|apply Z.ltb_lt]; lia). now rewrite little_le.
Qed.
Lemma params_written : forall max show ps, Forall param_ok ps ->
  snd (parameter_pieces false show ps) = Ok tt /\
  List.concat (fst (parameter_pieces false show ps)) = stored_all (map snd (layout ps)) (map snd (given ps)) /\
  Forall2 (fits max) (map snd (layout ps)) (map snd (given ps)).
Proof.
  intros max show ps F. induction F as [|p ps [_ H] F IH]; [repeat split; constructor|]. destruct IH as [A [B C]]. cbn [parameter_pieces].
  destruct (p_data p) as [v|] eqn:D.
  - destruct H as [H _]. destruct (value_facts max _ _ H) as [V P]. rewrite P. destruct (parameter_pieces false show ps) as [l x]. cbn [fst snd] in *.
    assert (E1 : layout (p :: ps) = (p_name p, wkind v) :: layout ps) by (unfold layout; cbn; now rewrite D).
    assert (E2 : given (p :: ps) = (p_name p, wvalue_of v) :: given ps) by (unfold given; cbn; rewrite D; destruct v; reflexivity).
    rewrite E1, E2. cbn [map snd List.concat stored_all]. split; [assumption|]. split; [now rewrite B|]. now constructor.
  - assert (E1 : layout (p :: ps) = layout ps) by (unfold layout; cbn; now rewrite D).
    assert (E2 : given (p :: ps) = given ps) by (unfold given; cbn; now rewrite D). rewrite E1, E2. auto.
Qed.

(* ------------------------------------------------------------------ *)
(** The file *)
Lemma cols_meta : forall k n cols vss, Forall2 (col_ok k n) cols vss -> Forall (fun c => col_meta c /\ w_type c = kind_word k) cols.
Proof. intros k n cols vss F. induction F as [|c vs cols vss [M [T _]] F IH]; constructor; auto. Qed.
Definition written_page (w : writer) (n : nat) (vss : list (list value)) : page := {| pg_params := map snd (given (w_params w)); pg_rows := rows_from n vss |}.
Definition col_layout (w : writer) (k : kind) : list (text * kind) := map (fun c => (w_name c, k)) (w_cols w).
Lemma save_written : forall w k n vss show sc, can_write w k n vss ->
  snd (save w false show sc) = Ok tt /\
  List.concat (fst (save w false show sc)) = header_text (written_header w false) ++ bytes (layout (w_params w)) (col_layout w k) (written_page w n vss).
Proof.
  intros w k n vss show sc CW. pose proof (cw_params _ _ _ _ CW) as P. pose proof (cw_cols _ _ _ _ CW) as C.
  unfold save. rewrite (stack_written k n _ vss C (cw_none _ _ _ _ CW)).
  assert (LN : List.length (map (map (stored k)) (rows_from n vss)) = n) by (rewrite map_length; apply rows_length). rewrite LN. cbn [negb andb].
  replace (2 ^ 32 <=? Z.of_nat n) with false by (symmetry; apply Z.leb_gt; pose proof (cw_rows _ _ _ _ CW); lia).
  destruct (params_written 0 show _ P) as [A [B _]]. destruct (parameter_pieces false show (w_params w)) as [l x]. cbn [fst snd] in A, B. subst x. cbn [fst snd].
  split; [reflexivity|]. rewrite !concat_app. cbn [List.concat app].
  rewrite header_pieces_text; [|now apply params_ok_plain|].
  2: { eapply Forall_impl; [|eapply cols_meta; exact C]. intros c [M T]. split; [assumption|]. exists k. assumption. }
  rewrite B. unfold bytes, page_bytes, written_page, col_layout. cbn [pg_params pg_rows]. rewrite rows_length, little_le.
  rewrite (map_map (fun c => (w_name c, k))). cbn [snd]. rewrite (rows_stored k n _ vss C). rewrite !app_nil_r, <- ?app_assoc. reflexivity.
Qed.
Lemma names_of_cols : forall w k, map fst (col_layout w k) = map w_name (w_cols w).
Proof. intros. unfold col_layout. rewrite map_map. reflexivity. Qed.
Lemma written_sound : forall max w k n vss, can_write w k n vss -> sound max (layout (w_params w)) (col_layout w k) (written_page w n vss).
Proof.
  intros max w k n vss CW. destruct (params_written max (fun _ => []) _ (cw_params _ _ _ _ CW)) as [_ [_ F]].
  split; [exact F|]. split.
  - unfold col_layout. rewrite map_map. cbn [snd written_page pg_rows]. apply (rows_fit k n _ vss). apply (cw_cols _ _ _ _ CW).
  - cbn [written_page pg_rows]. rewrite rows_length. apply (cw_rows _ _ _ _ CW).
Qed.

Lemma round_trip : forall w k n vss show sc buffer max fuel, can_write w k n vss -> can_name w -> (1 < fuel)%nat -> (buffer = true \/ seen (written_page w n vss)) ->
  snd (save w false show sc) = Ok tt /\
  exists r r', open_sdds (List.concat (fst (save w false show sc))) buffer max = Ok r /\ read fuel r None = Some (r', Ok tt) /\
    r_parameters r' = Some [Some {| a_names := row_counts :: map fst (given (w_params w)); a_rows := [VInt (Z.of_nat n) :: map snd (given (w_params w))] |}] /\
    r_columns r' = (match w_cols w with [] => None | _ => Some (match n with O => [] | _ => [Some {| a_names := map w_name (w_cols w); a_rows := rows_from n vss |}] end) end) /\
    Forall2 param_rel (map param_command (w_params w)) (c_parameters (r_content r)) /\ Forall2 col_rel (map col_command (w_cols w)) (c_columns (r_content r)).
Proof.
  intros w k n vss show sc buffer max fuel CW [N1 [N2 [N3 N4]]] FU BU.
  destruct (save_written w k n vss show sc CW) as [E1 E2]. split; [exact E1|]. rewrite E2.
  set (pg := written_page w n vss) in *. set (ps := layout (w_params w)) in *. set (cs := col_layout w k) in *.
  assert (CM := cols_meta _ _ _ _ (cw_cols _ _ _ _ CW)).
  assert (GT : Forall (fun c => col_meta c /\ good_type (w_type c)) (w_cols w)).
  { eapply Forall_impl; [|exact CM]. intros c [M T]. split; [assumption|]. exists k. assumption. }
  assert (HO := written_ok w false (params_ok_plain _ (cw_params _ _ _ _ CW)) GT).
  assert (DC := written_declares w false k (cw_params _ _ _ _ CW) CM). fold ps in DC. fold (col_layout w k) in DC. fold cs in DC.
  assert (FR := written_fixed w false (params_ok_plain _ (cw_params _ _ _ _ CW))).
  destruct (open_binary _ ps cs (List.concat (map (bytes ps cs) [pg])) buffer max HO DC FR (written_binary w)) as [r [E [SU [RF [RB [RM [RP [P0 [R0 [C0 [FP [FC _]]]]]]]]]]]].
  rewrite params_of_written in FP. rewrite cols_of_written in FC.
  assert (NO : names_ok ps cs).
  { unfold names_ok, ps, cs. rewrite given_layout, names_of_cols. repeat split; assumption. }
  destruct (read_pages r ps cs None [pg] fuel n SU NO) as [r' [RD [PR [CR _]]]].
  - discriminate.
  - rewrite RP, RF, app_length. lia.
  - rewrite RP, RF, Nat2Z.id, skipn_app, skipn_all, Nat.sub_diag. reflexivity.
  - rewrite RM. constructor; [|constructor]. apply written_sound. assumption.
  - rewrite RB. destruct BU as [B|B]; [now left|right; constructor; [assumption|constructor]].
  - now left.
  - cbn. lia.
  - assumption.
  - assumption.
  - constructor; [|constructor]. intros _. apply rows_length.
  - exists r, r'. cbn [map List.concat] in E. rewrite app_nil_r in E. split; [exact E|]. split; [exact RD|]. rewrite PR, CR. rewrite chosen_all, scanned_all.
    unfold param_pages, col_pages, param_page, col_page. cbn [map filter]. unfold ps, cs, pg. cbn [written_page pg_rows pg_params].
    rewrite given_layout, rows_length, C0. split; [reflexivity|]. split; [|split; assumption].
    unfold col_layout. destruct (w_cols w) as [|c cl] eqn:EC; [reflexivity|]. cbn [map]. unfold has_rows. cbn [pg_rows].
    destruct n as [|m]; [reflexivity|]. unfold rows_from. cbn [seq map pg_rows]. rewrite map_map. reflexivity.
Qed.

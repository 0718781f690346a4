(** Lemmas for the SDDS claims: saving as text and reading back. *)
From Coq Require Import List Bool Arith Ascii String ZArith Reals Lia.
From Verif Require Import PyBase PyText Lte_Spec Sdds_Model Sdds_Spec Sdds_Proofs Sdds_Proofs2 Sdds_Proofs3 Sdds_Proofs4 Sdds_Proofs5 Sdds_Proofs6 Sdds_Proofs7 Sdds_Proofs8 Sdds_Proofs9 Sdds_Proofs10 Sdds_Proofs11 Sdds_Proofs12.
Import ListNotations.
Open Scope Z_scope.

Definition enc (rk : nat) (v : value) : text :=
  match v with VDouble b => b | VInt z => match rk with O => le 2 z | 1%nat => le 4 z | 2%nat => le 8 z | _ => double_bits z end | _ => [] end.
Lemma cells_enc : forall k d vs rk, data_of k d vs -> cells rk d = map (enc rk) vs.
Proof.
  intros k d vs rk H. destruct k, d; cbn in H; try contradiction; destruct H as [F ->]; cbn [cells]; rewrite map_map; cbn [enc]; [symmetry; apply map_id| |];
    (apply map_ext; intros z; destruct rk as [|[|[|rk]]]; reflexivity).
Qed.
Lemma data_values : forall k d vs, data_of k d vs -> forall v, In v vs -> match v with VDouble _ => k = Double | VInt z => (k = Short /\ - 2 ^ 15 <= z < 2 ^ 15) \/ (k = Long /\ - 2 ^ 31 <= z < 2 ^ 31) | _ => False end.
Proof.
  intros k d vs H v I. destruct k, d; cbn in H; try contradiction; destruct H as [F ->]; apply in_map_iff in I; destruct I as [x [<- I]]; rewrite Forall_forall in F; auto.
Qed.

Lemma combine_snd : forall (A B : Type) (l : list A) (m : list B), List.length l = List.length m -> map snd (combine l m) = m.
Proof. induction l as [|x l IH]; intros [|y m] H; try discriminate; [reflexivity|]. cbn. rewrite IH; [reflexivity|]. now injection H. Qed.
Lemma combine_fst : forall (A B : Type) (l : list A) (m : list B), List.length l = List.length m -> map fst (combine l m) = l.
Proof. induction l as [|x l IH]; intros [|y m] H; try discriminate; [reflexivity|]. cbn. rewrite IH; [reflexivity|]. now injection H. Qed.
(* ------------------------------------------------------------------ *)
(** The columns *)
Section Text.
Variables (n : nat) (cols : list wcol) (ks : list kind) (vss : list (list value)).
Hypothesis LK : List.length ks = List.length cols.
Hypothesis LV : List.length vss = List.length cols.
Hypothesis COLS : forall c k vs, In (c, (k, vs)) (combine cols (combine ks vss)) -> col_ok k n c vs.
Definition rk : nat := common_rank (map w_data cols).
Lemma text_split : forall (P : wcol -> kind -> list value -> Prop), (forall c k vs, In (c, (k, vs)) (combine cols (combine ks vss)) -> P c k vs) ->
  Forall2 (fun c kv => P c (fst kv) (snd kv)) cols (combine ks vss).
Proof.
  intros P. clear COLS. revert ks vss LK LV. induction cols as [|c cs IH]; intros [|k ks'] [|vs vss'] L1 L2 H; try discriminate; [constructor|].
  cbn [combine] in *. constructor; [apply (H c k vs); now left|]. apply IH; [cbn in *; lia|cbn in *; lia|]. intros c0 k0 v0 I. apply H. now right.
Qed.
Lemma text_all : Forall2 (fun c kv => col_ok (fst kv) n c (snd kv)) cols (combine ks vss).
Proof. now apply (text_split (fun c k vs => col_ok k n c vs)). Qed.
Lemma text_snd : map snd (combine ks vss) = vss.
Proof. apply combine_snd. congruence. Qed.
Lemma text_fst : map fst (combine ks vss) = ks.
Proof. apply combine_fst. congruence. Qed.
Lemma text_lengths : forall vs, In vs vss -> List.length vs = n.
Proof.
  intros vs I. rewrite <- text_snd in I. apply in_map_iff in I. destruct I as [[k v] [<- I]]. pose proof text_all as F. clear - F I.
  induction F as [|c kv cs kvs [_ [_ [_ L]]] F IH]; [contradiction|]. destruct I as [->|I]; [exact L|auto].
Qed.
Lemma text_cells : map (cells rk) (map w_data cols) = map (map (enc rk)) vss.
Proof.
  rewrite <- text_snd at 1. pose proof text_all as F. generalize rk. intros m. clear - F. induction F as [|c kv cs kvs [_ [_ [D _]]] F IH]; [reflexivity|]. cbn [map]. rewrite IH. f_equal. eapply cells_enc. exact D.
Qed.
Lemma text_cols_length : forall c, In c cols -> col_length (w_data c) = n.
Proof.
  pose proof text_all as F. clear - F. induction F as [|c kv cs kvs [_ [_ [D L]]] F IH]; intros d I; [contradiction|]. destruct I as [<-|I]; [|auto]. destruct (data_facts _ _ _ D) as [_ [E _]]. congruence.
Qed.
Lemma text_stack : cols <> [] -> column_stack (map w_data cols) = Some (map (map (enc rk)) (rows_from n vss)).
Proof.
  intros NC. destruct cols as [|c cs] eqn:EC; [contradiction|]. rewrite <- EC in *.
  assert (X : forallb (fun e => Nat.eqb (col_length e) (col_length (w_data c))) (map w_data cs) = true).
  { apply forallb_forall. intros e I. apply in_map_iff in I. destruct I as [d [<- I]]. apply Nat.eqb_eq. rewrite !text_cols_length by (rewrite EC; cbn; tauto). reflexivity. }
  unfold column_stack. rewrite EC at 1. cbn [map]. rewrite X. fold rk. rewrite text_cells, text_cols_length by (rewrite EC; now left). f_equal.
  rewrite transpose_nth. unfold rows_from. rewrite map_map. apply map_ext_in. intros i I. rewrite !map_map. apply map_ext_in. intros vs J.
  apply in_seq in I. pose proof (text_lengths vs J) as L. rewrite (nth_indep (map (enc rk) vs) [] (enc rk (VInt 0))) by (rewrite map_length; lia). apply map_nth.
Qed.
Lemma rk_not : rk = 0%nat \/ rk = 1%nat \/ rk = 3%nat.
Proof.
  unfold rk, common_rank. pose proof text_all as F. clear - F. induction F as [|c kv cs kvs [_ [_ [D L]]] F IH]; [now left|]. cbn [map fold_right].
  destruct (data_facts _ _ _ D) as [-> _]. destruct (fst kv); cbn [kind_rank]; destruct IH as [-> | [-> | ->]]; cbn; auto.
Qed.

Variables (show_cell : text -> text) (num : text -> fl).
Hypothesis PD : forall vs b, In vs vss -> In (VDouble b) vs -> prints (Nat.eqb (List.length vss) 1) num (show_cell b) (VDouble b).
Hypothesis PI : forall vs z, In vs vss -> In (VInt z) vs -> prints (Nat.eqb (List.length vss) 1) num (show_cell (little 2 z)) (VInt z) /\
  prints (Nat.eqb (List.length vss) 1) num (show_cell (little 4 z)) (VInt z) /\ prints (Nat.eqb (List.length vss) 1) num (show_cell (double_bits z)) (VInt z).
Definition cell_text (v : value) : text := show_cell (enc rk v).
Lemma cell_prints : forall k vs v c, In (c, (k, vs)) (combine cols (combine ks vss)) -> In v vs ->
  prints (Nat.eqb (List.length vss) 1) num (cell_text v) v /\ forall max, reads_as (Nat.eqb (List.length vss) 1) max k (cell_text v) (as_number num v).
Proof.
  intros k vs v c I J. destruct (COLS c k vs I) as [_ [_ [D _]]]. pose proof (data_values _ _ _ D v J) as V.
  assert (IV : In vs vss). { rewrite <- text_snd. apply in_map_iff. exists (k, vs). split; [reflexivity|]. now apply in_combine_r in I. }
  unfold cell_text. destruct v as [b|b|z|t|x]; try contradiction.
  - cbn [enc]. pose proof (PD vs b IV J) as P. split; [exact P|]. intros max. subst k. cbn. apply P.
  - destruct (PI vs z IV J) as [P2 [P4 P8]]. rewrite !little_le in *.
    assert (P : prints (Nat.eqb (List.length vss) 1) num (show_cell (enc rk (VInt z))) (VInt z)) by (cbn [enc]; destruct rk_not as [-> | [-> | ->]]; assumption).
    split; [exact P|]. intros max. destruct P as [_ [_ P]]. destruct V as [[-> V]|[-> V]]; cbn [as_number reads_as]; auto.
Qed.
Lemma row_reads : forall i, (i < n)%nat -> forall max,
  Forall word_text (map cell_text (map (fun col => nth i col (VInt 0)) vss)) /\
  reads_all (Nat.eqb (List.length vss) 1) max ks (map cell_text (map (fun col => nth i col (VInt 0)) vss)) (map (as_number num) (map (fun col => nth i col (VInt 0)) vss)).
Proof.
  intros i I max. generalize cell_prints. generalize (Nat.eqb (List.length vss) 1). intros alone CP. pose proof text_lengths as TL. revert CP TL. generalize cell_text. intros ct. clear PD PI COLS. revert ks vss LK LV. induction cols as [|c cs IH]; intros [|k ks'] [|vs vss'] L1 L2 CP TL; try discriminate; [split; [constructor|exact Logic.I]|].
  destruct (IH ks' vss') as [A B]; [cbn in *; lia|cbn in *; lia| |intros v J; apply TL; now right|].
  - intros k0 vs0 v c0 J K. apply (CP k0 vs0 v c0); [cbn [combine]; now right|assumption].
  - destruct (CP k vs (nth i vs (VInt 0)) c) as [[W _] R]; [now left|apply nth_In; rewrite (TL vs (or_introl eq_refl)); exact I|].
    split; [cbn [map]; constructor; assumption|]. cbn [map reads_all]. split; [apply R|exact B].
Qed.
Lemma rows_read : forall max, Forall (Forall word_text) (map (map cell_text) (rows_from n vss)) /\
  Forall2 (reads_all (Nat.eqb (List.length vss) 1) max ks) (map (map cell_text) (rows_from n vss)) (map (map (as_number num)) (rows_from n vss)).
Proof.
  intros max. unfold rows_from. rewrite !map_map. assert (B : forall i, In i (seq 0 n) -> (i < n)%nat) by (intros i I; apply in_seq in I; lia). induction (seq 0 n) as [|i l IH]; [split; constructor|].
  destruct IH as [C D]; [intros; apply B; now right|]. destruct (row_reads i (B i (or_introl eq_refl)) max) as [E F]. cbn [map]. split; constructor; assumption.
Qed.
End Text.

(* ------------------------------------------------------------------ *)
(** The parameters *)
Definition shown_params (show : wvalue -> text) (ps : list wparam) : list text := flat_map (fun p => match p_data p with Some v => [show v] | None => [] end) ps.
Lemma word_is_line : forall t, word_text t -> line_text t.
Proof.
  intros t [N W]. assert (X : forall c, In c t -> c <> "!"%char /\ c <> newline /\ c <> cr /\ c <> " "%char).
  { intros c I. destruct (W c I) as [U B]. repeat split; [exact B|intros ->; discriminate|intros ->; discriminate|intros ->; discriminate]. }
  split; [exact N|]. split; [intros c I; destruct (X c I) as [? [? [? ?]]]; auto|]. split; [apply X; now apply in_hd|apply X; now apply in_last].
Qed.
Lemma params_shown : forall show num ps max, Forall param_ok ps ->
  (forall p b, In p ps -> p_data p = Some (WDouble b) -> prints true num (show (WDouble b)) (VDouble b)) ->
  (forall p z, In p ps -> p_data p = Some (WInt z) -> prints true num (show (WInt z)) (VInt z)) ->
  snd (parameter_pieces true show ps) = Ok tt /\
  List.concat (fst (parameter_pieces true show ps)) = List.concat (map (fun l => l ++ [newline]) (shown_params show ps)) /\
  Forall word_text (shown_params show ps) /\
  reads_all true max (map snd (layout ps)) (shown_params show ps) (map (as_number num) (map snd (given ps))).
Proof.
  intros show num ps max F. induction F as [|p ps [_ H] F IH]; intros P1 P2; [repeat split; constructor|].
  destruct IH as [A [B [C D]]]; [intros; eapply P1; [right|]; eassumption|intros; eapply P2; [right|]; eassumption|].
  cbn [parameter_pieces]. unfold shown_params, layout, given. cbn [flat_map]. fold (shown_params show ps). fold (layout ps). fold (given ps). destruct (p_data p) as [v|] eqn:E; [|cbn [app]; auto].
  destruct (parameter_pieces true show ps) as [l x]. cbn [fst snd] in *. destruct H as [H _]. destruct v as [b|z|t]; [| |contradiction].
  - destruct (P1 p b (or_introl eq_refl) E) as [W [AO R]]. cbn [app map List.concat snd wkind]. rewrite encode_ascii by exact AO. rewrite B. split; [exact A|]. split; [reflexivity|]. split; [now constructor|]. cbn. split; assumption.
  - destruct (P2 p z (or_introl eq_refl) E) as [W [AO R]]. cbn [app map List.concat snd wkind]. rewrite encode_ascii by exact AO. rewrite B. split; [exact A|]. split; [reflexivity|]. split; [now constructor|]. cbn [reads_all as_number reads_as]. destruct H as [_ H]. auto.
Qed.

(* ------------------------------------------------------------------ *)
(** The file *)
Definition text_layout (w : writer) (ks : list kind) : list (text * kind) := combine (map w_name (w_cols w)) ks.
Definition text_page (w : writer) (n : nat) (vss : list (list value)) (show : wvalue -> text) (show_cell : text -> text) : apage :=
  {| ap_params := shown_params show (w_params w); ap_rows := map (map (cell_text (w_cols w) show_cell)) (rows_from n vss) |}.
Lemma save_text : forall w n ks vss show sc num, can_write_text w n ks vss -> prints_all w vss show sc num -> w_cols w <> [] -> (0 < n)%nat ->
  snd (save w true show sc) = Ok tt /\ List.concat (fst (save w true show sc)) = header_text (written_header w true) ++ apage_text (text_page w n vss show sc).
Proof.
  intros w n ks vss show sc num [P [LK [LV CO]] NR] [P1 [P2 [P3 P4]]] NC N0. unfold save. rewrite (text_stack n (w_cols w) ks vss LK LV CO NC).
  assert (LN : List.length (map (map (enc (rk (w_cols w)))) (rows_from n vss)) = n) by (rewrite map_length; apply rows_length). rewrite LN. cbn [negb andb].
  destruct (params_shown show num _ 0 P P1 P2) as [A [B _]]. destruct (parameter_pieces true show (w_params w)) as [l x]. cbn [fst snd] in A, B. subst x.
  replace (Z.of_nat n =? 0) with false by (symmetry; apply Z.eqb_neq; lia). cbn [negb fst snd]. split; [reflexivity|]. cbn [app]. rewrite !concat_app.
  rewrite header_pieces_text; [|now apply params_ok_plain|].
  2: { apply Forall_forall. intros c I. pose proof (text_all n (w_cols w) ks vss LK LV CO) as F. clear - F I. induction F as [|d kv cs kvs [M [T _]] F IH]; [contradiction|]. destruct I as [->|I]; [|auto]. split; [exact M|]. eexists. exact T. }
  rewrite B. unfold apage_text, apage_lines, text_page. cbn [ap_params ap_rows]. rewrite !map_app, !concat_app. cbn [map List.concat]. rewrite map_length, rows_length, app_nil_r. do 3 f_equal. rewrite !map_map. apply f_equal. apply map_ext. intros row.
  unfold cell_text. now rewrite map_map.
Qed.
Lemma text_names : forall w (ks : list kind), List.length ks = List.length (w_cols w) -> map fst (text_layout w ks) = map w_name (w_cols w) /\ map snd (text_layout w ks) = ks.
Proof.
  intros w ks. unfold text_layout. revert ks. induction (w_cols w) as [|c cs IH]; intros [|k ks] L; try discriminate; [auto|]. cbn. destruct (IH ks) as [A B]; [cbn in L; lia|]. now rewrite A, B.
Qed.
Lemma text_declares : forall w a ks n vss, Forall param_ok (w_params w) -> List.length ks = List.length (w_cols w) -> List.length vss = List.length (w_cols w) ->
  (forall c k vs, In (c, (k, vs)) (combine (w_cols w) (combine ks vss)) -> col_ok k n c vs) ->
  declares (written_header w a) (layout (w_params w)) (text_layout w ks).
Proof.
  intros w a ks n vss P LK LV CO. destruct (written_declares {| w_params := w_params w; w_cols := [] |} a Double P (Forall_nil _)) as [D _]. unfold declares. rewrite params_of_written in D. rewrite params_of_written, cols_of_written. split; [exact D|].
  pose proof (text_all n (w_cols w) ks vss LK LV CO) as F. rewrite <- (text_fst (w_cols w) ks vss LK LV). unfold text_layout. clear - F.
  induction F as [|c kv cs kvs [M [T _]] F IH]; [constructor|]. cbn [map combine]. constructor; [|assumption]. cbn [fst snd]. split; [|apply col_length_said].
  destruct M as [[N _] _]. split; rewrite col_said by (cbn; tauto); [now apply or_none_some|]. change (col_attribute c (PyText.T "type")) with (w_type c).
  rewrite T. apply or_none_some. destruct (fst kv); discriminate.
Qed.
Lemma written_ascii : forall w, ascii_header (written_header w true).
Proof. intros w. split; [reflexivity|left; reflexivity]. Qed.
Lemma written_gapless : forall w rest, ~ In cr (header_text (written_header w true) ++ rest) -> gapless (written_header w true).
Proof.
  intros w rest N. split; [constructor|]. split; [now exists []|]. split; [|intros I; apply N, in_or_app; now left].
  intros t I. cbn [written_header h_lines] in I. destruct I as [I|I]; [injection I as <-; discriminate|]. apply in_app_or in I. destruct I as [I|I]; apply in_map_iff in I; destruct I as [x [X _]]; discriminate.
Qed.
Lemma word_wide : forall t, word_text t -> (1 < List.length t)%nat -> match t with _ :: r => exists c, In c r /\ is_bws c = false | [] => False end.
Proof.
  intros [|a [|b t]] [N W] L; cbn in L; try lia. exists b. split; [now left|]. destruct (W b) as [U _]; [cbn; auto|]. unfold is_uws, is_ws in U. destruct (is_bws b) eqn:E; [|reflexivity]. exfalso. revert U E. clear. revert b. 
  intros b. destruct b as [[|] [|] [|] [|] [|] [|] [|] [|]]; vm_compute; discriminate.
Qed.
Lemma dec_word : forall z, word_text (dec z).
Proof.
  intros z. split; [apply dec_nonempty|]. intros c I. apply dec_chars in I. destruct I as [I| ->]; [|split; [reflexivity|discriminate]].
  revert I. destruct c as [[|] [|] [|] [|] [|] [|] [|] [|]]; vm_compute; intros I; try discriminate; split; reflexivity || discriminate.
Qed.
Lemma text_round_trip : forall w n ks vss show sc num (buffer : bool) max fuel, can_write_text w n ks vss -> can_name w -> Forall kept_name (map fst (given (w_params w)) ++ map w_name (w_cols w)) ->
  prints_all w vss show sc num -> w_cols w <> [] -> (0 < n)%nat -> (1 < fuel)%nat ->
  (if buffer then ~ In cr (List.concat (fst (save w true show sc))) else (1 < List.length (first_line w n show))%nat) ->
  snd (save w true show sc) = Ok tt /\
  loads (List.concat (fst (save w true show sc))) buffer max None fuel
    (Some [Some {| a_names := map fst (given (w_params w)) ++ [row_counts]; a_rows := [map (as_number num) (map snd (given (w_params w))) ++ [VInt (Z.of_nat n)]] |}])
    (Some [Some {| a_names := map w_name (w_cols w); a_rows := map (map (as_number num)) (rows_from n vss) |}]).
Proof.
  intros w n ks vss show sc num buffer max fuel CW [N1 [N2 [N3 N4]]] KN PA NC N0 FU BU. destruct (save_text w n ks vss show sc num CW PA NC N0) as [E1 E2]. split; [exact E1|]. rewrite E2 in *. clear E1 E2.
  destruct CW as [P [LK [LV CO]] NR]. destruct PA as [P1 [P2 [P3 P4]]]. destruct (text_names w ks LK) as [T1 T2].
  set (pg := {| pg_params := map (as_number num) (map snd (given (w_params w))); pg_rows := map (map (as_number num)) (rows_from n vss) |}).
  destruct (params_shown show num _ max P P1 P2) as [_ [_ [PW PR]]]. destruct (rows_read n (w_cols w) ks vss LK LV CO sc num P3 P4 max) as [RW RR].
  assert (LN : List.length (pg_rows pg) = n) by (cbn [pg pg_rows]; rewrite map_length; apply rows_length).
  assert (GT : Forall (fun c => col_meta c /\ good_type (w_type c)) (w_cols w)).
  { apply Forall_forall. intros c I. pose proof (text_all n (w_cols w) ks vss LK LV CO) as F. clear - F I. induction F as [|d kv cs kvs [M [T _]] F IH]; [contradiction|]. destruct I as [->|I]; [|auto]. split; [exact M|]. eexists. exact T. }
  destruct (ascii_read (written_header w true) (layout (w_params w)) (text_layout w ks) buffer max [text_page w n vss show sc] [pg] fuel n) as [r [r' [E [R [PP CC]]]]].
  - apply written_ok; [now apply params_ok_plain|exact GT].
  - eapply text_declares; eassumption.
  - apply written_fixed. now apply params_ok_plain.
  - apply written_ascii.
  - intros X. apply (f_equal (@List.length _)) in X. rewrite <- (map_length fst), T1, map_length in X. destruct (w_cols w); [contradiction|discriminate].
  - unfold names_ok. rewrite given_layout, T1. repeat split; assumption.
  - constructor; [|constructor]. split; [|now rewrite given_layout, T1]. split; [|split; [|split; [|split]]].
    + eapply Forall_impl; [|exact PW]. exact word_is_line.
    + exact RW.
    + exact PR.
    + rewrite T2. assert (LL : List.length vss = List.length ks) by congruence. rewrite <- LL. exact RR.
    + cbn [text_page ap_rows]. rewrite map_length, rows_length. exact NR.
  - destruct buffer; [split; [eapply written_gapless; exact BU|cbn; lia]|]. constructor; [|constructor]. unfold aseen.
    assert (HD : hd [] (apage_lines (text_page w n vss show sc)) = first_line w n show).
    { unfold apage_lines, first_line, text_page. cbn [ap_params ap_rows]. fold (shown_params show (w_params w)). destruct (shown_params show (w_params w)); [|reflexivity]. cbn. now rewrite map_length, rows_length. }
    rewrite HD. apply word_wide; [|exact BU]. unfold first_line. fold (shown_params show (w_params w)). destruct PW as [|t l PW _]; [apply dec_word|exact PW].
  - cbn. lia.
  - constructor; [|constructor]. intros _. exact LN.
  - cbn [map List.concat] in E. rewrite app_nil_r in E. exists r, r'. split; [exact E|]. split; [exact R|]. rewrite PP, CC. unfold aparam_pages, aparam_page, col_pages, col_page. cbn [map filter].
    rewrite LN, given_layout, T1. split; [reflexivity|]. assert (HR : has_rows (text_layout w ks) pg = true).
    { unfold has_rows. destruct (text_layout w ks) eqn:Y; [|destruct (pg_rows pg); [cbn in LN; lia|reflexivity]]. destruct (w_cols w); [contradiction|]. destruct ks; discriminate. }
    now rewrite HR.
Qed.

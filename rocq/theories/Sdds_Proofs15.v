(** Lemmas for the SDDS claims: lines added to a header, read from the buffer. *)
From Coq Require Import List Bool Arith Ascii String ZArith Reals Lia.
From Verif Require Import PyBase PyText Lte_Spec Sdds_Model Sdds_Spec Sdds_Proofs Sdds_Proofs2 Sdds_Proofs3 Sdds_Proofs4 Sdds_Proofs5 Sdds_Proofs6 Sdds_Proofs12 Sdds_Proofs13 Sdds_Proofs14.
Import ListNotations.
Open Scope Z_scope.

Lemma splitlines_cut : forall n a b cur, (List.length a <= n)%nat -> splitlines_aux cur (a ++ newline :: b) = splitlines_aux cur (a ++ [newline]) ++ splitlines_aux [] b.
Proof.
  assert (CN : Ascii.eqb cr newline = false) by reflexivity.
  induction n as [|n IH]; intros a b cur L; (destruct a as [|c a]; [reflexivity|]); [cbn in L; lia|]. cbn [List.length] in L.
  cbn [app splitlines_aux]. destruct (Ascii.eqb_spec c newline) as [->|NE].
  - rewrite IH by lia. reflexivity.
  - destruct (Ascii.eqb_spec c cr) as [->|NC].
    + destruct a as [|d a]; [reflexivity|]. cbn [app]. destruct (Ascii.eqb_spec d newline) as [->|ND].
      * rewrite IH by (cbn in L; lia). reflexivity.
      * change (d :: a ++ newline :: b) with ((d :: a) ++ newline :: b). rewrite IH by lia. reflexivity.
    + now rewrite IH by lia.
Qed.
Lemma buffered_inserted : forall a b sk, (a = [] \/ exists a', a = a' ++ [newline]) -> Forall (fun l => ignorable l /\ l <> [] /\ ~ In cr l) sk ->
  buffered_lines (a ++ lines_text sk ++ b) = buffered_lines (a ++ b).
Proof.
  intros a b sk A F.
  assert (G : forall s, buffered_lines (lines_text sk ++ s) = buffered_lines s).
  { intros s. unfold buffered_lines, lines_text. rewrite splitlines_lines.
    - rewrite filter_app. replace (filter _ sk) with (@nil text); [reflexivity|]. symmetry. clear -F. induction F as [|l sk [[_ H] [NE _]] F IH]; [reflexivity|]. cbn [filter].
      destruct H as [->|[r ->]]; [contradiction|]. exact IH.
    - eapply Forall_impl; [|exact F]. intros l [[N _] [_ C]] c I. split; intros ->; contradiction. }
  destruct A as [->|[a' ->]]; [apply G|]. unfold buffered_lines. rewrite <- !app_assoc. cbn [app].
  rewrite (splitlines_cut (List.length a') a' (lines_text sk ++ b) []) by lia. rewrite (splitlines_cut (List.length a') a' b []) by lia.
  rewrite !filter_app. f_equal. apply G.
Qed.

Lemma turn_shift : forall r r' f' d pages i g, shifted r r' f' d -> page_turn r' pages i g = page_turn r pages i g.
Proof. intros r r' f' d pages i g ->. destruct r. reflexivity. Qed.
Lemma loop_shift : forall r r' f' d pages, shifted r r' f' d -> forall fuel i g, page_loop fuel r' pages i g = page_loop fuel r pages i g.
Proof. intros r r' f' d pages H. induction fuel as [|fuel IH]; intros i g; [reflexivity|]. cbn [page_loop]. rewrite (turn_shift _ _ _ _ _ _ _ H). destruct (page_turn r pages i g) as [g1 [[|]|e|]]; auto. Qed.

(** ASCII data in the buffer: comments, but no empty lines *)
Lemma read_comments : forall a b sk max r r' fuel pages, (a = [] \/ exists a', a = a' ++ [newline]) -> Forall (fun l => ignorable l /\ l <> [] /\ ~ In cr l) sk ->
  open_sdds (a ++ b) true max = Ok r -> Z.of_nat (List.length a) < r_pointer r -> r_ascii r = true -> open_sdds (a ++ lines_text sk ++ b) true max = Ok r' ->
  match read fuel r pages, read fuel r' pages with
  | Some (q, x), Some (q', x') => x = x' /\ r_parameters q' = r_parameters q /\ r_columns q' = r_columns q
  | None, None => True
  | _, _ => False
  end.
Proof.
  intros a b sk max r r' fuel pages A F E L AS E'.
  assert (F' : Forall ignorable sk) by (eapply Forall_impl; [|exact F]; intros l H; apply H).
  destruct (open_inserted a b sk true max r A F' E L) as [r1 [E1 S1]]. rewrite E1 in E'. injection E' as <-.
  destruct (open_shape _ _ _ _ E) as [h [c [rest [RH [RP [RF [RB _]]]]]]].
  unfold read. rewrite (loop_shift _ _ _ _ pages S1).
  assert (SO : source_of r1 = source_of r).
  { unfold source_of. replace (r_buffer r1) with true by (rewrite S1; symmetry; exact RB). replace (r_ascii r1) with true by (rewrite S1; symmetry; exact AS). replace (r_file r1) with (a ++ lines_text sk ++ b) by (now rewrite S1).
    rewrite RB, AS, RF. now rewrite buffered_inserted by assumption. }
  rewrite SO. unfold shifted in S1. subst r1. cbn [r_buffer r_ascii r_count r_pointer r_pages r_rows r_ckeys r_parameters r_columns]. rewrite RB, AS.
  destruct (page_loop fuel r pages 0 _) as [[g [u|e|]]|]; cbn; auto.
  destruct (concat_pages (g_pages g)); cbn; auto. destruct (r_ckeys r); cbn; auto. destruct (concat_pages (g_rows g)); cbn; auto.
Qed.

(** binary pages, in the buffer or not *)
Lemma ready_shift : forall a b sk r r' ps cs pgs, ready r ps cs pgs -> r_file r = a ++ b -> Z.of_nat (List.length a) < r_pointer r ->
  shifted r r' (a ++ lines_text sk ++ b) (Z.of_nat (List.length (lines_text sk))) -> ready r' ps cs pgs.
Proof.
  intros a b sk r r' ps cs pgs [SU [B [E [SO SH]]]] RF L S. rewrite S. unfold ready. cbn [r_pointer r_file r_max r_buffer].
  split; [destruct SU; constructor; assumption|]. rewrite RF in *. split; [rewrite !app_length in *; lia|]. split; [|split; assumption]. rewrite <- E.
  replace (Z.to_nat (r_pointer r)) with (List.length a + (Z.to_nat (r_pointer r) - List.length a))%nat by lia.
  replace (Z.to_nat (r_pointer r + Z.of_nat (List.length (lines_text sk)))) with (List.length a + (List.length (lines_text sk) + (Z.to_nat (r_pointer r) - List.length a)))%nat by lia.
  rewrite !skipn_app. rewrite !(skipn_all2 a) by lia. cbn [app]. rewrite (skipn_all2 (lines_text sk)) by lia. cbn [app]. f_equal. lia.
Qed.
Lemma read_added : forall h ps cs buffer max pgs a b sk fuel n, header_ok h -> declares h ps cs -> Forall fixed_readable (params_of (h_lines h)) -> binary_header h -> names_ok ps cs ->
  Forall (sound max ps cs) pgs -> (buffer = true \/ Forall seen pgs) -> (List.length pgs < fuel)%nat -> Forall (fun pg => has_rows cs pg = true -> same_length n pg) pgs ->
  header_text h ++ List.concat (map (bytes ps cs) pgs) = a ++ b -> (List.length a < List.length (header_text h))%nat -> (a = [] \/ exists a', a = a' ++ [newline]) -> Forall ignorable sk ->
  exists r r', open_sdds (a ++ lines_text sk ++ b) buffer max = Ok r /\ read fuel r None = Some (r', Ok tt) /\
    r_parameters r' = Some (param_pages ps pgs) /\ r_columns r' = match cs with [] => None | _ => Some (col_pages cs pgs) end.
Proof.
  intros h ps cs buffer max pgs a b sk fuel n HO DC FR BH NO SO SH FU EQ AB LA A F.
  destruct (open_binary h ps cs (List.concat (map (bytes ps cs) pgs)) buffer max HO DC FR BH) as [r0 [E0 [_ [_ [_ [_ [RP _]]]]]]].
  destruct (open_ready h ps cs buffer max pgs HO DC FR BH SO SH) as [r [E [RE [P0 [R0 [C0 _]]]]]]. rewrite E in E0. injection E0 as <-.
  assert (L : Z.of_nat (List.length a) < r_pointer r) by (rewrite RP; lia). rewrite AB in E.
  destruct (open_inserted a b sk buffer max r A F E L) as [r1 [E1 S1]]. destruct (open_shape _ _ _ _ E) as [_ [_ [_ [_ [_ [RF _]]]]]].
  pose proof (ready_shift a b sk r r1 ps cs pgs RE RF L S1) as RE1.
  destruct (read_more r1 ps cs pgs [] fuel n RE1 NO FU) as [r2 [RD [_ [_ [A1 [A2 _]]]]]]; cbn [app]; auto; try (rewrite S1; assumption).
  exists r1, r2. repeat (split; [assumption|]). rewrite A2. cbn [app]. destruct cs; [|reflexivity]. rewrite S1. exact C0.
Qed.

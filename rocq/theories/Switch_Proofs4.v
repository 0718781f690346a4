(** Lemmas for the switchyard claims: elegant files in general. *)
From Coq Require Import List Bool Arith Ascii String ZArith Reals Lra Lia.
From Verif Require Import PyBase PyText Lte_Spec Sdds_Model Sdds_Spec Sdds_Proofs Sdds_Samples Sdds_Props Switch_Model Switch_Spec Switch_Proofs Switch_Proofs2.
Import ListNotations.
Open Scope Z_scope.

Lemma params_tables : forall ps pgs, tables (param_pages ps pgs) = Some (map (param_page ps) pgs).
Proof. intros. unfold param_pages. rewrite <- (map_map (param_page ps) Some). apply tables_some. Qed.
Lemma charge_missing : forall nb ps pgs, ~ In (T "Charge") (map fst ps) -> pgs <> [] -> charge_of nb (Some (param_pages ps pgs)) = Ok (Charge (Some 0%R)).
Proof.
  intros nb ps pgs N P. unfold charge_of. rewrite params_tables. destruct pgs as [|pg pgs]; [contradiction|]. cbn [map]. rewrite entries_missing; [reflexivity|discriminate|].
  intros a I. assert (E : a_names a = row_counts :: map fst ps) by (change (param_page ps pg :: map (param_page ps) pgs) with (map (param_page ps) (pg :: pgs)) in I; apply in_map_iff in I; destruct I as [q [<- _]]; reflexivity).
  rewrite E. intros [I'|I']; [discriminate|contradiction].
Qed.
Lemma charge_given : forall nb ps cs pgs, Forall (sound 100 ps cs) pgs -> NoDup (map fst ps) -> ~ In row_counts (map fst ps) -> In (T "Charge", Double) ps -> pgs <> [] ->
  exists bs, Forall2 (page_charge ps) pgs bs /\ charge_of nb (Some (param_pages ps pgs)) = Ok (match map (num nb) bs with [q] => Charge q | qs => Charges qs end).
Proof.
  intros nb ps cs pgs S ND NR I P. unfold charge_of. rewrite params_tables.
  assert (L : forall pg, In pg pgs -> List.length (pg_params pg) = List.length ps) by (intros pg J; rewrite Forall_forall in S; destruct (S pg J) as [F _]; apply fits_length in F; now rewrite map_length in F).
  destruct (entries_cells (T "Charge") (row_counts :: map fst ps) (map (param_page ps) pgs)) as [vs [E C]].
  - right. now apply (in_map fst) in I.
  - intros a J. apply in_map_iff in J. destruct J as [pg [<- J]]. split; [reflexivity|]. cbn [param_page a_rows]. constructor; [|constructor]. cbn [List.length]. rewrite map_length. now rewrite L.
  - assert (X : exists bs, vs = map VDouble bs /\ Forall2 (page_charge ps) pgs bs).
    { clear E P. revert vs C L. induction S as [|pg pgs SO S IH]; intros vs C L; cbn [map List.concat param_page a_rows app] in C; inversion C as [|? v ? vs' H C']; subst; [exists []; split; [reflexivity|constructor]|].
      destruct (IH _ C') as [bs [-> B]]; [intros q J; apply L; now right|]. destruct H as [H|H]; [discriminate|].
      destruct SO as [F _]. destruct (cell_double 100 (map snd ps) (pg_params pg) (map fst ps) (T "Charge") v F) as [b ->]; try assumption.
      - now rewrite !map_length.
      - now rewrite combine_pairs.
      - exists (b :: bs). split; [reflexivity|]. constructor; assumption. }
    destruct X as [bs [-> B]]. exists bs. split; [assumption|]. destruct pgs as [|pg pgs]; [contradiction|]. cbn [map] in *. rewrite E. rewrite map_map.
    rewrite (all_ok_map _ _ _ (num nb)) by reflexivity. cbn [rbind]. destruct (map (num nb) bs) as [|q [|q2 qs]]; reflexivity.
Qed.
Lemma charge_reads : forall nb ps cs pgs, Forall (sound 100 ps cs) pgs -> NoDup (map fst ps) -> ~ In row_counts (map fst ps) -> charge_readable ps -> pgs <> [] -> exists q, charge_of nb (Some (param_pages ps pgs)) = Ok q.
Proof.
  intros nb ps cs pgs S ND NR C P. destruct (in_dec (list_eq_dec Ascii.ascii_dec) (T "Charge") (map fst ps)) as [I|I].
  - destruct (charge_given nb ps cs pgs S ND NR (C I) P) as [bs [_ E]]. eauto.
  - exists (Charge (Some 0%R)). now apply charge_missing.
Qed.
Lemma elegant_loads : forall h ps cs pgs fuel n, header_for h ps cs -> binary_header h -> Forall (sound 100 ps cs) pgs -> (List.length pgs < fuel)%nat -> Forall (same_length n) pgs -> (0 < n)%nat -> elegant_columns cs ->
  loads (binary_file h ps cs pgs) true 100 None fuel (Some (param_pages ps pgs)) (Some (map (fun pg => Some (col_page cs pg)) pgs)).
Proof.
  intros h ps cs pgs fuel n HF BH SO FU EQ N EC. pose proof (C56_pages_partial h ps cs true 100 pgs fuel n HF BH SO (or_introl eq_refl) FU EQ N) as H.
  unfold all_columns in H. destruct cs as [|c cs]; [destruct (EC (T "x")); cbn; tauto|exact H].
Qed.
Lemma elegant_pages : forall nb h ps cs pgs fuel n, header_for h ps cs -> binary_header h -> Forall (sound 100 ps cs) pgs -> (List.length pgs < fuel)%nat -> Forall (same_length n) pgs -> (0 < n)%nat -> elegant_columns cs ->
  charge_readable ps -> pgs <> [] -> (List.length pgs = 1%nat /\ (1 < n)%nat) \/ ((1 < List.length pgs)%nat /\ n = 1%nat) ->
  exists s q, read_elegant nb fuel (binary_file h ps cs pgs) = Some (Ok s) /\ Forall2 (particle_of nb (map fst cs)) (rows_of_pages pgs) (coordinates s) /\
    charge_of nb (Some (param_pages ps pgs)) = Ok q /\ total_charge s = q.
Proof.
  intros nb h ps cs pgs fuel n HF BH SO FU EQ N EC CR NE H. assert (LD := elegant_loads h ps cs pgs fuel n HF BH SO FU EQ N EC).
  destruct HF as [_ [_ [_ [N1 [N2 [N3 N4]]]]]].
  destruct (charge_reads nb ps cs pgs SO) as [q Q]; auto.
  
  destruct (interpreted_pages nb ps cs pgs (param_pages ps pgs) q) as [s [I [P C]]]; auto.
  - split; [assumption|]. split; assumption.
  - destruct H as [[H1 H2]|[H1 H2]].
    + left. destruct pgs as [|pg [|pg' pgs]]; try discriminate. exists pg. split; [reflexivity|]. inversion EQ as [|? ? E1 _]; subst. unfold same_length in E1. lia.
    + right. split; [lia|]. now subst n.
  - exists s, q. rewrite (read_loaded nb fuel _ _ _ LD). split; [now rewrite I|]. auto.
Qed.
Lemma elegant_single : forall nb h ps cs pg fuel, header_for h ps cs -> binary_header h -> sound 100 ps cs pg -> (1 < fuel)%nat -> List.length (pg_rows pg) = 1%nat -> elegant_columns cs -> charge_readable ps ->
  read_elegant nb fuel (binary_file h ps cs [pg]) = Some (Err IndexError).
Proof.
  intros nb h ps cs pg fuel HF BH SO FU EQ EC CR. assert (SS : Forall (sound 100 ps cs) [pg]) by (constructor; [assumption|constructor]).
  assert (LD := elegant_loads h ps cs [pg] fuel 1 HF BH SS ltac:(cbn; lia) ltac:(constructor; [exact EQ|constructor]) ltac:(lia) EC).
  destruct HF as [_ [_ [_ [N1 [N2 [N3 N4]]]]]].
  destruct (charge_reads nb ps cs [pg] SS) as [q Q]; auto; try discriminate.
  
  rewrite (read_loaded nb fuel _ _ _ LD). unfold interpreted. rewrite Q. cbn [rbind map tables option_map]. rewrite (column_one_row nb ps cs pg (T "x")); [reflexivity| | |assumption].
  - split; [assumption|]. split; assumption.
  - apply EC. cbn. tauto.
Qed.
Lemma elegant_several : forall nb h ps cs pgs fuel n, header_for h ps cs -> binary_header h -> Forall (sound 100 ps cs) pgs -> (List.length pgs < fuel)%nat -> Forall (same_length n) pgs -> (1 < n)%nat -> (1 < List.length pgs)%nat ->
  elegant_columns cs -> charge_readable ps -> read_elegant nb fuel (binary_file h ps cs pgs) = Some (Err ValueError).
Proof.
  intros nb h ps cs pgs fuel n HF BH SO FU EQ N M EC CR. assert (LD := elegant_loads h ps cs pgs fuel n HF BH SO FU EQ ltac:(lia) EC).
  destruct HF as [_ [_ [_ [N1 [N2 [N3 N4]]]]]]. assert (NE : pgs <> []) by (destruct pgs; [cbn in M; lia|discriminate]).
  destruct (charge_reads nb ps cs pgs SO) as [q Q]; auto.
  
  rewrite (read_loaded nb fuel _ _ _ LD). unfold interpreted. rewrite Q. cbn [rbind]. rewrite <- (map_map (col_page cs) Some), tables_some.
  assert (K : map (col_page cs) pgs <> []) by (destruct pgs; [contradiction|discriminate]).
  assert (X : column_of nb (map (col_page cs) pgs) (T "x") = Err ValueError).
  { apply (column_many_pages nb ps cs pgs); [split; [assumption|split; assumption]|apply EC; cbn; tauto|assumption|]. destruct pgs as [|pg pgs]; [contradiction|]. exists pg. split; [now left|].
    inversion EQ as [|? ? E1 _]; subst. unfold same_length in E1. lia. }
  destruct (map (col_page cs) pgs) as [|a l]; [contradiction|]. rewrite X. reflexivity.
Qed.

(** momenta *)
Lemma total_longitudinal : forall a b c, c = total a b c <-> a = 0%R /\ b = 0%R /\ (0 <= c)%R.
Proof.
  intros a b c. unfold total. split.
  - intros E. assert (P : (0 <= c)%R) by (rewrite E; apply sqrt_pos).
    assert (Q : (c * c = a * a + b * b + c * c)%R).
    { rewrite E at 1 2. apply sqrt_sqrt. pose proof (Rle_0_sqr a). pose proof (Rle_0_sqr b). pose proof (Rle_0_sqr c). unfold Rsqr in *. lra. }
    pose proof (Rle_0_sqr a) as A. pose proof (Rle_0_sqr b) as B. unfold Rsqr in *.
    split; [|split; [|exact P]]; apply Rsqr_eq_0; unfold Rsqr; lra.
  - intros [-> [-> P]]. replace (0 * 0 + 0 * 0 + c * c)%R with (c * c)%R by ring. now rewrite sqrt_square.
Qed.

(** Lemmas for the SDDS claims: rows with strings, merging, and whole pages of binary data. *)
From Coq Require Import List Bool Arith Ascii String ZArith Reals Lia.
From Verif Require Import PyBase PyText Lte_Spec Sdds_Model Sdds_Spec Sdds_Proofs.
Import ListNotations.
Open Scope Z_scope.

Lemma nodup_app_l : forall {A} (a b : list A), NoDup (a ++ b) -> NoDup a.
Proof. induction a as [|x a IH]; intros b H; [constructor|]. inversion H; subst. constructor; [|eauto]. intros I. apply H2. apply in_or_app. now left. Qed.
Lemma nodup_app_r : forall {A} (a b : list A), NoDup (a ++ b) -> NoDup b.
Proof. induction a as [|x a IH]; intros b H; [assumption|]. inversion H; subst. eauto. Qed.
Lemma nodup_app_not : forall {A} (a b : list A) x, NoDup (a ++ b) -> In x a -> In x b -> False.
Proof.
  induction a as [|y a IH]; intros b x H I J; [contradiction|]. inversion H; subst. destruct I as [->|I]; [|eauto].
  apply H2. apply in_or_app. now right.
Qed.

Lemma nodup_snoc : forall {A} (l : list A) x, NoDup l -> ~ In x l -> NoDup (l ++ [x]).
Proof.
  induction l as [|y l IH]; intros x H N; [repeat constructor; auto|]. inversion H; subst. cbn. constructor.
  - intros I. apply in_app_or in I. destruct I as [I|[->|[]]]; [contradiction|]. apply N. now left.
  - apply IH; [assumption|]. intros I. apply N. now right.
Qed.

(* ------------------------------------------------------------------ *)
(** Groups put together *)
Lemma item_size_app : forall g h a b, item_size g = Ok a -> item_size h = Ok b -> item_size (g ++ h) = Ok (a + b).
Proof.
  induction g as [|[n k] g IH]; intros h a b G H; cbn in G |- *.
  - injection G as <-. now rewrite H.
  - destruct (size_of k) as [c| |]; cbn in *; try discriminate. destruct (item_size g) as [d| |]; cbn in G; try discriminate.
    injection G as <-. rewrite (IH h d b) by auto. cbn. f_equal. lia.
Qed.
Lemma decode_row_cat : forall g h b c, item_size g = Ok (Z.of_nat (List.length b)) -> decode_row (g ++ h) (b ++ c) = decode_row g b ++ decode_row h c.
Proof.
  induction g as [|[n k] g IH]; intros h b c G; cbn in G.
  - injection G as G. destruct b; [reflexivity|cbn in G; lia].
  - destruct (size_of k) as [z| |] eqn:S; cbn in G; try discriminate. destruct (item_size g) as [d| |] eqn:I; cbn in G; try discriminate.
    injection G as G. apply size_width in S. destruct S as [W P]. pose proof (item_size_nonneg _ _ I).
    cbn [app decode_row]. assert (Q : (width k <= List.length b)%nat) by lia.
    rewrite firstn_app, skipn_app. replace (width k - List.length b)%nat with O by lia. cbn [firstn skipn]. rewrite app_nil_r.
    f_equal. apply IH. try rewrite I. f_equal. rewrite skipn_length. lia.
Qed.
Lemma decode_row_length : forall g b, List.length (decode_row g b) = List.length g.
Proof. induction g as [|[n k] g IH]; intros b; cbn; auto. Qed.
Lemma fill_names : forall prev g, map fst (fill prev g) = map fst g.
Proof.
  intros [a|] g; [|reflexivity]. unfold fill. destruct (lookup a record_length) as [[]|]; try reflexivity.
  destruct g as [|[n [| | | | |[|]]] g]; reflexivity.
Qed.
Lemma fill_snoc : forall prev g n k, is_string k = false -> fill prev (g ++ [(n, k)]) = fill prev g ++ [(n, k)].
Proof.
  intros prev [|[m j] g] n k K; cbn [app].
  - rewrite fill_plain by assumption. destruct prev as [a|]; [|reflexivity]. unfold fill. destruct (lookup a record_length) as [[]|]; reflexivity.
  - destruct prev as [a|]; [|reflexivity]. unfold fill. destruct (lookup a record_length) as [[]|]; try reflexivity.
    destruct j as [| | | | |[|]]; reflexivity.
Qed.
Lemma dtype_nodup : forall g, NoDup (map fst g) -> dtype_size g = item_size g.
Proof. intros g H. unfold dtype_size. now rewrite distinct_nodup. Qed.

(* ------------------------------------------------------------------ *)
(** One row with strings in it *)
Fixpoint col_arrays (names : list text) (cv : list value) (nks : list (text * kind)) (vs : list value) : list array :=
  match nks, vs with
  | (n, k) :: nks, v :: vs =>
      if is_str k then {| a_names := names ++ [record_length]; a_rows := [cv ++ [VInt (Z.of_nat (List.length (payload k v)))]] |} :: col_arrays [n] [v] nks vs
      else col_arrays (names ++ [n]) (cv ++ [v]) nks vs
  | _, _ => [{| a_names := names; a_rows := [cv] |}]
  end.
Definition partial_group (prev : option array) (cur : group) (cb : text) (cv : list value) : Prop :=
  item_size (fill prev cur) = Ok (Z.of_nat (List.length cb)) /\ decode_row (fill prev cur) cb = cv.

Lemma position_of_last : forall n l, ~ In n l -> position_of n (l ++ [n]) = Some (List.length l).
Proof.
  induction l as [|x l IH]; intros H; cbn; [now rewrite teqb_refl|].
  rewrite teqb_neq by (intros ->; apply H; now left). rewrite IH; [reflexivity|]. intros I. apply H. now right.
Qed.

Lemma fetch_cols : forall max nks vs cur cb cv prev src position s,
  Forall2 (fits max) (map snd nks) vs -> partial_group prev cur cb cv ->
  NoDup (map fst cur ++ map fst nks) -> ~ In record_length (map fst cur ++ map fst nks) ->
  (cur = [] -> nks <> []) -> (cur <> [] -> (0 < List.length cb)%nat) ->
  ahead src position (cb ++ stored_all (map snd nks) vs ++ s) ->
  exists src' position', fetch_groups false true false src position prev (column_groups cur (map coded nks)) =
    Ok (col_arrays (map fst cur) cv nks vs, src', position') /\ ahead src' position' s /\ buffered src' = buffered src.
Proof.
  induction nks as [|[n k] nks IH]; intros vs cur cb cv prev src position s F [P1 P2] ND NR NE PB A.
  - inversion F; subst. cbn [map column_groups fetch_groups stored_all app col_arrays] in *.
    assert (C : cur <> []) by (intros ->; now apply NE).
    rewrite app_nil_r in ND.
    destruct (fetch_one true false src position (fill prev cur) (List.length cb) cb s) as [src' [p' [F1 [A1 B1]]]]; auto.
    { rewrite dtype_nodup; [assumption|]. now rewrite fill_names. }
    cbn [fetch_groups]. rewrite F1. cbn [rbind]. rewrite fill_names. eauto.
  - cbn [map snd] in F. destruct vs as [|v vs']; [inversion F|].
    assert (H : fits max k v) by (inversion F; assumption). assert (F' : Forall2 (fits max) (map snd nks) vs') by (inversion F; assumption).
    cbn [map stored_all snd] in A.
    rewrite (stored_payload max) in A by assumption. destruct (payload_size max k v H) as [Sz Pos]. cbn [col_arrays].
    destruct (is_str k) eqn:K.
    + destruct k; try discriminate. cbn [map coded column_groups dt_of fst snd].
      set (len := List.length (payload Str v)) in *. rewrite <- !app_assoc in A.
      assert (Sz2 : item_size (fill prev cur ++ [(record_length, I4)]) = Ok (Z.of_nat (List.length (cb ++ little 4 (Z.of_nat len))))).
      { rewrite app_length, little_length. rewrite (item_size_app _ [(record_length, I4)] _ 4 P1 eq_refl). f_equal. lia. }
      assert (FS : fill prev (cur ++ [(record_length, I4)]) = fill prev cur ++ [(record_length, I4)]) by (apply fill_snoc; reflexivity).
      destruct (fetch_one true false src position (fill prev cur ++ [(record_length, I4)]) (List.length (cb ++ little 4 (Z.of_nat len)))
                  (cb ++ little 4 (Z.of_nat len)) (payload Str v ++ stored_all (map snd nks) vs' ++ s)) as [src1 [p1 [F1 [A1 B1]]]].
      { rewrite <- app_assoc. exact A. }
      { rewrite dtype_nodup; [exact Sz2|]. rewrite map_app, fill_names. apply nodup_snoc; [now apply nodup_app_l in ND|].
        intros I. apply NR. apply in_or_app. now left. }
      { rewrite app_length, little_length. lia. }
      { reflexivity. }
      cbn [fetch_groups]. rewrite FS, F1. cbn [rbind].
      set (arr := {| a_names := _; a_rows := _ |}) in *.
      assert (LR : lookup arr record_length = Some (VInt (Z.of_nat len))).
      { unfold lookup, arr. cbn [a_rows a_names]. rewrite map_app, fill_names. cbn [map fst]. rewrite position_of_last.
        2: { intros I. apply NR. apply in_or_app. now left. }
        rewrite decode_row_cat by assumption. rewrite nth_error_app2 by (rewrite decode_row_length, <- (map_length fst (fill prev cur)), fill_names; lia).
        rewrite decode_row_length, <- (map_length fst (fill prev cur)), fill_names, Nat.sub_diag. cbn [decode_row nth_error decode width].
        rewrite firstn_all2 by (rewrite little_length; lia). rewrite signed_little4; [reflexivity|].
        pose proof (fits_length max Str v H eq_refl). unfold len. lia. }
      destruct (IH vs' [(n, DStr None)] (payload Str v) [v] (Some arr) src1 p1 s) as [src2 [p2 [F2 [A2 B2]]]]; auto.
      { split.
        - cbn [fill]. rewrite LR. cbn [item_size]. destruct v; cbn in H; try contradiction. cbn [payload] in *.
          cbn [filled] in Sz. unfold len in *. rewrite Sz. cbn. f_equal. lia.
        - cbn [fill]. rewrite LR. replace (DStr (Some (Z.of_nat len))) with (filled Str v) by (destruct v; cbn in H; try contradiction; reflexivity).
          rewrite <- (app_nil_r (payload Str v)), (decode_filled max) by assumption. reflexivity. }
      { apply nodup_app_r in ND. exact ND. }
      { intros I. apply NR. apply in_or_app. right. exact I. }
      { discriminate. }
      cbn [map fst] in F2. rewrite F2. cbn [rbind]. exists src2, p2. split; [|split; [assumption|congruence]].
      do 3 f_equal. f_equal. unfold arr. f_equal; [now rewrite map_app, fill_names|].
      rewrite decode_row_cat by assumption. cbn [decode_row decode width]. rewrite P2.
      rewrite firstn_all2 by (rewrite little_length; lia). rewrite signed_little4; [reflexivity|].
      pose proof (fits_length max Str v H eq_refl). unfold len. lia.
    + assert (NS : is_string (filled k v) = false) by (destruct k, v; cbn in *; try contradiction; try discriminate; reflexivity).
      assert (G : column_groups cur (map coded ((n, k) :: nks)) = column_groups (cur ++ [(n, filled k v)]) (map coded nks)).
      { destruct k, v; cbn in H |- *; try contradiction; try discriminate; reflexivity. }
      rewrite G. cbn [app] in A.
      destruct (IH vs' (cur ++ [(n, filled k v)]) (cb ++ payload k v) (cv ++ [v]) prev src position s) as [src2 [p2 [F2 [A2 B2]]]]; auto.
      { split; rewrite fill_snoc by assumption.
        - rewrite app_length, Nat2Z.inj_add. apply item_size_app; [assumption|]. cbn [item_size]. rewrite Sz. cbn. f_equal. lia.
        - rewrite decode_row_cat by assumption. rewrite P2. f_equal. rewrite <- (app_nil_r (payload k v)), (decode_filled max) by assumption. reflexivity. }
      { rewrite map_app, <- app_assoc. exact ND. }
      { rewrite map_app, <- app_assoc. exact NR. }
      { intros E. destruct cur; discriminate. }
      { intros _. rewrite app_length. lia. }
      { rewrite <- !app_assoc in *. exact A. }
      rewrite map_app in F2. cbn [map fst] in F2. rewrite F2. eauto.
Qed.

(* ------------------------------------------------------------------ *)
(** Merging *)
Definition named (nv : text * value) : bool := negb (teqb (fst nv) record_length).
Definition flat (data : list array) : list (text * value) := List.concat (map (fun a => combine (a_names a) (hd [] (a_rows a))) data).
Definition single (a : array) : Prop := exists row, a_rows a = [row] /\ List.length row = List.length (a_names a).

Lemma merged_value_none : forall max n data, (forall a, In a data -> ~ In n (a_names a)) -> merged_value max n data = Ok None.
Proof.
  induction data as [|a data IH]; intros H; [reflexivity|]. cbn [merged_value]. rewrite IH by (intros b I; apply H; now right). cbn [rbind].
  assert (P : position_of n (a_names a) = None).
  { specialize (H a (or_introl eq_refl)). induction (a_names a) as [|x l IHl]; [reflexivity|]. cbn.
    rewrite teqb_neq by (intros ->; apply H; now left). rewrite IHl; [reflexivity|]. intros I. apply H. now right. }
  now rewrite P.
Qed.
Lemma position_found : forall n v ns row, In (n, v) (combine ns row) -> NoDup (map fst (filter named (combine ns row))) -> n <> record_length ->
  exists i, position_of n ns = Some i /\ nth_error row i = Some v.
Proof.
  induction ns as [|m ns IH]; intros row I ND NR; [contradiction|]. destruct row as [|x row]; [contradiction|]. cbn [combine] in *.
  destruct (text_dec m n) as [->|E].
  - exists 0%nat. cbn. rewrite teqb_refl. split; [reflexivity|]. destruct I as [I|I]; [now injection I as ->|].
    exfalso. cbn [filter] in ND. unfold named at 1 in ND. cbn [fst] in ND. rewrite teqb_neq in ND by assumption. cbn [negb map fst] in ND.
    inversion ND as [|? ? H _]; subst. apply H. apply in_map_iff. exists (n, v). split; [reflexivity|]. apply filter_In. split; [assumption|].
    unfold named. cbn. now rewrite teqb_neq.
  - destruct I as [I|I]; [injection I as -> ->; contradiction|].
    assert (ND' : NoDup (map fst (filter named (combine ns row)))).
    { cbn [filter] in ND. destruct (named (m, x)); [now inversion ND|assumption]. }
    destruct (IH row I ND' NR) as [i [A B]]. exists (S i). cbn. rewrite teqb_neq by assumption. rewrite A. auto.
Qed.
Lemma in_combine_names : forall n (ns : list text) (row : list value), List.length row = List.length ns -> In n ns -> exists v, In (n, v) (combine ns row).
Proof.
  induction ns as [|m ns IH]; intros row L I; [contradiction|]. destruct row as [|x row]; [discriminate|]. cbn in L |- *.
  destruct I as [->|I]; [eauto|]. destruct (IH row ltac:(lia) I) as [v V]. eauto.
Qed.
Lemma merged_value_found : forall max n v data, Forall single data -> NoDup (map fst (filter named (flat data))) ->
  n <> record_length -> In (n, v) (flat data) -> as_unicode max v = Ok v -> merged_value max n data = Ok (Some v).
Proof.
  intros max n v data S ND NR I U. induction data as [|a data IH]; [contradiction|]. inversion S as [|? ? [row [R L]] S']; subst.
  unfold flat in *. cbn [map List.concat] in *. rewrite filter_app, map_app in ND. cbn [merged_value].
  apply in_app_or in I. destruct I as [I|I].
  - rewrite merged_value_none.
    + cbn [rbind]. rewrite R in *. cbn [hd] in *. apply nodup_app_l in ND. destruct (position_found _ _ _ _ I ND NR) as [i [P Q]].
      rewrite P, Q, U. reflexivity.
    + intros b B C. rewrite Forall_forall in S'. destruct (S' b B) as [row' [R' L']].
      destruct (in_combine_names n (a_names b) row' L' C) as [w W].
      apply (nodup_app_not _ _ n ND).
      * apply in_map_iff. exists (n, v). split; [reflexivity|]. apply filter_In. split; [assumption|]. unfold named. cbn. now rewrite teqb_neq.
      * apply in_map_iff. exists (n, w). split; [reflexivity|]. apply filter_In. split.
        -- apply in_concat. exists (combine (a_names b) (hd [] (a_rows b))). split; [apply in_map_iff; eauto|]. rewrite R'. exact W.
        -- unfold named. cbn. now rewrite teqb_neq.
  - rewrite IH; auto. apply nodup_app_r in ND. exact ND.
Qed.
Lemma merged_row_flat : forall max data, Forall single data -> NoDup (map fst (filter named (flat data))) ->
  (forall nv, In nv (filter named (flat data)) -> as_unicode max (snd nv) = Ok (snd nv)) ->
  forall P g, incl P (filter named (flat data)) -> map fst g = map fst P -> merged_row max g data = Ok (map snd P).
Proof.
  intros max data S ND U P. induction P as [|[n v] P IH]; intros g I E.
  - destruct g; [reflexivity|discriminate].
  - destruct g as [|[m k] g]; [discriminate|]. cbn [map fst] in E. assert (E1 : m = n) by congruence. assert (E2 : map fst g = map fst P) by congruence. subst m. cbn [merged_row].
    assert (J : In (n, v) (filter named (flat data))) by (apply I; now left).
    pose proof J as J'. apply filter_In in J'. destruct J' as [J1 J2].
    rewrite (merged_value_found max n v data); auto.
    + cbn [rbind]. rewrite (IH g); [reflexivity| |assumption]. intros x X. apply I. now right.
    + intros ->. unfold named in J2. cbn [fst] in J2. rewrite teqb_refl in J2. discriminate J2.
    + apply (U (n, v) J).
Qed.
Lemma readable_row : forall max ns row, (forall nv, In nv (filter named (combine ns row)) -> as_unicode max (snd nv) = Ok (snd nv)) -> readable max ns row = Ok tt.
Proof.
  induction ns as [|n ns IH]; intros row H; [reflexivity|]. destruct row as [|v row]; [reflexivity|]. cbn [readable]. cbn [combine filter] in H. unfold named at 1 in H. cbn [fst] in H.
  destruct (teqb n record_length); cbn [negb] in H; cbn [rbind].
  - now apply IH.
  - pose proof (H (n, v) (or_introl eq_refl)) as E. cbn [snd] in E. rewrite E. cbn [rbind]. apply IH. intros nv I. apply H. now right.
Qed.
Lemma mergeable_flat : forall max all data, Forall single data -> incl (map fst (filter named (flat data))) all ->
  (forall nv, In nv (filter named (flat data)) -> as_unicode max (snd nv) = Ok (snd nv)) -> mergeable max all data = Ok tt.
Proof.
  intros max all data S. induction S as [|a data [row [R L]] S IH]; intros I U; [reflexivity|]. unfold flat in *. cbn [map List.concat] in *. rewrite R in *. cbn [hd] in *.
  rewrite filter_app in *. rewrite map_app in I. cbn [mergeable]. rewrite R.
  assert (K : forallb (fun n => existsb (teqb n) all) (filter (fun n => negb (teqb n record_length)) (a_names a)) = true).
  { apply forallb_forall. intros n N. apply filter_In in N. destruct N as [N1 N2]. apply existsb_exists. exists n. split; [|apply teqb_refl].
    apply I, in_or_app. left. destruct (in_combine_names n (a_names a) row L N1) as [v V]. apply in_map_iff. exists (n, v). split; [reflexivity|]. apply filter_In. split; assumption. }
  rewrite K. rewrite (readable_row max (a_names a) row) by (intros nv J; apply U, in_or_app; now left).
  rewrite IH.
  - destruct (filter _ (a_names a)); reflexivity.
  - intros x X. apply I, in_or_app. now right.
  - intros nv J. apply U, in_or_app. now right.
Qed.
Lemma merge_flat : forall max gs data P, (2 <= List.length data)%nat -> Forall single data ->
  filter named (flat data) = P -> NoDup (map fst P) -> (forall nv, In nv P -> as_unicode max (snd nv) = Ok (snd nv)) ->
  filter (fun n => negb (teqb n record_length)) (map fst (List.concat gs)) = map fst P ->
  merge max gs data = Ok {| a_names := map fst P; a_rows := [map snd P] |}.
Proof.
  intros max gs data P L S E ND U G. subst P.
  assert (N : map fst (merged max gs) = map fst (filter named (flat data))).
  { unfold merged. rewrite map_map. cbn [sized fst]. rewrite <- G. clear. induction (List.concat gs) as [|x l IH]; [reflexivity|].
    cbn [filter map]. destruct (negb (teqb (fst x) record_length)); cbn [map]; now rewrite IH. }
  unfold merge. destruct data as [|a [|b data]]; cbn in L; [lia|lia|].
  rewrite N, distinct_nodup by assumption. rewrite (mergeable_flat max _ (a :: b :: data) S) by (assumption || apply incl_refl). cbn [rbind].
  rewrite (merged_row_flat max (a :: b :: data) S ND U (filter named (flat (a :: b :: data)))); [reflexivity|apply incl_refl|exact N].
Qed.
Lemma as_unicode_fits : forall max k v, fits max k v -> as_unicode max v = Ok v.
Proof.
  intros max k v H. destruct k, v; cbn [fits] in H; try contradiction; try reflexivity. cbn [as_unicode]. destruct H as [_ [L [_ [C _]]]].
  assert (E : forallb (fun c => (nat_of_ascii c <? 128)%nat) t = true) by (apply forallb_forall; intros c I; apply Nat.ltb_lt; auto).
  rewrite E. rewrite firstn_all2; [reflexivity|lia].
Qed.

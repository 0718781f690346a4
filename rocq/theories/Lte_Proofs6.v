(** Lemmas about line definitions: the whole import. *)
From Coq Require Import List Reals Bool Arith String Ascii ZArith Lia.
From Verif Require Import PyBase PyDict PyText Line_Model Lte_Model Lte_Spec Line_Proofs Lte_Proofs Lte_Proofs2 Lte_Proofs3 Lte_Proofs4 Lte_Proofs5.
Import ListNotations.

(** The order in which the code unfolds items. *)
Inductive unfO (es : list entry) : list item -> list text -> list text -> Prop :=
| O_nil : unfO es [] [] []
| O_element : forall x d is els uses, In (Define d) es -> d_name d = the_name x ->
    unfO es is els uses -> unfO es (One x :: is) (the_name x :: els) uses
| O_line : forall x w before items tail is els1 uses1 els2 uses2, In (Line w before items tail) es -> bare w = the_name x ->
    name_written x = the_name x ->
    unfO es items els1 uses1 -> unfO es is els2 uses2 ->
    unfO es (One x :: is) (els1 ++ els2) (the_name x :: uses1 ++ uses2)
| O_repeat : forall i k xs is els uses, expanded i = Some (k, xs) ->
    unfO es (map One (List.concat (List.repeat xs (count k))) ++ is) els uses -> unfO es (i :: is) els uses.

Lemma unfO_app : forall es a e1 u1, unfO es a e1 u1 -> forall b e2 u2, unfO es b e2 u2 -> unfO es (a ++ b) (e1 ++ e2) (u1 ++ u2).
Proof.
  intros es a e1 u1 H. induction H as [|x d is els uses I N _ IH|x w before items tail is els1 uses1 els2 uses2 I W1 W2 H1 _ _ IH2|i k xs is els uses E _ IH]; intros b e2 u2 Hb.
  - exact Hb.
  - cbn [app]. econstructor; [exact I|exact N|]. apply IH. exact Hb.
  - cbn [app]. rewrite <- !app_assoc. econstructor; [exact I|exact W1|exact W2|exact H1|]. apply IH2. exact Hb.
  - cbn [app]. econstructor; [exact E|]. rewrite app_assoc. apply IH. exact Hb.
Qed.
Lemma unfO_repeat : forall es xs e u n, unfO es (map One xs) e u ->
  unfO es (map One (List.concat (List.repeat xs n))) (List.concat (List.repeat e n)) (List.concat (List.repeat u n)).
Proof.
  intros es xs e u n H. induction n as [|n IH]; [constructor|]. cbn [List.repeat List.concat]. rewrite map_app. apply unfO_app; assumption.
Qed.
Lemma unfolds_O : forall es items els uses, unfolds es items els uses -> unfO es items els uses.
Proof.
  intros es items els uses H. induction H as [|x d is els uses I N _ IH|x w before items tail is els1 uses1 els2 uses2 I W1 W2 _ IH1 _ IH2|k x is els1 uses1 els2 uses2 _ IH1 _ IH2|k xs is els1 uses1 els2 uses2 _ IH1 _ IH2].
  - constructor.
  - econstructor; eassumption.
  - econstructor; eassumption.
  - apply (O_repeat es _ k [x]); [reflexivity|]. apply unfO_app; [|exact IH2]. apply unfO_repeat. exact IH1.
  - apply (O_repeat es _ k xs); [reflexivity|]. apply unfO_app; [|exact IH2]. apply unfO_repeat. exact IH1.
Qed.

(* ------------------------------------------------------------------ *)
(** What the dictionary of lines and the definitions have to provide. *)
Definition body (items : list item) (tail : text) : text := "("%char :: rest_text items tail.
Record provides (es : list entry) (lines : line_dict) (defs : list text) : Prop := {
  pr_line : forall w before items tail, In (Line w before items tail) es ->
    dget otext_dec lines (Some (bare w)) = Some (body items tail) /\ items <> [] /\ Forall item_ok items /\ blank tail = true;
  pr_quoted : forall n, In quote n -> dget otext_dec lines (Some n) = None;
  pr_element : forall d, In (Define d) es -> dget otext_dec lines (Some (d_name d)) = None /\
    ~ In quote (d_name d) /\ ~ In apostrophe (d_name d) /\
    exists ps, find_parameters (definition_of defs (d_name d)) = Ok (d_type d, ps) /\ ready es (d_name d) (str (d_type d)) (to_params ps)
}.

Lemma loop_repeat : forall f lines defs h s stack flag nend k s1 s2, blank s = false -> blank s2 = false ->
  take_digits s = Ok (k, s1) -> k <> [] -> expand_line s1 (Z.to_nat (digits_value 0 k)) = Ok s2 -> take_digits s2 = Ok ([], s2) ->
  parse_loop (S f) lines defs h 0 s stack flag nend = parse_loop (S f) lines defs h 0 s2 stack flag nend.
Proof.
  intros f lines defs h s stack flag nend k s1 s2 B B2 T1 N X T2. cbn [parse_loop]. rewrite B, B2, T1, T2.
  destruct k as [|c k]; [contradiction|]. rewrite X. reflexivity.
Qed.

Lemma take_shape : forall s x is, shape s (One x :: is) -> take_digits s = Ok ([], s).
Proof.
  intros s x is H. destruct (shape_name s x is H) as (sep & r & -> & X & _). destruct (name_head x X) as (c & t & E & D). rewrite E.
  apply take_none. exact D.
Qed.

Lemma find_nend : forall s e, match find1 comma s with Some n => Some n | None => find1 close s end = Some e ->
  forall nend, match find1 comma s with Some n => Some n | None => match find1 close s with Some n => Some n | None => nend end end = Some e.
Proof. intros s e H nend. destruct (find1 comma s); [exact H|]. rewrite H. reflexivity. Qed.

Lemma main : forall es lines defs, provides es lines defs -> forall items els uses, unfO es items els uses ->
  forall s, shape s items -> forall h out used flag nend stack, good es h out used flag -> NoDup (used ++ uses) ->
  exists k h' nend', good es h' (out ++ els) (used ++ uses) false /\
    forall f, parse_loop (k + S f) lines defs h 0 s stack flag nend =
      match stack with [] => (h', Ok tt) | s' :: st => parse_loop (S f) lines defs h' 0 s' st false nend' end.
Proof.
  intros es lns defs PR items els uses U.
  induction U as [|x d is els uses I N U IH|x w before items tail is els1 uses1 els2 uses2 I W1 W2 U1 IH1 U2 IH2|i k xs is els uses E U IH]; intros s SH h out used flag nend stack G ND.
  - exfalso. remember (@nil item) as l eqn:E. destruct SH as [items t Ni _ _|xs t Nx _ _]; [contradiction|]. destruct xs; [contradiction|discriminate].
  - destruct (pr_element _ _ _ PR d I) as (GL & Nq & Na & ps & FP & RD). rewrite N in *.
    destruct (good_element es h out used flag (the_name x) (str (d_type d)) (to_params ps) G RD) as (h1 & AE & G1).
    pose proof (shape_visible s _ SH) as V. pose proof (take_shape s x is SH) as TD.
    destruct (shape_name s x is SH) as (sep & r & Es & X & SC & Rest).
    assert (ST : forall f, parse_loop (S f) lns defs h 0 s stack flag nend =
      if blank r then match stack with [] => parse_loop f lns defs h1 0 r stack flag (Some (List.length (name_text x))) | s' :: st => parse_loop f lns defs h1 0 s' st false (Some (List.length (name_text x))) end
      else parse_loop f lns defs h1 0 r stack flag (Some (List.length (name_text x)))).
    { intros f. cbn [parse_loop]. rewrite V, TD. pose proof (find_end x sep r X SC) as FE. rewrite <- Es in FE. rewrite (find_nend s _ FE). cbv zeta.
      replace (trim (firstn (List.length (name_text x)) s)) with (name_written x) by (rewrite Es, firstn_exact; symmetry; apply name_trim; exact X).
      assert (GW : dget otext_dec lns (Some (name_written x)) = None).
      { destruct X as (_ & _ & _ & _ & [Q|Q]); change (bare (name_written x)) with (the_name x) in Q; [rewrite Q; exact GL|].
        apply (pr_quoted _ _ _ PR). rewrite Q. left; reflexivity. }
      rewrite GW. rewrite (remove1_id apostrophe).
      2:{ intros J. destruct X as (_ & _ & _ & _ & Q). destruct (spelled_chars _ _ Q J) as [K|K]; [exact (Na K)|discriminate]. }
      change (remove1 quote (name_written x)) with (the_name x). rewrite FP.
      change (string_of_list_ascii (the_name x)) with (str (the_name x)). change (string_of_list_ascii (d_type d)) with (str (d_type d)). rewrite AE.
      replace (skipn (List.length (name_text x) + 1) s) with r by (rewrite Es, firstn_S_exact; reflexivity).
      assert (TC : teqb (rdrop_ws r) [close] = false).
      { destruct Rest as [[_ B]|[_ Sr]]; [apply blank_not_close; exact B|apply (shape_head r is); exact Sr]. }
      rewrite TC. reflexivity. }
    destruct Rest as [[-> B]|[Ni Sr]].
    + inversion U; subst. exists 1%nat, h1, (Some (List.length (name_text x))). split.
      * rewrite app_nil_r. apply (good_false es h1 _ _ flag). exact G1.
      * intros f. rewrite Nat.add_1_l, ST, B. destruct stack as [|s' st]; [|reflexivity]. cbn [parse_loop]. rewrite B. reflexivity.
    + destruct (IH r Sr h1 (out ++ [the_name x]) used flag (Some (List.length (name_text x))) stack G1 ND) as (k & h2 & nend' & G2 & R).
      exists (S k), h2, nend'. split; [rewrite <- app_assoc in G2; exact G2|]. intros f. cbn [plus]. rewrite ST. rewrite (shape_visible r is Sr). apply R.
  - destruct (pr_line _ _ _ PR _ _ _ _ I) as (GL & Nit & Fit & Bt). rewrite W1 in GL.
    assert (Nu : ~ In (the_name x) used).
    { intros Iu. apply NoDup_remove_2 in ND. apply ND. apply in_app_iff. left; exact Iu. }
    destruct (good_line es h out used flag (the_name x) G Nu) as (h1 & AB & G1).
    pose proof (shape_visible s _ SH) as V. pose proof (take_shape s x is SH) as TD.
    destruct (shape_name s x is SH) as (sep & r & Es & X & SC & Rest).
    assert (ST : forall f, parse_loop (S f) lns defs h 0 s stack flag nend =
      parse_loop f lns defs h1 0 (rest_text items tail) (if blank r then stack else r :: stack) true (Some (List.length (name_text x)))).
    { intros f. cbn [parse_loop]. rewrite V, TD. pose proof (find_end x sep r X SC) as FE. rewrite <- Es in FE. rewrite (find_nend s _ FE). cbv zeta.
      replace (trim (firstn (List.length (name_text x)) s)) with (the_name x) by (rewrite Es, firstn_exact, <- W2; symmetry; apply name_trim; exact X).
      rewrite GL. change (string_of_list_ascii (the_name x)) with (str (the_name x)). rewrite AB.
      assert (Er : match find1 comma s with Some n => skipn (n + 1) s | None => match find1 close s with Some n => skipn (n + 1) s | None => s end end = r).
      { destruct (find1 comma s) as [n|].
        - injection FE as ->. rewrite Es, firstn_S_exact. reflexivity.
        - rewrite FE. rewrite Es, firstn_S_exact. reflexivity. }
      rewrite Er. reflexivity. }
    assert (ND1 : NoDup ((used ++ [the_name x]) ++ uses1)).
    { rewrite <- app_assoc. cbn [app]. replace (used ++ the_name x :: uses1 ++ uses2) with ((used ++ the_name x :: uses1) ++ uses2) in ND by (rewrite <- app_assoc; reflexivity).
      clear - ND. revert ND. generalize (used ++ the_name x :: uses1). intros l. induction l as [|y l IHl]; intros H; [constructor|].
      cbn [app] in H. inversion H; subst. constructor; [intros Q; apply H2; apply in_app_iff; left; exact Q|apply IHl; assumption]. }
    destruct (IH1 (rest_text items tail) (shape_open items tail Nit Fit Bt) h1 out (used ++ [the_name x]) true (Some (List.length (name_text x))) (if blank r then stack else r :: stack) G1 ND1) as (k1 & h2 & nend1 & G2 & R1).
    destruct Rest as [[-> B]|[Ni Sr]].
    + inversion U2; subst. rewrite !app_nil_r in *. exists (S k1), h2, nend1. rewrite <- app_assoc in G2. split; [exact G2|].
      intros f. cbn [plus]. rewrite ST. rewrite R1, B. reflexivity.
    + rewrite <- app_assoc in G2. cbn [app] in G2.
      destruct (IH2 r Sr h2 (out ++ els1) (used ++ the_name x :: uses1) false nend1 stack G2) as (k2 & h3 & nend2 & G3 & R2).
      { rewrite <- app_assoc. exact ND. }
      exists (S (k1 + k2)), h3, nend2. rewrite <- !app_assoc in G3. split; [exact G3|].
      intros f. cbn [plus]. rewrite ST. replace (k1 + k2 + S f)%nat with (k1 + S (k2 + f))%nat by lia. rewrite R1, (shape_visible r is Sr).
      replace (S (k2 + f)) with (k2 + S f)%nat by lia. apply R2.
  - destruct (shape_repeat s i is k xs SH E) as (s1 & s2 & T1 & Nk & X & SH2 & Nx & Ck).
    destruct (IH s2 SH2 h out used flag nend stack G ND) as (k0 & h' & nend' & G' & R). exists k0, h', nend'. split; [exact G'|].
    intros f. rewrite <- R. replace (k0 + S f)%nat with (S (k0 + f)) by lia.
    apply (loop_repeat _ _ _ _ _ _ _ _ (number_text k) s1 s2).
    + exact (shape_visible _ _ SH).
    + exact (shape_visible _ _ SH2).
    + exact T1.
    + exact Nk.
    + exact X.
    + destruct (List.concat (List.repeat xs (count k))) as [|y ys] eqn:Q; [exfalso; revert Q; apply repeat_some; assumption|].
      cbn [map app] in SH2. exact (take_shape _ _ _ SH2).
Qed.

(* ------------------------------------------------------------------ *)
(** The file as find_beamlines leaves it. *)
Lemma find_app : forall p a b, find p (a ++ p ++ b) <> None.
Proof.
  intros p a b. induction a as [|c a IH]; cbn [app].
  - assert (P : prefixb p (p ++ b) = true) by apply prefixb_app. destruct (p ++ b); cbn [find]; rewrite P; discriminate.
  - cbn [find]. destruct (prefixb p (c :: a ++ p ++ b)); [discriminate|]. destruct (find p (a ++ p ++ b)); [discriminate|contradiction].
Qed.
Lemma find_has : forall p s n c, find p s = Some n -> In c p -> In c s.
Proof.
  intros p s. induction s as [|d s IH]; intros n c H I; cbn [find] in H.
  - destruct (prefixb p []) eqn:E; [|discriminate]. apply prefixb_split in E. destruct E as (r & E). symmetry in E. apply app_eq_nil in E. destruct E as [-> _]. contradiction.
  - destruct (prefixb p (d :: s)) eqn:E.
    + apply prefixb_split in E. destruct E as (r & ->). apply in_app_iff. left; exact I.
    + destruct (find p s) as [m|] eqn:F; [|discriminate]. right. apply (IH m c); [reflexivity|exact I].
Qed.
Lemma drop_quotes_id : forall s, ~ In quote s -> drop_quotes s = s.
Proof.
  intros [|c s] H; [reflexivity|]. cbn [drop_quotes]. destruct (Ascii.eqb_spec c quote) as [->|_]; [|reflexivity]. exfalso. apply H. left; reflexivity.
Qed.
Lemma read_name_of : forall w r, plain_or_quoted w -> identifier (bare w) -> read_name (w ++ colon :: r) = Some (bare w).
Proof.
  intros w r Q I. unfold read_name. rewrite find1_app by (apply written_no; [exact Q|exact I|apply sep_in; cbn; tauto|discriminate]). rewrite firstn_exact.
  assert (Nq : ~ In quote (bare w)) by (apply identifier_no; [exact I|exact sep_quote]).
  destruct Q as [Q|Q]; rewrite Q at 1.
  - rewrite (drop_quotes_id _ Nq). rewrite drop_quotes_id by (rewrite <- in_rev; exact Nq). rewrite rev_involutive. reflexivity.
  - change (drop_quotes (dquote ++ bare w ++ dquote)) with (drop_quotes (bare w ++ dquote)).
    assert (E : drop_quotes (bare w ++ dquote) = bare w ++ dquote).
    { destruct I as (N & _). destruct (bare w) as [|c s]; [contradiction|]. cbn [app drop_quotes].
      destruct (Ascii.eqb_spec c quote) as [->|_]; [|reflexivity]. exfalso. apply Nq. left; reflexivity. }
    rewrite E, rev_app_distr. change (drop_quotes (rev dquote ++ rev (bare w))) with (drop_quotes (rev (bare w))).
    rewrite drop_quotes_id by (rewrite <- in_rev; exact Nq). rewrite rev_involutive. reflexivity.
Qed.

Lemma line_read : forall n before items tail, plain_or_quoted n -> identifier (bare n) -> blank_line before ->
  let l := entry_text (Line n before items tail) in
  find (T "line=(") l <> None /\ read_name l = Some (bare n) /\ Lte_Model.after 1 l (find1 equals l) = body items tail.
Proof.
  intros n before items tail Q I B l. split; [|split].
  - unfold l. cbn [entry_text]. set (r := join (T ",") (map item_text items) ++ T ")" ++ tail).
    replace (n ++ T ":" ++ before ++ T "line=(" ++ r) with ((n ++ T ":" ++ before) ++ T "line=(" ++ r) by (rewrite <- !app_assoc; reflexivity).
    apply find_app.
  - apply read_name_of; assumption.
  - unfold l. cbn [entry_text]. set (r := join (T ",") (map item_text items) ++ T ")" ++ tail).
    replace (n ++ T ":" ++ before ++ T "line=(" ++ r) with ((n ++ T ":" ++ before ++ T "line") ++ equals :: "("%char :: r) by (rewrite <- !app_assoc; reflexivity).
    rewrite find1_app.
    + unfold Lte_Model.after. rewrite firstn_S_exact. reflexivity.
    + rewrite !in_app_iff. intros [H|[H|[H|H]]].
      * revert H. apply written_no; [exact Q|exact I|apply sep_in; cbn; tauto|discriminate].
      * cbn in H. destruct H as [H|[]]; discriminate.
      * revert H. apply blank_plain; [exact B|reflexivity].
      * cbn in H. repeat destruct H as [H|H]; try discriminate; contradiction.
Qed.

(** Characters that are in no element definition. *)
Definition outside (c : ascii) : Prop := c = "("%char \/ c = "!"%char \/ c = "&"%char \/ c = "%"%char.
Lemma outside_facts : forall c, outside c -> separator c /\ is_ws c = false /\ value_char c = false /\ c <> colon /\ c <> comma /\ c <> equals /\ c <> newline.
Proof. intros c [->|[->|[->| ->]]]; (split; [apply sep_in; cbn; tauto|]); repeat split; try reflexivity; discriminate. Qed.
Lemma value_outside : forall v m c, says v m -> outside c -> ~ In c v.
Proof.
  intros v m c H O I. apply says_chars in H. rewrite forallb_forall in H. apply H in I. apply outside_facts in O. destruct O as (_ & _ & O & _). congruence.
Qed.
Lemma outside_quote : forall c, outside c -> c <> quote.
Proof. intros c [->|[->|[->| ->]]]; discriminate. Qed.
Lemma define_outside : forall d c, definition_ok d -> outside c -> ~ In c (entry_text (Define d)).
Proof.
  intros d c (Hn & Hb & Ha & Ht & P & _ & Q) O I. destruct (outside_facts c O) as (S & W & _ & Nc & Nm & Ne & Nl).
  cbn [entry_text] in I. unfold definition_text in I. rewrite !in_app_iff in I.
  destruct I as [[I|[I|[I|[I|[I|I]]]]]|I].
  - revert I. apply written_no; [exact Q|exact Hn|exact S|apply outside_quote; exact O].
  - cbn in I. destruct I as [I|[]]. apply Nc. symmetry. exact I.
  - revert I. apply blank_plain; assumption.
  - revert I. apply identifier_no; assumption.
  - revert I. apply blank_plain; assumption.
  - apply in_concat in I. destruct I as (w & Iw & I). apply in_map_iff in Iw. destruct Iw as (p & <- & Ip). rewrite Forall_forall in P. destruct (P p Ip) as (P1 & P2 & P3 & P4).
    unfold parameter_text in I. rewrite !in_app_iff in I. destruct I as [I|[I|[I|[I|[I|I]]]]].
    + cbn in I. destruct I as [I|[]]. apply Nm. symmetry. exact I.
    + revert I. apply blank_plain; assumption.
    + revert I. apply identifier_no; assumption.
    + revert I. apply blank_plain; assumption.
    + cbn in I. destruct I as [I|[]]. apply Ne. symmetry. exact I.
    + revert I. apply (value_outside _ _ _ P4 O).
  - destruct (d_params d); [destruct I as [I|[]]; congruence|destruct I].
Qed.
Lemma define_kept : forall d, definition_ok d -> find (T "line=(") (entry_text (Define d)) = None.
Proof.
  intros d H. destruct (find (T "line=(") (entry_text (Define d))) as [n|] eqn:F; [|reflexivity].
  exfalso. apply (define_outside d "("%char H); [left; reflexivity|]. apply (find_has _ _ n _ F). cbn. tauto.
Qed.

Definition is_define (e : entry) : bool := match e with Define _ => true | Line _ _ _ _ => false end.
Lemma find_beamlines_ok : forall es, Forall entry_ok es -> NoDup (map entry_name es) -> forall name,
  exists lines str, find_beamlines name (map entry_text es) = (map entry_text (filter is_define es), lines, str) /\
    (forall w before items tail, In (Line w before items tail) es -> dget otext_dec lines (Some (bare w)) = Some (body items tail) /\ (bare w = name -> str = body items tail)) /\
    (forall n, (forall w before items tail, bare w = n -> ~ In (Line w before items tail) es) -> dget otext_dec lines (Some n) = None).
Proof.
  induction es as [|e es IH]; intros F ND name.
  - exists [], []. split; [reflexivity|]. split; [intros n b i t []|reflexivity].
  - inversion F as [|? ? F1 F2]; subst. cbn [map] in ND. inversion ND as [|? ? N1 N2]; subst.
    destruct (IH F2 N2 name) as (lines & str & E & A & B). cbn [map find_beamlines]. rewrite E.
    destruct e as [d|n0 b0 i0 t0]; destruct F1 as [_ F1].
    + destruct F1 as [F1 _]. rewrite (define_kept d F1). exists lines, str. split; [reflexivity|]. split.
      * intros n b i t [I|I]; [discriminate|]. exact (A n b i t I).
      * intros n H. apply B. intros w b i t Ew I. apply (H w b i t Ew). right; exact I.
    + destruct F1 as (I0 & B0 & _ & _ & _ & Q0). destruct (line_read n0 b0 i0 t0 Q0 I0 B0) as (R1 & R2 & R3).
      destruct (find (T "line=(") (entry_text (Line n0 b0 i0 t0))) as [m|]; [|contradiction]. rewrite R2, R3.
      eexists _, _. split; [reflexivity|]. split.
      * intros n b i t [I|I].
        -- injection I as <- <- <- <-. split; [apply dget_dset_same|]. intros <-.
           generalize (bare n0). clear. intros name. replace (teqb name name) with true; [reflexivity|]. symmetry. apply teqb_eq. reflexivity.
        -- assert (Nn : bare n <> bare n0).
           { intros Q. apply N1. apply (in_map entry_name) in I. cbn [entry_name] in *. rewrite <- Q. exact I. }
           rewrite dget_dset_other by congruence. destruct (A n b i t I) as [A1 A2]. split; [exact A1|]. intros En.
           destruct (teqb (bare n0) name) eqn:Q; [apply teqb_eq in Q; congruence|]. apply A2. exact En.
      * intros n H. assert (Nn : n <> bare n0) by (intros ->; apply (H n0 b0 i0 t0 eq_refl); left; reflexivity).
        rewrite dget_dset_other by congruence. apply B. intros w b i t Ew I. apply (H w b i t Ew). right; exact I.
Qed.

(* ------------------------------------------------------------------ *)
(** Finding a definition. *)
Lemma name_prefix : forall n m r, identifier n -> identifier m -> prefixb (n ++ [colon]) (m ++ colon :: r) = true -> n = m.
Proof.
  intros n m r In_ Im H. apply prefixb_split in H. destruct H as (q & H). rewrite <- app_assoc in H. cbn [app] in H.
  assert (Cn : ~ In colon n) by (apply identifier_no; [exact In_|apply sep_in; cbn; tauto]).
  assert (Cm : ~ In colon m) by (apply identifier_no; [exact Im|apply sep_in; cbn; tauto]).
  clear - H Cn Cm. revert n Cn H. induction m as [|c m IH]; intros [|d n] Cn H; cbn [app] in H; [reflexivity| | |].
  - injection H as H _. exfalso. apply Cn. left. symmetry. exact H.
  - injection H as H _. exfalso. apply Cm. left. exact H.
  - injection H as -> H. f_equal. apply IH; [intros I; apply Cm; right; exact I|intros I; apply Cn; right; exact I|exact H].
Qed.
Lemma definition_head : forall d, definition_ok d -> exists r, unquote (entry_text (Define d)) = d_name d ++ colon :: r /\ drop_ws (unquote (entry_text (Define d))) = unquote (entry_text (Define d)).
Proof.
  intros d H. cbn [entry_text]. rewrite unquote_app, (definition_unquoted d H). unfold head_text. eexists. split.
  - rewrite <- !app_assoc. cbn [app]. reflexivity.
  - destruct H as (Hn & _). destruct (d_name d) as [|c n] eqn:E; [destruct Hn as [Hn _]; contradiction|]. cbn [app]. apply drop_ws_id.
    destruct (identifier_tight _ Hn) as [Q _]. apply (Q c n). reflexivity.
Qed.
Lemma definition_step : forall d n, definition_ok d -> identifier n ->
  prefixb (n ++ [colon]) (drop_ws (unquote (entry_text (Define d)))) = teqb n (d_name d).
Proof.
  intros d n H I. destruct (definition_head d H) as (r & E & ->). rewrite E. pose proof H as (Hn & _).
  destruct (prefixb (n ++ [colon]) (d_name d ++ colon :: r)) eqn:P.
  - apply name_prefix in P; [|exact I|exact Hn]. subst n. symmetry. apply teqb_eq. reflexivity.
  - destruct (teqb n (d_name d)) eqn:Q; [|reflexivity]. apply teqb_eq in Q. subst n.
    assert (X : prefixb (d_name d ++ [colon]) ((d_name d ++ [colon]) ++ r) = true) by apply prefixb_app. rewrite <- app_assoc in X. cbn [app] in X. congruence.
Qed.
Lemma definition_of_ok : forall es d, Forall entry_ok es -> NoDup (map entry_name es) -> In (Define d) es ->
  definition_of (map entry_text (filter is_define es)) (d_name d) = Some (unquote (entry_text (Define d))).
Proof.
  intros es d F ND I.
  assert (Hd : identifier (d_name d)). { rewrite Forall_forall in F. destruct (F _ I) as (_ & (Hn & _) & _). exact Hn. }
  unfold definition_of.
  assert (NO : forall es acc, Forall entry_ok es -> ~ In (d_name d) (map entry_name es) ->
    fold_left (fun acc line => let line := remove1 apostrophe (remove1 quote line) in if prefixb (d_name d ++ [colon]) (drop_ws line) then Some line else acc) (map entry_text (filter is_define es)) acc = acc).
  { clear - Hd. induction es as [|e es IH]; intros acc F N; [reflexivity|]. inversion F as [|? ? F1 F2]; subst. destruct e as [d'|n b i t]; cbn [filter is_define map fold_left].
    - change (remove1 apostrophe (remove1 quote (entry_text (Define d')))) with (unquote (entry_text (Define d'))). cbv zeta.
      destruct F1 as (_ & F1 & _). rewrite (definition_step d' _ F1 Hd).
      destruct (teqb (d_name d) (d_name d')) eqn:Q; [apply teqb_eq in Q; exfalso; apply N; left; symmetry; exact Q|]. apply IH; [exact F2|]. intros J. apply N. right; exact J.
    - apply IH; [exact F2|]. intros J. apply N. right; exact J. }
  generalize (@None text). induction es as [|e es IH]; intros acc; [destruct I|].
  inversion F as [|? ? F1 F2]; subst. cbn [map] in ND. inversion ND as [|? ? N1 N2]; subst. destruct I as [->|I].
  - cbn [filter is_define map fold_left]. change (remove1 apostrophe (remove1 quote (entry_text (Define d)))) with (unquote (entry_text (Define d))). cbv zeta.
    destruct F1 as (_ & F1 & _). rewrite (definition_step d _ F1 Hd). replace (teqb (d_name d) (d_name d)) with true by (symmetry; apply teqb_eq; reflexivity).
    apply NO; [exact F2|exact N1].
  - destruct e as [d'|n b i t]; cbn [filter is_define map fold_left]; apply IH; assumption.
Qed.

(* ------------------------------------------------------------------ *)
(** The element that is made. *)
Lemma lower_str : forall s, lower_case s -> lower (str s) = str s.
Proof.
  induction s as [|c s IH]; intros H; [reflexivity|]. unfold str in *. cbn [string_of_list_ascii lower]. rewrite IH by (intros d I; apply H; right; exact I).
  f_equal. unfold lower_char. specialize (H c (or_introl eq_refl)). cbv zeta in H.
  destruct ((65 <=? nat_of_ascii c) && (nat_of_ascii c <=? 90))%nat eqn:E; [|reflexivity].
  apply andb_true_iff in E. destruct E as [E1 E2]. apply Nat.leb_le in E1. apply Nat.leb_le in E2. exfalso. apply H. split; assumption.
Qed.
Lemma strip_str : forall s, identifier s -> strip (str s) = str s.
Proof.
  intros s (_ & H & _).
  assert (W : forall c, In c s -> is_space c = false).
  { intros c I. apply H in I. destruct (is_space c) eqn:E; [|reflexivity]. exfalso. apply I. left. exact E. }
  clear H. unfold strip. replace (lstrip (str s)) with (str s).
  - induction s as [|c s IH]; [reflexivity|]. unfold str in *. cbn [string_of_list_ascii rstrip]. rewrite IH by (intros d I; apply W; right; exact I).
    rewrite (W c (or_introl eq_refl)). destruct (string_of_list_ascii s); reflexivity.
  - destruct s as [|c s]; [reflexivity|]. unfold str. cbn [string_of_list_ascii lstrip]. rewrite (W c (or_introl eq_refl)). reflexivity.
Qed.
Lemma to_value_of : forall pv m, represents pv m -> to_value pv = value_of m.
Proof.
  intros pv [r|w] H; unfold represents in H.
  - destruct H as (x & -> & H). cbn [to_value value_of]. rewrite H. reflexivity.
  - subst pv. reflexivity.
Qed.
Lemma assign_distinct : forall (l acc : params), NoDup (map fst (acc ++ l)) -> (forall kv, In kv l -> lower (fst kv) = fst kv) ->
  fold_left (fun d kv => agn_set d (fst kv) (snd kv)) l acc = acc ++ l.
Proof.
  induction l as [|[k v] l IH]; intros acc ND L; [rewrite app_nil_r; reflexivity|]. cbn [fold_left fst snd].
  unfold agn_set at 2. rewrite (L (k, v) (or_introl eq_refl) : lower k = k).
  rewrite dset_new.
  - rewrite IH; [rewrite <- app_assoc; reflexivity|rewrite <- app_assoc; exact ND|]. intros kv I. apply L. right; exact I.
  - apply dget_none. rewrite map_app in ND. cbn [map fst] in ND. apply NoDup_remove_2 in ND. intros I. apply ND. apply in_app_iff. left. exact I.
Qed.
Lemma params_held : forall ps qs, Forall2 held ps qs -> to_params ps = map (fun p => (str (p_key p), value_of (p_meaning p))) qs.
Proof.
  intros ps qs F. induction F as [|[k v] p ps qs [H1 H2] F IH]; [reflexivity|]. cbn [to_params map fst snd] in *. rewrite (to_value_of _ _ H2), H1. f_equal. exact IH.
Qed.
Lemma ready_ok : forall es d ps, In (Define d) es -> entry_ok (Define d) -> Forall2 held ps (d_params d) ->
  ready es (d_name d) (str (d_type d)) (to_params ps).
Proof.
  intros es d ps I (_ & H & RS) F. pose proof H as (_ & _ & _ & Ht & P & ND & _). rewrite (params_held _ _ F).
  unfold ready, new_element.
  assert (E : existsb (fun kv : string * value => reserved (fst kv)) (params_of d) = false).
  { destruct (existsb (fun kv : string * value => reserved (fst kv)) (params_of d)) eqn:E; [|reflexivity]. apply existsb_exists in E. destruct E as (kv & J & R).
    unfold params_of in J. apply in_map_iff in J. destruct J as (p & <- & J). cbn [fst] in R. exfalso. apply (RS p J). unfold reserved in R.
    rewrite !orb_true_iff in R. destruct R as [[R|R]|R]; apply String.eqb_eq in R.
    - left. apply str_inj. symmetry. exact R.
    - right; left. apply str_inj. symmetry. exact R.
    - right; right; left. apply str_inj. symmetry. exact R. }
  fold (params_of d). rewrite E. eexists. split; [reflexivity|]. exists d. split; [exact I|]. split; [reflexivity|]. split; [reflexivity|]. cbn [e_type e_params]. split.
  - unfold interpret_element. rewrite lower_str by (destruct Ht as (_ & _ & L); exact L). apply strip_str. exact Ht.
  - rewrite assign_distinct; [reflexivity| |].
    + cbn [app]. unfold params_of. rewrite map_map. cbn [fst]. rewrite <- (map_map p_key str).
      clear - ND. induction (map p_key (d_params d)) as [|k l IH]; [constructor|]. inversion ND as [|? ? A B]; subst. cbn [map]. constructor; [|apply IH; exact B].
      intros J. apply in_map_iff in J. destruct J as (k' & Q & J). apply str_inj in Q. subst k'. contradiction.
    + intros kv J. unfold params_of in J. apply in_map_iff in J. destruct J as (p & <- & J). cbn [fst]. apply lower_str.
      rewrite Forall_forall in P. destruct (P p J) as (_ & _ & (_ & _ & L) & _). exact L.
Qed.
Lemma find_parameters_entry : forall d, definition_ok d -> exists ps, find_parameters (Some (unquote (entry_text (Define d)))) = Ok (d_type d, ps) /\ Forall2 held ps (d_params d).
Proof.
  intros d H. cbn [entry_text]. destruct (d_params d) as [|p ps] eqn:E.
  - exists []. split; [|constructor]. apply find_parameters_none; [exact H|exact E|reflexivity].
  - rewrite app_nil_r. rewrite <- E. apply find_parameters_some; [exact H|]. rewrite E. discriminate.
Qed.

(* ------------------------------------------------------------------ *)
(** Nothing in the file is changed by the preparation. *)
Lemma lower_id : forall s, lower_case s -> lowert s = s.
Proof.
  induction s as [|c s IH]; intros H; [reflexivity|]. cbn [lowert map]. fold (lowert s). rewrite IH by (intros d I; apply H; right; exact I). f_equal.
  specialize (H c (or_introl eq_refl)). cbv zeta in H. unfold low. destruct ((65 <=? nat_of_ascii c) && (nat_of_ascii c <=? 90))%nat eqn:E; [|reflexivity].
  apply andb_true_iff in E. destruct E as [E1 E2]. apply Nat.leb_le in E1. apply Nat.leb_le in E2. exfalso. apply H. split; assumption.
Qed.
Lemma item_outside : forall i c, item_ok i -> outside c -> c <> "("%char -> ~ In c (item_text i).
Proof.
  intros i c H O N. destruct (outside_facts c O) as (S & W & _ & _ & Nm & _). pose proof (outside_quote c O) as Nq.
  assert (NN : forall k, digits_ok k -> ~ In c (number_text k)).
  { intros k D I. unfold number_text in I. apply in_map_iff in I. destruct I as (j & E & I). destruct (digit_char_facts j (D j I)) as [Q _]. rewrite E in Q.
    destruct O as [->|[->|[->| ->]]]; discriminate. }
  destruct i as [x|k x|k xs]; cbn [item_text].
  - apply name_chars; assumption.
  - destruct H as (D & _ & X). rewrite !in_app_iff. intros [I|[I|I]]; [revert I; apply NN; exact D| |revert I; apply name_chars; assumption].
    cbn in I. destruct I as [I|[]]. destruct O as [->|[->|[->| ->]]]; discriminate.
  - destruct H as (D & _ & _ & X). rewrite !in_app_iff. intros [I|[I|[I|I]]]; [revert I; apply NN; exact D| |revert I; apply join_no; assumption|].
    + cbn in I. destruct I as [I|[I|[]]]; destruct O as [->|[->|[->| ->]]]; try discriminate; apply N; reflexivity.
    + cbn in I. destruct I as [I|[]]. destruct O as [->|[->|[->| ->]]]; discriminate.
Qed.
Lemma join_outside : forall l c, (forall w, In w l -> ~ In c w) -> c <> comma -> ~ In c (join [comma] l).
Proof.
  induction l as [|w l IH]; intros c H N; [intros []|]. destruct l as [|v l].
  - cbn. apply H. left; reflexivity.
  - change (join [comma] (w :: v :: l)) with (w ++ [comma] ++ join [comma] (v :: l)). rewrite !in_app_iff. intros [I|[[I|[]]|I]].
    + revert I. apply H. left; reflexivity.
    + congruence.
    + revert I. apply IH; [|exact N]. intros u J. apply H. right; exact J.
Qed.
Lemma entry_outside : forall e c, entry_ok e -> outside c -> c <> "("%char -> ~ In c (entry_text e).
Proof.
  intros [d|n b items t] c [_ H] O N.
  - destruct H as [H _]. apply define_outside; assumption.
  - destruct H as (Hn & Hb & Ht & _ & F & Q). destruct (outside_facts c O) as (S & W & _ & Nc & Nm & _). cbn [entry_text]. rewrite !in_app_iff. intros [I|[I|[I|[I|[I|[I|I]]]]]].
    + revert I. apply written_no; [exact Q|exact Hn|exact S|apply outside_quote; exact O].
    + cbn in I. destruct I as [I|[]]. apply Nc. symmetry; exact I.
    + revert I. apply blank_plain; assumption.
    + cbn in I. destruct O as [->|[->|[->| ->]]]; try (apply N; reflexivity); repeat destruct I as [I|I]; try discriminate; contradiction.
    + revert I. apply join_outside; [|exact Nm]. intros w J. apply in_map_iff in J. destruct J as (i & <- & J). rewrite Forall_forall in F. apply item_outside; auto.
    + cbn in I. destruct I as [I|[]]. destruct O as [->|[->|[->| ->]]]; discriminate.
    + revert I. apply blank_plain; assumption.
Qed.
Lemma entry_ordinary : forall e, entry_ok e -> ordinary (entry_text e).
Proof.
  intros e H. assert (O : forall c, outside c -> c <> "("%char -> ~ In c (entry_text e)) by (intros c; apply entry_outside; exact H).
  split; [|split; [|split]].
  - intros B. assert (N : exists c, In c (entry_text e) /\ is_ws c = false).
    { exists colon. split; [|reflexivity]. destruct e as [d|n b i t]; cbn [entry_text]; unfold definition_text; rewrite !in_app_iff; [left|]; right; left; left; reflexivity. }
    destruct N as (c & I & W). rewrite (B c I) in W. discriminate.
  - apply O; [right; left; reflexivity|discriminate].
  - intros r pad _ E. apply (O "&"%char); [right; right; left; reflexivity|discriminate|]. rewrite E. apply in_app_iff. right; left; reflexivity.
  - intros r pad _ E. apply (O "%"%char); [right; right; right; reflexivity|discriminate|]. rewrite E. apply in_app_iff. right; left; reflexivity.
Qed.

Lemma provides_ok : forall es name lines str, lattice_ok es ->
  (forall w before items tail, In (Line w before items tail) es -> dget otext_dec lines (Some (bare w)) = Some (body items tail) /\ (bare w = name -> str = body items tail)) ->
  (forall n, (forall w before items tail, bare w = n -> ~ In (Line w before items tail) es) -> dget otext_dec lines (Some n) = None) ->
  provides es lines (map entry_text (filter is_define es)).
Proof.
  intros es name lines str0 [F ND] A B. split.
  - intros n b i t I. destruct (A n b i t I) as [A1 _]. split; [exact A1|]. rewrite Forall_forall in F. destruct (F _ I) as (_ & _ & _ & Ht & Hi & Fi & _).
    split; [exact Hi|]. split; [exact Fi|]. apply blank_iff. exact Ht.
  - intros n Iq. apply B. intros w b i t E _. rewrite <- E in Iq. revert Iq. rewrite bare_remove. apply remove1_not_in.
  - intros d I. pose proof F as F0. rewrite Forall_forall in F0. pose proof (F0 _ I) as E. pose proof E as (_ & H & _). pose proof H as (Hn & _). split; [|split; [|split]].
    + apply B. intros w b i t Ew J.
      assert (U : forall es, NoDup (map entry_name es) -> forall x y, In x es -> In y es -> entry_name x = entry_name y -> x = y).
      { clear. induction es as [|e es IH]; intros ND x y X Y E; [destruct X|]. cbn [map] in ND. inversion ND as [|? ? N1 N2]; subst.
        destruct X as [->|X], Y as [->|Y]; [reflexivity| | |apply IH; assumption].
        - exfalso. apply N1. rewrite E. apply in_map. exact Y.
        - exfalso. apply N1. rewrite <- E. apply in_map. exact X. }
      assert (Q : Define d = Line w b i t) by (apply (U es ND); [exact I|exact J|symmetry; exact Ew]). discriminate.
    + apply identifier_no; [exact Hn|exact sep_quote].
    + apply identifier_no; [exact Hn|exact sep_apostrophe].
    + rewrite (definition_of_ok es d F ND I). destruct (find_parameters_entry d H) as (ps & P1 & P2). exists ps. split; [exact P1|]. apply ready_ok; assumption.
Qed.

Lemma good_new : forall es name, good es {| elems := []; lines := [{| l_name := name; l_elements := []; l_lines := []; l_seq := []; l_top := 0%nat |}] |} [] [] false.
Proof.
  intros es name. split; [|split; [exact (wf_new_line empty_heap name wf_empty)|split; [reflexivity|intros [|e] el H; discriminate]]]. eexists _, []. split; [reflexivity|]. repeat split; try discriminate; try reflexivity.
  - intros l [].
  - constructor.
Qed.

Lemma import_ok : forall es sel before items tail els uses beamline_name show, lattice_ok es -> In (Line sel before items tail) es ->
  unfolds es items els uses -> NoDup uses -> lowert beamline_name = bare sel ->
  exists k h, (forall fuel, (k <= fuel)%nat -> import fuel show (map entry_text es) beamline_name = (h, Ok tt)) /\ good es h els uses false.
Proof.
  intros es sel before items tail els uses bn show L I U ND EN. pose proof L as [F NDe].
  destruct (find_beamlines_ok es F NDe (bare sel)) as (lns & s & E & A & B).
  pose proof (provides_ok es (bare sel) lns s L A B) as PR.
  destruct (A _ _ _ _ I) as [GL ES]. specialize (ES eq_refl).
  destruct (pr_line _ _ _ PR _ _ _ _ I) as (_ & Ni & Fi & Bt).
  destruct (main es lns _ PR items els uses (unfolds_O _ _ _ _ U) (rest_text items tail) (shape_open items tail Ni Fi Bt) _ [] [] false None [] (good_new es (Some (str bn))) ND) as (k & h & nend & G & R).
  exists (k + 1)%nat, h. split; [|exact G]. intros fuel Lf.
  unfold import. cbn [new_line empty_heap lines List.length elems app].
  assert (Sn : sanitize (map entry_text es) = Ok (map entry_text es, [])).
  { rewrite sanitize_ordinary.
    - f_equal. f_equal. rewrite map_map. apply map_ext_in. intros e J. rewrite Forall_forall in F. destruct (F e J) as [Q _]. apply lower_id. exact Q.
    - apply Forall_forall. intros w J. apply in_map_iff in J. destruct J as (e & <- & J). rewrite Forall_forall in F. apply entry_ordinary. apply F. exact J. }
  rewrite Sn. unfold replace_variables. cbn [fold_left]. rewrite map_id. rewrite EN.
  assert (Ns : bare sel <> []). { rewrite Forall_forall in F. destruct (F _ I) as (_ & (Q & _) & _). exact Q. }
  destruct (bare sel) as [|c sl]; [contradiction|]. rewrite E. unfold parse_set_beamline. rewrite GL, ES. cbn [skipn body].
  specialize (R (fuel - (k + 1))%nat). cbn [app] in R. replace (k + S (fuel - (k + 1)))%nat with fuel in R by lia. exact R.
Qed.

(** * Claim C136: the length of an imported elegant lattice. *)
From Coq Require Import List Reals Bool Arith String Ascii ZArith Lia Lra Permutation.
From Verif Require Import PyBase PyDict PyText Line_Model Line_Spec Lte_Model Lte_Spec Line_Proofs Lte_Proofs Lte_Proofs2 Lte_Proofs3 Lte_Proofs4 Lte_Proofs5 Lte_Proofs6 Lte_Props.
Import ListNotations.
Open Scope R_scope.

(* ------------------------------------------------------------------ *)
(** ** Specification *)
(** The length a definition gives: the value of l, or nothing *)
Definition defines_length (d : definition) (r : R) : Prop :=
  (exists p, In p (d_params d) /\ p_key p = T "l" /\ p_meaning p = Number r) \/ ((forall p, In p (d_params d) -> p_key p <> T "l") /\ r = 0).
(** The element of this name in the file has this length *)
Definition has_length (es : list entry) (n : text) (r : R) : Prop := forall d, In (Define d) es -> d_name d = n -> defines_length d r.

(* ------------------------------------------------------------------ *)
(** ** Proofs *)
Lemma dget_map : forall ps key, dget string_dec (map (fun p => (str (p_key p), value_of (p_meaning p))) ps) (str key) =
  option_map (fun p => value_of (p_meaning p)) (List.find (fun p => if list_eq_dec Ascii.ascii_dec (p_key p) key then true else false) ps).
Proof.
  induction ps as [|p ps IH]; intros key; [reflexivity|]. cbn [map List.find dget]. destruct (list_eq_dec Ascii.ascii_dec (p_key p) key) as [->|N].
  - destruct (string_dec (str key) (str key)); [reflexivity|contradiction].
  - destruct (string_dec (str key) (str (p_key p))) as [E|_]; [apply str_inj in E; congruence|]. apply IH.
Qed.
Lemma same_key : forall ps p q, NoDup (map p_key ps) -> In p ps -> In q ps -> p_key p = p_key q -> p = q.
Proof.
  induction ps as [|a ps IH]; intros p q N I J E; [contradiction|]. cbn [map] in N. inversion N as [|? ? N1 N2]; subst.
  destruct I as [->|I], J as [->|J]; auto; exfalso; apply N1; [rewrite E|rewrite <- E]; now apply in_map.
Qed.
Lemma length_found : forall d r, NoDup (map p_key (d_params d)) -> defines_length d r ->
  agn_get (params_of d) "L" = Some (VNum r) \/ (agn_get (params_of d) "L" = None /\ r = 0).
Proof.
  intros d r N H. unfold agn_get, params_of. change (lower "L") with (str (T "l")). rewrite dget_map.
  destruct (List.find _ (d_params d)) as [p|] eqn:F.
  - apply find_some in F. destruct F as [I K]. cbv beta in K. destruct (list_eq_dec Ascii.ascii_dec (p_key p) (T "l")) as [E|]; [|discriminate]. left.
    destruct H as [(q & J & Eq & M)|[A _]]; [|now destruct (A p I)]. rewrite (same_key _ p q N I J ltac:(congruence)). cbn [option_map]. now rewrite M.
  - right. split; [reflexivity|]. destruct H as [(q & J & Eq & M)|[_ Z0]]; [|exact Z0]. exfalso. pose proof (find_none _ _ F q J) as X. cbv beta in X.
    destruct (list_eq_dec Ascii.ascii_dec (p_key q) (T "l")); [discriminate|contradiction].
Qed.
Lemma keys_distinct : forall es d, lattice_ok es -> In (Define d) es -> NoDup (map p_key (d_params d)).
Proof. intros es d [F _] I. rewrite Forall_forall in F. destruct (F _ I) as [_ [(_ & _ & _ & _ & _ & N & _) _]]. exact N. Qed.
Lemma one_length : forall es n r h a, lattice_ok es -> has_length es n r -> (exists el, nth_error (elems h) a = Some el /\ is_element es n el) ->
  forall acc, add_length h acc a = Ok (acc + r).
Proof.
  intros es n r h a L H (el & E & d & I & Nm & _ & _ & P) acc. unfold add_length. rewrite E, P.
  destruct (length_found d r (keys_distinct es d L I) (H d I Nm)) as [->|[-> ->]]; f_equal; ring.
Qed.
Lemma sum_of : forall es h addrs els rs, lattice_ok es -> Forall2 (fun a n => exists el, nth_error (elems h) a = Some el /\ is_element es n el) addrs els ->
  Forall2 (has_length es) els rs -> forall acc, sum_lengths h acc addrs = Ok (acc + total rs).
Proof.
  intros es h addrs els rs L F. revert rs. induction F as [|a n addrs els A F IH]; intros rs G acc; inversion G; subst; cbn [sum_lengths].
  - f_equal. unfold total. cbn. ring.
  - rewrite (one_length es n _ h a L H1 A). cbn [rbind]. rewrite (IH _ H3). f_equal. unfold total. cbn [fold_right]. ring.
Qed.
Lemma text_found : forall d p w, NoDup (map p_key (d_params d)) -> In p (d_params d) -> p_key p = T "l" -> p_meaning p = Word w -> agn_get (params_of d) "L" = Some (VStr (str w)).
Proof.
  intros d p w N I K M. unfold agn_get, params_of. change (lower "L") with (str (T "l")). rewrite dget_map.
  destruct (List.find _ (d_params d)) as [q|] eqn:F.
  - apply find_some in F. destruct F as [J X]. cbv beta in X. destruct (list_eq_dec Ascii.ascii_dec (p_key q) (T "l")) as [E|]; [|discriminate].
    rewrite (same_key _ q p N J I ltac:(congruence)). cbn [option_map]. now rewrite M.
  - pose proof (find_none _ _ F p I) as X. cbv beta in X. destruct (list_eq_dec Ascii.ascii_dec (p_key p) (T "l")); [discriminate|contradiction].
Qed.
Lemma sum_text : forall h addrs, (forall a, In a addrs -> exists el, nth_error (elems h) a = Some el) ->
  (exists a el s, In a addrs /\ nth_error (elems h) a = Some el /\ agn_get (e_params el) "L" = Some (VStr s)) -> forall acc, sum_lengths h acc addrs = Err TypeError.
Proof.
  intros h addrs. induction addrs as [|a addrs IH]; intros A (b & el & s & I & E & G) acc; [contradiction|]. cbn [sum_lengths].
  destruct (A a (or_introl eq_refl)) as (ea & Ea). unfold add_length. rewrite Ea.
  destruct I as [->|I].
  - rewrite Ea in E. injection E as ->. now rewrite G.
  - destruct (agn_get (e_params ea) "L") as [[v|t]|]; cbn [rbind]; try reflexivity; (apply IH; [intros c J; apply A; now right|exists b, el, s; auto]).
Qed.

(* ------------------------------------------------------------------ *)
(** ** C136 The length of an imported lattice.
    It is the sum of the lengths of the elements of the expansion, each as often as it is in the
    expansion; elements without a length count nothing. For the lattices of C42. *)
Theorem C136_length_partial : forall es sel before items tail els uses rs beamline_name show,
  lattice_ok es -> In (Line sel before items tail) es -> unfolds es items els uses -> NoDup uses -> lowert beamline_name = bare sel ->
  Forall2 (has_length es) els rs ->
  exists k h, (forall fuel, (k <= fuel)%nat -> import fuel show (map entry_text es) beamline_name = (h, Ok tt)) /\ length_of h 0 = Ok (total rs).
Proof.
  intros es sel before items tail els uses rs bn show L I U ND E H. destruct (C42_expansion_partial es sel before items tail els uses bn show L I U ND E) as (k & h & addrs & R & G & F).
  exists k, h. split; [exact R|]. unfold length_of. rewrite G. cbn [rbind]. rewrite (sum_of es h addrs els rs L F H). f_equal. ring.
Qed.
Print Assumptions C136_length_partial.
(** Two lines with the same elements in another order, or grouped in other lines, have the same length. *)
Theorem C136_any_order_partial : forall es sel before items tail els uses sel' before' items' tail' els' uses' rs name name' show,
  lattice_ok es -> In (Line sel before items tail) es -> unfolds es items els uses -> NoDup uses -> lowert name = bare sel ->
  In (Line sel' before' items' tail') es -> unfolds es items' els' uses' -> NoDup uses' -> lowert name' = bare sel' ->
  (forall n, count_occ (list_eq_dec Ascii.ascii_dec) els n = count_occ (list_eq_dec Ascii.ascii_dec) els' n) -> Forall2 (has_length es) els rs ->
  exists k h h' r, (forall fuel, (k <= fuel)%nat -> import fuel show (map entry_text es) name = (h, Ok tt) /\ import fuel show (map entry_text es) name' = (h', Ok tt)) /\
    length_of h 0 = Ok r /\ length_of h' 0 = Ok r.
Proof.
  intros es sel before items tail els uses sel' before' items' tail' els' uses' rs name name' show L I U ND E I' U' ND' E' CO H.
  assert (P : Permutation els els') by (apply (Permutation_count_occ (list_eq_dec Ascii.ascii_dec)); exact CO).
  assert (X : exists rs', Forall2 (has_length es) els' rs' /\ total rs' = total rs).
  { clear - P H. revert rs H. induction P as [|x l l' P IH|x y l|l l' l'' P1 IH1 P2 IH2]; intros rs H.
    - exists rs. auto.
    - inversion H as [|? r ? rs0 A B]; subst. destruct (IH _ B) as (rs' & C & D). exists (r :: rs'). split; [now constructor|]. unfold total in *. cbn [fold_right]. now rewrite D.
    - inversion H as [|? r ? rs0 A B]; subst. inversion B as [|? r' ? rs1 C D]; subst. exists (r' :: r :: rs1). split; [repeat (constructor; auto)|]. unfold total. cbn [fold_right]. ring.
    - destruct (IH1 _ H) as (r1 & A & B). destruct (IH2 _ A) as (r2 & C & D). exists r2. split; [exact C|congruence]. }
  destruct X as (rs' & H' & T0). destruct (C136_length_partial es sel before items tail els uses rs name show L I U ND E H) as (k & h & R & G).
  destruct (C136_length_partial es sel' before' items' tail' els' uses' rs' name' show L I' U' ND' E' H') as (k' & h' & R' & G').
  exists (k + k')%nat, h, h', (total rs). split; [intros fuel Hf; split; [apply R; lia|apply R'; lia]|]. split; [exact G|]. now rewrite <- T0.
Qed.
Print Assumptions C136_any_order_partial.
(** A length that is a text is not a length: asking raises. *)
Theorem C136_text : forall es sel before items tail els uses beamline_name show n d p w,
  lattice_ok es -> In (Line sel before items tail) es -> unfolds es items els uses -> NoDup uses -> lowert beamline_name = bare sel ->
  In n els -> In (Define d) es -> d_name d = n -> In p (d_params d) -> p_key p = T "l" -> p_meaning p = Word w ->
  exists k h, (forall fuel, (k <= fuel)%nat -> import fuel show (map entry_text es) beamline_name = (h, Ok tt)) /\ length_of h 0 = Err TypeError.
Proof.
  intros es sel before items tail els uses bn show n d p w L I U ND E In0 Id Nm Ip Kp Mp. destruct (C42_expansion_partial es sel before items tail els uses bn show L I U ND E) as (k & h & addrs & R & G & F).
  exists k, h. split; [exact R|]. unfold length_of. rewrite G. cbn [rbind]. apply sum_text.
  - intros a A. clear - F A. induction F as [|b m addrs els (el & Eb & _) F IH]; [contradiction|]. destruct A as [->|A]; [eauto|auto].
  - assert (X : exists a el, In a addrs /\ nth_error (elems h) a = Some el /\ is_element es n el).
    { clear - F In0. induction F as [|b m addrs els (el & Eb & M) F IH]; [contradiction|]. destruct In0 as [->|J]; [exists b, el; cbn; auto|].
      destruct (IH J) as (a & el' & A & B & C). exists a, el'. cbn. auto. }
    destruct X as (a & el & A & B & d' & Id' & Nm' & _ & _ & P). exists a, el, (str w). split; [exact A|]. split; [exact B|]. rewrite P.
    assert (D : d' = d).
    { destruct L as [_ N]. assert (Q : Define d' = Define d); [|now injection Q]. assert (EN : entry_name (Define d') = entry_name (Define d)) by (cbn; congruence).
      clear - N Id Id' EN. induction es as [|e es IH]; [contradiction|]. cbn [map] in N. inversion N as [|? ? N1 N2]; subst.
      destruct Id as [->|Id], Id' as [E|Id']; auto; [exfalso; apply N1; rewrite <- EN; now apply in_map|subst; exfalso; apply N1; rewrite EN; now apply in_map]. }
    subst d'. eapply text_found; eauto using keys_distinct.
Qed.
Print Assumptions C136_text.

(** Full statement: for every lattice without cycles. False when a line is used twice: two cells of
    length 3 are 12 long. *)
Definition length_read (r : heap * res unit) : res R := match r with (h, Ok _) => length_of h 0 | _ => Err NameError end.
Theorem C136_used_twice_refuted : exists k, forall fuel, (k <= fuel)%nat ->
  length_read (import fuel no_show (file_of ["c: drift, l=3"; "cell: line=(c)"; "main: line=(cell,cell)"]%string) (T "main")) = Ok 12.
Proof.
  exists 10%nat. intros fuel H. replace fuel with (10 + (fuel - 10))%nat by lia.
  match goal with |- ?l = _ => let v := eval vm_compute in l in change l with v end. f_equal. lra.
Qed.
Print Assumptions C136_used_twice_refuted.
(** A case: the lattice of C42, with twelve drifts of length 6 and twelve marks. *)
Lemma example_lengths : has_length example_lattice (T "m") 0 /\ has_length example_lattice (T "d1") 6.
Proof.
  split; intros d I N; cbn [example_lattice In] in I; destruct I as [I|[I|[I|[I|[]]]]]; try discriminate; injection I as <-; try discriminate.
  - right. split; [intros p []|reflexivity].
  - left. eexists. split; [left; reflexivity|]. split; reflexivity.
Qed.
Example C136_applies : forall show, exists k h, (forall fuel, (k <= fuel)%nat -> import fuel show (map entry_text example_lattice) (T "Main") = (h, Ok tt)) /\ length_of h 0 = Ok 72.
Proof.
  intros show. destruct C42_applies as (L & I & U & ND & E & _). destruct example_lengths as [M D].
  destruct (C136_length_partial example_lattice _ _ _ _ _ _ ([0; 6; 6; 0] ++ List.concat (List.repeat [0; 6] 10)) (T "Main") show L I U ND E) as (k & h & R & G).
  - cbn [app List.concat List.repeat]. repeat (constructor; [assumption|]). constructor.
  - exists k, h. split; [exact R|]. rewrite G. f_equal. unfold total. cbn [app List.concat List.repeat fold_right]. lra.
Qed.
(** Another: two orders of the same elements, and an element whose length is a word. *)
Definition worded : definition := {| d_written := T "w"; d_before := T " "; d_type := T "drift"; d_after := [];
  d_params := [{| p_before := T " "; p_key := T "l"; p_after := []; p_value := T "long"; p_meaning := Word (T "long") |}] |}.
Definition there : list item := [One (name "d1"); One (name "m"); One (name "m")].
Definition again : list item := [RepeatOne [2]%nat (name "m"); One (name "d1")].
Definition third : list item := [One (name "m"); One (name "w")].
Definition other_lattice : list entry :=
  [Define drift; Define mark; Define worded; Line (T "there") (T " ") there [newline]; Line (T "again") (T " ") again [newline]; Line (T "third") (T " ") third [newline]].
Lemma other_lattice_ok : lattice_ok other_lattice.
Proof.
  split.
  - constructor; [|constructor; [|constructor; [|constructor; [|constructor; [|constructor; [|constructor]]]]]].
    + split; [apply lower_by; vm_compute; reflexivity|]. split; [exact drift_ok|]. intros p [<-|[<-|[]]]; cbn; intuition discriminate.
    + split; [apply lower_by; vm_compute; reflexivity|]. split; [|intros p []].
      split; [apply identifier_by; [discriminate|reflexivity]|]. split; [apply blank_by; reflexivity|]. split; [apply blank_by; reflexivity|].
      split; [apply identifier_by; [discriminate|reflexivity]|]. split; [constructor|]. split; [constructor|left; reflexivity].
    + split; [apply lower_by; vm_compute; reflexivity|]. split; [|intros p [<-|[]]; cbn; intuition discriminate].
      split; [apply identifier_by; [discriminate|reflexivity]|]. split; [apply blank_by; reflexivity|]. split; [apply blank_by; reflexivity|].
      split; [apply identifier_by; [discriminate|reflexivity]|]. split; [|split; [repeat constructor; intros []|left; reflexivity]].
      constructor; [|constructor]. split; [apply blank_by; reflexivity|]. split; [apply blank_by; reflexivity|]. split; [apply identifier_by; [discriminate|reflexivity]|].
      apply says_word. split; [exists "l"%char, (T "ong"); split; [reflexivity|cbn; unfold letter; cbn; lia]|]. split.
      * destruct (identifier_by (T "long")) as (_ & Q & _); [discriminate|reflexivity|exact Q].
      * split; [cbn; intuition discriminate|]. intros r E. discriminate.
    + split; [apply lower_by; vm_compute; reflexivity|]. split; [apply identifier_by; [discriminate|reflexivity]|]. split; [apply blank_by; reflexivity|]. split; [apply blank_by; reflexivity|].
      split; [discriminate|]. split; [|left; reflexivity]. repeat (constructor; [apply name_by; (discriminate || reflexivity)|]). constructor.
    + split; [apply lower_by; vm_compute; reflexivity|]. split; [apply identifier_by; [discriminate|reflexivity]|]. split; [apply blank_by; reflexivity|]. split; [apply blank_by; reflexivity|].
      split; [discriminate|]. split; [|left; reflexivity]. constructor; [|constructor; [apply name_by; (discriminate || reflexivity)|constructor]].
      split; [apply digits_by; reflexivity|]. split; [cbn; lia|]. apply name_by; (discriminate || reflexivity).
    + split; [apply lower_by; vm_compute; reflexivity|]. split; [apply identifier_by; [discriminate|reflexivity]|]. split; [apply blank_by; reflexivity|]. split; [apply blank_by; reflexivity|].
      split; [discriminate|]. split; [|left; reflexivity]. repeat (constructor; [apply name_by; (discriminate || reflexivity)|]). constructor.
  - cbn. repeat constructor; cbn; intuition discriminate.
Qed.
Example C136_others_apply : forall show,
  (exists k h h' r, (forall fuel, (k <= fuel)%nat -> import fuel show (map entry_text other_lattice) (T "there") = (h, Ok tt) /\ import fuel show (map entry_text other_lattice) (T "again") = (h', Ok tt)) /\
    length_of h 0 = Ok r /\ length_of h' 0 = Ok r) /\
  (exists k h, (forall fuel, (k <= fuel)%nat -> import fuel show (map entry_text other_lattice) (T "third") = (h, Ok tt)) /\ length_of h 0 = Err TypeError).
Proof.
  assert (D : In (Define drift) other_lattice) by (left; reflexivity). assert (M : In (Define mark) other_lattice) by (right; left; reflexivity).
  assert (W : In (Define worded) other_lattice) by (right; right; left; reflexivity).
  intros show. split.
  - apply (C136_any_order_partial other_lattice (T "there") (T " ") there [newline] [T "d1"; T "m"; T "m"] [] (T "again") (T " ") again [newline] [T "m"; T "m"; T "d1"] [] [6; 0; 0]).
    + exact other_lattice_ok.
    + right; right; right; left; reflexivity.
    + apply (unfolds_element _ (name "d1") drift _ _ _ D eq_refl). apply (unfolds_element _ (name "m") mark _ _ _ M eq_refl). apply (unfolds_element _ (name "m") mark _ _ _ M eq_refl). constructor.
    + constructor.
    + reflexivity.
    + right; right; right; right; left; reflexivity.
    + apply (unfolds_repeat_one other_lattice [2]%nat (name "m") _ [T "m"] [] [T "d1"] []); [apply (unfolds_element _ (name "m") mark _ _ _ M eq_refl); constructor|].
      apply (unfolds_element _ (name "d1") drift _ _ _ D eq_refl). constructor.
    + constructor.
    + reflexivity.
    + intros n. apply (Permutation_count_occ (list_eq_dec Ascii.ascii_dec)). apply (Permutation_app_comm [T "d1"] [T "m"; T "m"]).
    + repeat (constructor; [intros d I N; cbn [other_lattice In] in I; destruct I as [I|[I|[I|[I|[I|[I|[]]]]]]]; try discriminate; injection I as <-; try discriminate;
        first [left; eexists; split; [left; reflexivity|split; reflexivity] | right; split; [intros p []|reflexivity]]|]). constructor.
  - apply (C136_text other_lattice (T "third") (T " ") third [newline] [T "m"; T "w"] [] (T "third") show (T "w") worded
      {| p_before := T " "; p_key := T "l"; p_after := []; p_value := T "long"; p_meaning := Word (T "long") |} (T "long"));
      [exact other_lattice_ok|right; right; right; right; right; left; reflexivity| |constructor|reflexivity|right; left; reflexivity|exact W|reflexivity|left; reflexivity|reflexivity|reflexivity].
    apply (unfolds_element _ (name "m") mark _ _ _ M eq_refl). apply (unfolds_element _ (name "w") worded _ _ _ W eq_refl). constructor.
Qed.

(** C48, C49, C50, C86: importing Trace3D and TraceWin decks. *)
From Coq Require Import List Reals Bool Arith String Ascii ZArith Lia Lra.
From Verif Require Import PyBase PyDict PyText Line_Model Line_Spec Line_Proofs Line_Proofs2 Lte_Spec Trace_Model Trace_Spec Trace_Proofs Trace_Proofs2 Trace_Proofs3 Trace_Proofs4 Trace_Proofs5 Trace_Proofs6 Trace_Proofs7.
Import ListNotations.
Open Scope R_scope.

Lemma flat_map_seen : forall cs, Forall card_ok cs -> flat_map (fun c => things (c_kind c) (seen_values c)) cs = flat_map (fun c => things (c_kind c) (card_values c)) cs.
Proof. intros cs F. induction F as [|c cs H F IH]; [reflexivity|]. cbn [flat_map]. rewrite plain_seen by exact H. rewrite IH. reflexivity. Qed.
Lemma entries_fixed : forall es, Forall entry_ok es -> Forall (entry_form fixed_point) es.
Proof. intros es F. eapply Forall_impl; [|exact F]. intros [c|l|pad rest] H; [apply plain_fixed; exact H|exact H|exact H]. Qed.

(** Full statement: for every deck of cards, blank lines and comment lines the beamline consists
    of the things the cards stand for, in order.  Missing: numbers with an exponent, negative
    numbers without decimals, a comment behind the last card, cards of other words, and all Trace3D
    decks (all refuted below). *)
Theorem C48_tracewin_partial : forall es name, Forall entry_ok es -> comments_inside es ->
  exists p, tracewin (map entry_text es) name = (p, Ok tt) /\
    consists (p_heap p) (p_line p) (flat_map (fun c => things (c_kind c) (card_values c)) (cards es)).
Proof.
  intros es name F C. destruct (deck_steps name es (entries_fixed _ F) C) as (p & ms & E & S0 & Tt). exists p. split; [exact E|].
  rewrite <- flat_map_seen by (apply cards_form; exact F). rewrite <- Tt. eapply state_consists. exact S0.
Qed.
Print Assumptions C48_tracewin_partial.

(* ---------------- a deck for which the hypotheses hold ---------------- *)
Definition num (i f : list nat) : literal := {| l_sign := None; l_int := i; l_frac := match f with [] => None | _ => Some f end; l_exp := None |}.
Definition neg (l : literal) : literal := {| l_sign := Some true; l_int := l_int l; l_frac := l_frac l; l_exp := l_exp l |}.
Definition simple (k : kind) (w : string) (ns : list literal) : card :=
  {| c_pad := []; c_kind := k; c_word := T w; c_numbers := map (fun l => (T " ", l)) ns; c_blank := []; c_comment := None |}.
Definition sample_entries : list entry :=
  [CommentLine (T "  ") (T " DTL 1"); Card (simple Drift "DRIFT" [num [1; 0]%nat [5]%nat; num [2; 0]%nat []]);
   Card {| c_pad := T " "; c_kind := Quad; c_word := T "Quad"; c_numbers := [(T "  ", num [1; 0; 0]%nat []); (T " ", neg (num [3]%nat [5]%nat)); (T " ", num [] [5]%nat)]; c_blank := T " "; c_comment := Some (T " focus; 7") |};
   BlankLine (T " "); Card (simple Freq "freq" [num [3; 5; 2]%nat [2; 1]%nat]);
   Card (simple DtlCell "DTL_CEL" [num [6; 8]%nat [5]%nat; num [2; 2]%nat [5]%nat; num [2; 0]%nat []; num [0]%nat []; num [3; 7]%nat [5]%nat; neg (num [3; 6]%nat [5]%nat); num [1; 4; 7; 4; 2; 3]%nat []; neg (num [3; 5]%nat [0]%nat)])].
Lemma digits_ok_b : forall d, forallb (fun k => (k <? 10)%nat) d = true -> digits_ok d.
Proof. intros d H k I. rewrite forallb_forall in H. apply Nat.ltb_lt. apply H. exact I. Qed.
Ltac literal_is := split; [split; [refine (conj _ (conj _ (conj _ I))); [apply digits_ok_b; reflexivity|apply digits_ok_b; reflexivity|discriminate]|reflexivity]|try (let Z := fresh in intros Z; discriminate Z); let Z := fresh in intros _ Z; discriminate Z].
Lemma blank_b : forall s, forallb is_ws s = true -> blank_line s.
Proof. intros s H c I. rewrite forallb_forall in H. apply H. exact I. Qed.
Ltac blank_is := apply blank_b; reflexivity.
Ltac card_is := refine (conj _ (conj _ (conj _ _))); [blank_is|apply same_name_lower; reflexivity|
  repeat (constructor; [split; [discriminate|split; [blank_is|literal_is]]|]); constructor|blank_is].
Example C48_applies : Forall entry_ok sample_entries /\ comments_inside sample_entries /\
  map entry_text sample_entries = map T ["  ; DTL 1"; "DRIFT 10.5 20"; " Quad  100 -3.5 .5 ; focus; 7"; " "; "freq 352.21"; "DTL_CEL 68.5 22.5 20 0 37.5 -36.5 147423 -35.0"]%string.
Proof.
  split; [|split; [|reflexivity]].
  - constructor; [cbn; blank_is|]. constructor; [card_is|]. constructor; [card_is|]. constructor; [cbn; blank_is|]. constructor; [card_is|]. constructor; [card_is|]. constructor.
  - intros a pad rest b E. destruct a as [|x a].
    + injection E as _ _ <-. eexists. left. reflexivity.
    + exfalso. apply (f_equal (@List.tl _)) in E. assert (Hin : In (CommentLine pad rest) (List.tl sample_entries)) by (rewrite E; cbn [List.tl app]; apply in_or_app; right; left; reflexivity). clear E.
      cbn in Hin. repeat destruct Hin as [Hin|Hin]; try discriminate Hin. exact Hin.
Qed.

(** A minus sign in front of a number without decimals is lost: such a defocusing quadrupole is
    imported as a focusing one. *)
Theorem C48_minus_refuted : forall c s1 l1 s2 l2 name, c_kind c = Quad -> card_form fixed_point c -> c_numbers c = [(s1, l1); (s2, l2)] ->
  l_sign l1 = None -> l_sign l2 = Some true -> frac_digits l2 = [] ->
  exists p, tracewin [card_text c] name = (p, Ok tt) /\
    consists (p_heap p) (p_line p) [("quadrupole"%string, [("L"%string, mm (literal_value l1)); ("K1"%string, - literal_value l2)])].
Proof.
  intros c s1 l1 s2 l2 name K F N S1 S2 F2. destruct (deck_steps name [Card c]) as (p & ms & E & S0 & Tt).
  - constructor; [exact F|constructor].
  - intros a pad rest b X. destruct a as [|x [|y a]]; discriminate X.
  - exists p. split; [exact E|]. assert (X : map m_thing ms = [("quadrupole"%string, [("L"%string, mm (literal_value l1)); ("K1"%string, - literal_value l2)])]).
    { rewrite Tt. cbn [cards flat_map app]. rewrite K. unfold seen_values. rewrite N. cbn [map snd things under quad_names as_is app].
      assert (Fn : fixed_point l1 /\ fixed_point l2). { destruct F as (_ & _ & F & _). rewrite N in F. inversion F as [|? ? A B]; subst. inversion B as [|? ? A2 B2]; subst. cbn in A, A2. tauto. }
      rewrite (seen_value l1) by (split; [apply Fn|intros Y; congruence]). rewrite (minus_value l2) by (try assumption; apply Fn). reflexivity. }
    rewrite <- X. eapply state_consists. exact S0.
Qed.
Print Assumptions C48_minus_refuted.
Example C48_minus_applies : exists c s1 l1 s2 l2, c_kind c = Quad /\ card_form fixed_point c /\ c_numbers c = [(s1, l1); (s2, l2)] /\
  l_sign l1 = None /\ l_sign l2 = Some true /\ frac_digits l2 = [] /\ card_text c = T "QUAD 100 -12" /\ literal_value l2 <> - literal_value l2.
Proof.
  exists (simple Quad "QUAD" [num [1; 0; 0]%nat []; neg (num [1; 2]%nat [])]), (T " "), (num [1; 0; 0]%nat []), (T " "), (neg (num [1; 2]%nat [])).
  refine (conj eq_refl (conj _ (conj eq_refl (conj eq_refl (conj eq_refl (conj eq_refl (conj eq_refl _))))))).
  - refine (conj _ (conj _ (conj _ _))); [blank_is|apply same_name_lower; reflexivity| |blank_is].
    repeat (constructor; [split; [discriminate|split; [blank_is|split; [refine (conj _ (conj _ (conj _ I))); [apply digits_ok_b; reflexivity|apply digits_ok_b; reflexivity|discriminate]|reflexivity]]]|]). constructor.
  - unfold literal_value. cbn. lra.
Qed.

(** A number with an exponent is read as two numbers: 1e-3 as 1 and 3. *)
Theorem C48_exponent_refuted : forall name, exists p, tracewin [T "drift 1e-3"] name = (p, Ok tt) /\
  consists (p_heap p) (p_line p) [("drift"%string, [("L"%string, mm 1); ("R"%string, 3)])].
Proof.
  intros name. assert (X : tracewin [T "drift 1e-3"] name = tracewin (map entry_text [Card (simple Drift "drift" [num [1]%nat []; num [3]%nat []])]) name) by reflexivity.
  rewrite X. destruct (C48_tracewin_partial [Card (simple Drift "drift" [num [1]%nat []; num [3]%nat []])] name) as (p & E & C).
  - constructor; [card_is|constructor].
  - intros a pad rest b Y. destruct a as [|x [|y a]]; discriminate Y.
  - exists p. split; [exact E|]. assert (V : forall k, literal_value (num [k] []) = INR k).
    { intros k. unfold literal_value. cbn [l_sign l_int num signed decimal List.length pow frac_digits l_frac l_exp scale]. field. }
    cbn [cards flat_map app simple c_kind card_values c_numbers map snd things under drift_names as_is] in C.
    unfold card_values in C. cbn [c_numbers simple map snd] in C. rewrite !V in C. cbn [under drift_names as_is map] in C.
    replace (INR 1) with 1 in C by reflexivity. replace (INR 3) with 3 in C by (cbn; lra). exact C.
Qed.
Print Assumptions C48_exponent_refuted.

(** A comment behind the last card stops the import of any deck. *)
Theorem C48_comment_last_refuted : forall deck pad rest blanks name, blank_line pad -> Forall blank_line blanks ->
  snd (tracewin (deck ++ (pad ++ T ";" ++ rest) :: blanks) name) = Err IndexError /\
  snd (trace3d (deck ++ (pad ++ T ";" ++ rest) :: blanks) name) = Err IndexError.
Proof.
  intros deck pad rest blanks name P B. unfold tracewin, trace3d. cbn [new_line empty_heap lines elems List.length app snd]. rewrite (sanitize_end deck pad rest blanks P B). split; reflexivity.
Qed.
Print Assumptions C48_comment_last_refuted.
Example C48_comment_last_applies : blank_line (T " ") /\ Forall blank_line [T " "; []].
Proof. split; [blank_is|]. repeat (constructor; [blank_is|]). constructor. Qed.

(** A card with any other word, such as END, stops the import where it stands. *)
Theorem C48_other_word_refuted : forall a pad w rest b name, Forall entry_ok a -> blank_line pad -> strange w -> gap rest -> Forall entry_ok b -> comments_inside b ->
  exists p, tracewin (map entry_text a ++ (pad ++ w ++ rest) :: map entry_text b) name = (p, Err KeyError) /\
    consists (p_heap p) (p_line p) (flat_map (fun c => things (c_kind c) (card_values c)) (cards a)).
Proof.
  intros a pad w rest b name Fa P W G Fb Cb. destruct (strange_deck name a pad w rest b (entries_fixed _ Fa) P W G (entries_fixed _ Fb) Cb) as (p & E & C).
  exists p. split; [exact E|]. rewrite <- flat_map_seen by (apply cards_form; exact Fa). exact C.
Qed.
Print Assumptions C48_other_word_refuted.
Example C48_other_word_applies : strange (T "END") /\ gap (T " 1 ; done") /\ Forall entry_ok sample_entries.
Proof.
  refine (conj (conj _ (conj _ _)) (conj _ (proj1 C48_applies))).
  - discriminate.
  - intros c I. cbn in I. repeat destruct I as [<-|I]; try (split; [reflexivity|discriminate]). destruct I.
  - intros k X. apply same_name_lower in X. destruct k; discriminate X.
  - right. eexists. eexists. split; [reflexivity|reflexivity].
Qed.

(** No Trace3D deck ever gives an element, and a deck with two lines with cmt always raises. *)
Lemma t3_raises : forall l ls, t3_lines (l :: ls) <> Ok tt.
Proof.
  intros l ls H. cbn [t3_lines] in H. unfold t3_line in H. destruct (t3_type l) as [z| |]; [|discriminate|discriminate]. cbn [rbind] in H. destruct (t3_parameters l z); discriminate.
Qed.
Lemma increasing : forall (f : nat * text -> bool) (l : list text) k a b t, map fst (filter f (combine (seq k (List.length l)) l)) = a :: b :: t -> (a < b)%nat /\ (a < k + List.length l)%nat.
Proof.
  intros f. induction l as [|x l IH]; intros k a b t E; [discriminate E|]. cbn [List.length seq combine filter] in E. destruct (f (k, x)).
  - cbn [map fst] in E. injection E as <- E. split; [|cbn; lia]. assert (I : In b (map fst (filter f (combine (seq (Datatypes.S k) (List.length l)) l)))) by (rewrite E; left; reflexivity).
    apply in_map_iff in I. destruct I as ([q w] & <- & I). apply filter_In in I. destruct I as [I _]. apply in_combine_l in I. apply in_seq in I. cbn. lia.
  - apply IH in E. cbn. lia.
Qed.
Theorem C48_trace3d_refuted : forall deck name h r, trace3d deck name = (h, r) ->
  elems h = [] /\ sequence h 0 = Some [] /\
  (r = Ok tt -> exists lines i, sanitize deck = Ok lines /\ positions lines = [i]).
Proof.
  intros deck name h r H. unfold trace3d in H. cbn [new_line empty_heap lines elems List.length app] in H. injection H as <- Hr.
  refine (conj eq_refl (conj eq_refl _)). intros ->. destruct (sanitize deck) as [ls| |] eqn:Sd; [|discriminate|discriminate]. cbn [rbind] in Hr. exists ls.
  destruct (positions ls) as [|i [|j r]] eqn:P; [discriminate| |].
  - exists i. split; reflexivity.
  - exfalso. assert (M : (i < fold_left Nat.max (j :: r) i)%nat /\ (i < List.length ls)%nat).
    { unfold positions in P. pose proof (increasing _ ls 0%nat i j r P) as [A B].
      split; [|exact B]. cbn [fold_left].
      assert (Mx : forall l m, (m <= fold_left Nat.max l m)%nat) by (induction l as [|x l IH]; intros m; cbn; [lia|]; specialize (IH (Nat.max m x)); lia).
      specialize (Mx r (Nat.max i j)). lia. }
    destruct M as [M1 M2]. destruct (fold_left Nat.max (j :: r) i - i)%nat as [|n] eqn:En; [lia|].
    destruct (skipn i ls) as [|l rest] eqn:Es; [apply (f_equal (@List.length _)) in Es; rewrite skipn_length in Es; cbn in Es; lia|].
    cbn [firstn] in Hr. apply t3_raises in Hr. exact Hr.
Qed.
Print Assumptions C48_trace3d_refuted.
Example C48_trace3d_applies : snd (trace3d (map T ["cmt(1)='D1' nt(1)=1, a(1,1)=10.5"; "cmt(2)='Q1' nt(2)=3, a(1,2)=1.5,2.0"; "cmt(3)='D2' nt(3)=1, a(1,3)=3.5"]%string) "x") = Err AttributeError.
Proof. reflexivity. Qed.

(* ------------------------------------------------------------------ *)
(** C49.  The frequency of a card is never taken over: in whatever state any deck leaves the
    beamline, every cavity that has a frequency has the frequency 1. *)
Theorem C49_frequency_refuted : forall deck name p r e v, tracewin deck name = (p, r) -> has_type (p_heap p) e "rfca" ->
  has_number (p_heap p) e "frequency" v -> v = 1.
Proof.
  intros deck name p r e v E (el & H1 & T1) (el' & H2 & G). destruct (inert_deck deck name) as [_ Cm]. rewrite E in Cm. cbn [fst] in Cm.
  specialize (Cm e el H1). rewrite H1 in H2. injection H2 as <-. destruct Cm as [X|X]; [congruence|]. specialize (X _ G). injection X as ->. reflexivity.
Qed.
Print Assumptions C49_frequency_refuted.
(** the deck above has a card with 352.21 before its cell *)
Example C49_applies : exists p e, tracewin (map entry_text sample_entries) "x" = (p, Ok tt) /\ has_type (p_heap p) e "rfca" /\ has_number (p_heap p) e "frequency" 1.
Proof.
  destruct C48_applies as (F & C & _). destruct (C48_tracewin_partial sample_entries "x" F C) as (p & E & es & Sq & _ & F2 & _).
  exists p. cbn [cards sample_entries flat_map app simple c_kind card_values c_numbers map snd things] in F2.
  inversion F2 as [|e1 ? r1 ? A1 B1]; subst. inversion B1 as [|e2 ? r2 ? A2 B2]; subst. inversion B2 as [|e3 ? r3 ? A3 B3]; subst. inversion B3 as [|e4 ? r4 ? A4 B4]; subst. inversion B4 as [|e5 ? r5 ? A5 B5]; subst.
  exists e5. split; [exact E|]. destruct A5 as (el & X & Y & Z). cbn [fst snd] in Y, Z. split; [exists el; auto|]. exists el. split; [exact X|].
  specialize (Z "frequency"%string). cbn [map fst snd] in Z.
  eapply last_value_fun; [exact Z|]. match goal with |- last_value _ [?a; ?b; ?c; ?d] _ => apply (lv_some "frequency"%string [a; b; c] "frequency"%string (VNum 1) []) end.
  - apply same_name_lower. reflexivity.
  - intros k w [].
Qed.

(** Full statement: in every deck the cavities behind a frequency card have its frequency.  What
    holds is that the handlers use the frequency the parser keeps, if it keeps one. *)
Definition free (p : parser) (name : string) : Prop :=
  exists l, nth_error (lines (p_heap p)) (p_line p) = Some l /\ dget string_dec (l_elements l) (String.append name "_q1") = None /\
    dget string_dec (l_elements l) (String.append name "cav") = None /\ dget string_dec (l_elements l) (String.append name "_q2") = None.
Definition grown (p p' : parser) (ts : list thing) : Prop :=
  exists s es, sequence (p_heap p) (p_line p) = Some s /\ sequence (p_heap p') (p_line p) = Some (s ++ map RE es) /\ Forall2 (is_thing (p_heap p')) es ts.
Theorem C49_dtl_cell_partial : forall p name f l lq1 lq2 gc b1 b2 volt phase, p_freq p = Some f -> free p name ->
  let d := [("L", l); ("LQ1", lq1); ("LQ2", lq2); ("GC", gc); ("B1", b1); ("B2", b2); ("VOLT", volt); ("PHASE", phase)]%string in
  exists p', handle p "dtl_cel" name d = (p', Ok tt) /\ p_freq p' = Some f /\
    grown p p' [("quadrupole", [("k1", b1); ("l", lq1)]);
                ("rfca", [("l", l - lq1 - lq2); ("volt", volt); ("phase", phase + 90); ("frequency", f)]);
                ("quadrupole", [("k1", b2); ("l", lq2)])]%string.
Proof.
  intros p name f l lq1 lq2 gc b1 b2 volt phase Pf (ln & Hl & D1 & D2 & D3) d. unfold handle. cbn [String.eqb Ascii.eqb Bool.eqb].
  unfold handle_dtl_cell. change (key d "LQ1") with (Ok lq1). change (key d "LQ2") with (Ok lq2). change (key d "L") with (Ok l). change (key d "B1") with (Ok b1). change (key d "B2") with (Ok b2). change (key d "PHASE") with (Ok phase). change (key d "VOLT") with (Ok volt). cbn [need].
  assert (Nn : forall x y, x <> y -> String.append name x <> String.append name y) by (intros x y N E; apply N; eapply append_inj; exact E).
  change [("k1"%string, VNum b1); ("l"%string, VNum lq1)] with (kwargs [("k1"%string, b1); ("l"%string, lq1)]).
  destruct (add_thing p ln (String.append name "_q1") "quadrupole" [("k1"%string, b1); ("l"%string, lq1)] Hl D1 eq_refl eq_refl) as (p1 & l1 & e1 & E1 & L1 & F1 & N1 & M1 & S1 & T1 & K1).
  rewrite E1. cbn [and_then]. rewrite F1, Pf.
  change [("l"%string, VNum (l - lq1 - lq2)); ("volt"%string, VNum volt); ("phase"%string, VNum (phase + 90)); ("frequency"%string, VNum f)] with (kwargs [("l"%string, l - lq1 - lq2); ("volt"%string, volt); ("phase"%string, phase + 90); ("frequency"%string, f)]).
  rewrite <- L1 in N1.
  destruct (add_thing p1 l1 (String.append name "cav") "rfca" [("l"%string, l - lq1 - lq2); ("volt"%string, volt); ("phase"%string, phase + 90); ("frequency"%string, f)] N1) as (p2 & l2 & e2 & E2 & L2 & F2 & N2 & M2 & S2 & T2 & K2).
  { rewrite M1. rewrite dget_dset_other by (apply Nn; discriminate). exact D2. } { reflexivity. } { reflexivity. }
  rewrite E2. cbn [and_then]. rewrite <- L2 in N2.
  change [("k1"%string, VNum b2); ("l"%string, VNum lq2)] with (kwargs [("k1"%string, b2); ("l"%string, lq2)]).
  destruct (add_thing p2 l2 (String.append name "_q2") "quadrupole" [("k1"%string, b2); ("l"%string, lq2)] N2) as (p3 & l3 & e3 & E3 & L3 & F3 & N3 & M3 & S3 & T3 & K3).
  { rewrite M2, dget_dset_other by (apply Nn; discriminate). rewrite M1, dget_dset_other by (apply Nn; discriminate). exact D3. } { reflexivity. } { reflexivity. }
  rewrite E3. exists p3. split; [reflexivity|]. split; [congruence|]. exists (l_seq ln), [e1; e2; e3].
  refine (conj _ (conj _ _)).
  - unfold sequence. rewrite Hl. reflexivity.
  - unfold sequence. rewrite <- L1, <- L2. rewrite N3. cbn [option_map]. rewrite S3, S2, S1. rewrite <- !app_assoc. reflexivity.
  - constructor; [apply K3, K2; exact T1|]. constructor; [apply K3; exact T2|]. constructor; [exact T3|constructor].
Qed.
Print Assumptions C49_dtl_cell_partial.
Theorem C49_ncells_partial : forall p name f mode n beta volt phase, p_freq p = Some f -> f <> 0 -> free p name ->
  let d := [("MODE", mode); ("N", n); ("BETA", beta); ("VOLT", volt); ("PHASE", phase)]%string in
  exists p' l, handle p "ncells" name d = (p', Ok tt) /\ p_freq p' = Some f /\ l * f = n * beta * 299792458 /\
    grown p p' [("rfca", [("l", l); ("volt", volt * l); ("phase", phase + 90); ("frequency", f)])]%string.
Proof.
  intros p name f mode n beta volt phase Pf Nf (ln & Hl & D1 & D2 & D3) d. unfold handle. cbn [String.eqb Ascii.eqb Bool.eqb].
  unfold handle_ncells. rewrite Pf. destruct (Req_EM_T f 0) as [X|_]; [contradiction|].
  change (key d "BETA") with (Ok beta). change (key d "N") with (Ok n). change (key d "PHASE") with (Ok phase). change (key d "VOLT") with (Ok volt). cbn [need]. cbv zeta.
  set (l := beta * (light / f) * n).
  change [("l"%string, VNum l); ("volt"%string, VNum (volt * l)); ("phase"%string, VNum (phase + 90)); ("frequency"%string, VNum f)] with (kwargs [("l"%string, l); ("volt"%string, volt * l); ("phase"%string, phase + 90); ("frequency"%string, f)]).
  destruct (add_thing p ln (String.append name "cav") "rfca" [("l"%string, l); ("volt"%string, volt * l); ("phase"%string, phase + 90); ("frequency"%string, f)] Hl D2 eq_refl eq_refl) as (p1 & l1 & e1 & E1 & L1 & F1 & N1 & M1 & S1 & T1 & K1).
  exists p1, l. split; [exact E1|]. split; [congruence|]. split; [unfold l, light; field; exact Nf|].
  exists (l_seq ln), [e1]. refine (conj _ (conj _ _)).
  - unfold sequence. rewrite Hl. reflexivity.
  - unfold sequence. rewrite N1. cbn [option_map]. rewrite S1. reflexivity.
  - constructor; [exact T1|constructor].
Qed.
Print Assumptions C49_ncells_partial.
Definition sample_parser : parser := {| p_heap := fst (new_line empty_heap (Some "x"%string)); p_line := 0; p_count := 0; p_freq := Some 2 |}.
Example C49_handlers_apply : p_freq sample_parser = Some 2 /\ 2 <> 0 /\ free sample_parser "e0".
Proof. refine (conj eq_refl (conj _ _)); [lra|]. eexists. split; [reflexivity|]. repeat split. Qed.

(* ------------------------------------------------------------------ *)
(** C50.  The length of an imported beamline is the sum of the lengths on the cards; the three
    elements of a cell add up to the cell. *)
Theorem C50_deck_length : forall es name, Forall entry_ok es -> comments_inside es ->
  exists p, tracewin (map entry_text es) name = (p, Ok tt) /\
    length_of (p_heap p) (p_line p) = Ok (total (map (fun c => card_length (c_kind c) (card_values c)) (cards es))).
Proof.
  intros es name F C. destruct (C48_tracewin_partial es name F C) as (p & E & Cs). exists p. split; [exact E|].
  destruct (cards_long card_values (cards es)) as (ws & A & B). rewrite (length_consists _ _ _ _ Cs A). rewrite B. reflexivity.
Qed.
Print Assumptions C50_deck_length.
Example C50_deck_length_applies : total (map (fun c => card_length (c_kind c) (card_values c)) (cards sample_entries)) = 179 / 1000.
Proof.
  cbn [cards sample_entries flat_map app map simple c_kind card_values c_numbers snd card_length total]. unfold card_values. cbn [simple c_numbers map snd card_length total fold_right].
  unfold literal_value, mm. cbn [num l_sign l_int l_frac l_exp frac_digits signed decimal scale List.length pow INR]. field.
Qed.

(** Taking over the drifts beside cavities keeps the total length, if no cavity has a length of
    its own and there are at least three elements (the rest is refuted below). *)
Theorem C50_cavities_length_partial : forall h a es x h', sequence h a = Some (map RE es) -> NoDup es -> (3 <= List.length es)%nat ->
  (forall e v, In e es -> has_type h e "rfca" -> has_number h e "L" v -> v = 0) -> length_of h a = Ok x -> handle_cavities h a = (h', Ok tt) ->
  sequence h' a = Some (map RE es) /\ length_of h' a = Ok x.
Proof. exact cavities_length. Qed.
Print Assumptions C50_cavities_length_partial.

(** a beamline with these elements *)
Definition line_with (ts : list (string * list (string * value))) : heap :=
  {| elems := map (fun t => {| e_name := "x"%string; e_type := fst t; e_params := snd t; e_line := Some 0%nat |}) ts;
     lines := [{| l_name := Some "x"%string; l_elements := []; l_lines := []; l_seq := map RE (seq 0 (List.length ts)); l_top := 0%nat |}] |}.
Definition drift_of (l : R) : string * list (string * value) := ("drift"%string, [("l"%string, VNum l)]).
Definition cavity_of (ph : R) : string * list (string * value) := ("rfca"%string, [("phase"%string, VNum ph)]).
Definition long_cavity (ph l : R) : string * list (string * value) := ("rfca"%string, [("phase"%string, VNum ph); ("l"%string, VNum l)]).
Example C50_cavities_apply : forall l1 l2 l3 ph1 ph2, exists h',
  let h := line_with [drift_of l1; cavity_of ph1; drift_of l2; cavity_of ph2; drift_of l3] in
  handle_cavities h 0 = (h', Ok tt) /\ (forall e v, In e (seq 0 5) -> has_type h e "rfca" -> has_number h e "L" v -> v = 0) /\
  length_of h 0 = Ok (0 + l1 + l2 + l3) /\ has_number h' 1 "L" (l1 + l2) /\ has_number h' 3 "L" (0 + l3).
Proof.
  intros l1 l2 l3 ph1 ph2. eexists. cbv zeta. split; [reflexivity|]. refine (conj _ (conj eq_refl (conj _ _))).
  - intros e v I (el & A & B) (el' & C & D). rewrite A in C. injection C as <-. cbn in I.
    repeat destruct I as [<-|I]; try destruct I; cbn in A; injection A as <-; cbn in B, D; discriminate.
  - eexists. split; reflexivity.
  - eexists. split; reflexivity.
Qed.

(** All cavities end with the phase of the last one. *)
Theorem C50_phases_refuted : forall h a pre c post ph h', sequence h a = Some (map RE (pre ++ c :: post)) ->
  has_type h c "rfca" -> (forall e, In e post -> ~ has_type h e "rfca") -> has_number h c "phase" ph -> handle_cavities h a = (h', Ok tt) ->
  forall e, In e (pre ++ c :: post) -> has_type h e "rfca" -> has_number h' e "phase" (90 - ph).
Proof. exact cavities_phase. Qed.
Print Assumptions C50_phases_refuted.
Example C50_phases_apply : exists h', handle_cavities (line_with [drift_of 1; cavity_of 30; drift_of 2; cavity_of 50; drift_of 3]) 0 = (h', Ok tt) /\
  has_number h' 1 "phase" (90 - 50).
Proof. eexists. split; [reflexivity|]. eexists. split; reflexivity. Qed.

(** The length of a cavity is lost when it takes over its drifts. *)
Theorem C50_own_length_refuted : forall l1 l2 l ph, let h := line_with [drift_of l1; long_cavity ph l; drift_of l2] in
  exists h', length_of h 0 = Ok (0 + l1 + l + l2) /\ handle_cavities h 0 = (h', Ok tt) /\ length_of h' 0 = Ok (0 + 0 + (l1 + l2) + 0).
Proof. intros l1 l2 l ph h. eexists. split; [reflexivity|]. split; reflexivity. Qed.
Print Assumptions C50_own_length_refuted.
(** A cavity at one end takes over the drift at the other end; with one drift its length doubles. *)
Theorem C50_two_elements_refuted : forall l ph, let h := line_with [cavity_of ph; drift_of l] in
  exists h', length_of h 0 = Ok (0 + l) /\ handle_cavities h 0 = (h', Ok tt) /\ length_of h' 0 = Ok (0 + (l + l) + 0).
Proof. intros l ph h. eexists. split; [reflexivity|]. split; reflexivity. Qed.
Print Assumptions C50_two_elements_refuted.

(* ------------------------------------------------------------------ *)
(** C86.  Full statement: every bend takes over the edges beside it, which are taken out.  Missing:
    two bends that share an edge (refuted below). *)
Theorem C86_bends_partial : forall h a ps, sequence h a = Some (map RE (flat_map spread ps)) -> NoDup (flat_map spread ps) -> Forall (piece_ok h) ps ->
  exists h', handle_bends h a = (h', Ok tt) /\ sequence h' a = Some (map RE (flat_map folded ps)) /\
    (forall e ty, has_type h e ty -> has_type h' e ty) /\
    (forall b, In (Bend b) ps -> has_number h' (b_at b) "E1" (b_angle1 b) /\ has_number h' (b_at b) "E2" (b_angle2 b) /\
       has_number h' (b_at b) "HGAP" (b_gap b / 2) /\ has_number h' (b_at b) "FINT" (b_fringe b)) /\
    (forall e k, (forall b, In (Bend b) ps -> e = b_at b -> ~ same_name k "E1" /\ ~ same_name k "E2" /\ ~ same_name k "HGAP" /\ ~ same_name k "FINT") -> reads_same h h' e k).
Proof. exact fold_bends. Qed.
Print Assumptions C86_bends_partial.
Definition edge_of (beta g k : R) : string * list (string * value) := ("edge"%string, [("beta"%string, VNum beta); ("g"%string, VNum g); ("k1"%string, VNum k)]).
Definition bend_of (angle : R) : string * list (string * value) := ("sbend"%string, [("angle"%string, VNum angle)]).
Definition bend_line : heap := line_with [drift_of 1; edge_of 2 3 4; bend_of 5; edge_of 6 7 8; edge_of 9 10 11; bend_of 12; edge_of 13 14 15].
Definition bend_pieces_ex : list piece :=
  [Other 0; Bend {| b_in := 1; b_at := 2; b_out := 3; b_angle1 := 2; b_angle2 := 6; b_gap := 3; b_fringe := 4 |};
   Bend {| b_in := 4; b_at := 5; b_out := 6; b_angle1 := 9; b_angle2 := 13; b_gap := 10; b_fringe := 11 |}]%nat.
Ltac reads := eexists; split; reflexivity.
Ltac piece_is := refine (conj _ (conj _ (conj _ (conj _ (conj _ (conj _ _)))))); try reads; eexists; (split; [reads|discriminate]).
Example C86_applies : sequence bend_line 0 = Some (map RE (flat_map spread bend_pieces_ex)) /\ NoDup (flat_map spread bend_pieces_ex) /\ Forall (piece_ok bend_line) bend_pieces_ex.
Proof.
  refine (conj eq_refl (conj _ _)).
  - cbn. repeat (constructor; [cbn; intuition discriminate|]). constructor.
  - constructor; [exists "drift"%string; split; [reads|discriminate]|]. constructor; [piece_is|]. constructor; [piece_is|constructor].
Qed.
Theorem C86_shared_edge_refuted : forall h a b1 b2, sequence h a = Some (map RE [b_in b1; b_at b1; b_out b1; b_at b2; b_out b2]) -> b_in b2 = b_out b1 ->
  NoDup [b_in b1; b_at b1; b_out b1; b_at b2; b_out b2] -> piece_ok h (Bend b1) -> piece_ok h (Bend b2) ->
  exists h', handle_bends h a = (h', Err ValueError) /\ sequence h' a = Some (map RE [b_at b1; b_at b2; b_out b2]).
Proof. exact shared_edge. Qed.
Print Assumptions C86_shared_edge_refuted.
Example C86_shared_applies : exists h b1 b2, sequence h 0 = Some (map RE [b_in b1; b_at b1; b_out b1; b_at b2; b_out b2]) /\ b_in b2 = b_out b1 /\
  NoDup [b_in b1; b_at b1; b_out b1; b_at b2; b_out b2] /\ piece_ok h (Bend b1) /\ piece_ok h (Bend b2).
Proof.
  exists (line_with [edge_of 2 3 4; bend_of 5; edge_of 6 7 8; bend_of 12; edge_of 13 14 15]),
    {| b_in := 0; b_at := 1; b_out := 2; b_angle1 := 2; b_angle2 := 6; b_gap := 3; b_fringe := 4 |}%nat, {| b_in := 2; b_at := 3; b_out := 4; b_angle1 := 6; b_angle2 := 13; b_gap := 7; b_fringe := 8 |}%nat.
  refine (conj eq_refl (conj eq_refl (conj _ (conj _ _)))); [|piece_is|piece_is].
  cbn. repeat (constructor; [cbn; intuition discriminate|]). constructor.
Qed.

(** C116: a TraceWin parser that is called more than once. *)
From Coq Require Import List Reals Bool Arith String Ascii ZArith Lia Lra.
From Verif Require Import PyBase PyDict PyText Line_Model Line_Spec Line_Proofs Line_Proofs2 Lte_Spec Trace_Model Trace_Spec Trace_Proofs Trace_Proofs2 Trace_Proofs3 Trace_Proofs4 Trace_Proofs7 Trace_Props Again_Model.
Import ListNotations.
Open Scope R_scope.

(** What the cards of a deck stand for *)
Definition all_things (es : list entry) : list thing := flat_map (fun c => things (c_kind c) (card_values c)) (cards es).
(** The beamline that a call returns is the one of the object. *)
Definition holds (o : object) (ts : list thing) : Prop := consists (p_heap (o_parser o)) (p_line (o_parser o)) ts.
(** [n] calls one after the other, all with the result [r] *)
Inductive calls : nat -> object -> res unit -> object -> Prop :=
| CallsNone : forall o r, calls 0 o r o
| CallsMore : forall n o o1 o2 r, call o = (o1, r) -> calls n o1 r o2 -> calls (S n) o r o2.
Fixpoint times {A} (n : nat) (l : list A) : list A := match n with O => [] | S n => l ++ times n l end.

(* ---------------- lines that have been cleaned ---------------- *)
Definition plain_card (c : card) : card :=
  {| c_pad := c_pad c; c_kind := c_kind c; c_word := T (kind_word (c_kind c)); c_numbers := c_numbers c; c_blank := c_blank c; c_comment := None |}.
Lemma plain_text : forall c, card_text (plain_card c) = body c.
Proof. intros c. unfold card_text, body, plain_card, numbers_text. cbn. rewrite app_nil_r. reflexivity. Qed.
Lemma plain_form : forall c, card_form fixed_point c -> card_form fixed_point (plain_card c).
Proof.
  intros c (P & W & N & B). refine (conj P (conj _ (conj N B))). cbn. apply same_name_lower. destruct (c_kind c); reflexivity.
Qed.
Lemma run_ok : forall d l, sanitize d = Ok l -> sanitize_run d = (l, Ok tt).
Proof.
  induction d as [|x d IH]; intros l E; cbn [sanitize sanitize_run] in *; [injection E as <-; reflexivity|].
  destruct (sanitize d) as [m|e|]; cbn [rbind] in E; try discriminate. rewrite (IH m eq_refl). rewrite E. reflexivity.
Qed.
Lemma clean_again : forall cs, Forall (card_form fixed_point) cs -> sanitize (map body cs) = Ok (map body cs).
Proof.
  intros cs F. induction F as [|c cs H F IH]; [reflexivity|]. cbn [map sanitize]. rewrite IH. cbn [rbind].
  rewrite <- plain_text at 1. rewrite sanitize_card by (apply plain_form; exact H). reflexivity.
Qed.
Lemma clean_strange : forall cs l y, Forall (card_form fixed_point) cs -> sanitize (l :: y) = Ok (l :: y) ->
  sanitize (map body cs ++ l :: y) = Ok (map body cs ++ l :: y).
Proof.
  intros cs l y F E. induction F as [|c cs H F IH]; [exact E|]. cbn [map app sanitize]. rewrite IH. cbn [rbind].
  rewrite <- plain_text at 1. rewrite sanitize_card by (apply plain_form; exact H). reflexivity.
Qed.
Lemma times_snoc : forall {A} n (l : list A), l ++ times n l = times n l ++ l.
Proof. intros A n l. induction n as [|n IH]; cbn [times]; [now rewrite app_nil_r|]. rewrite <- app_assoc. f_equal. exact IH. Qed.
Lemma calls_last : forall n o r o1 o2, calls n o r o1 -> call o1 = (o2, r) -> calls (S n) o r o2.
Proof.
  intros n o r o1 o2 H. induction H as [o r|n o oa ob r E H IH]; intros C.
  - econstructor; [exact C|constructor].
  - econstructor; [exact E|]. apply IH. exact C.
Qed.
Lemma calls_app : forall n m o r o1 o2, calls n o r o1 -> calls m o1 r o2 -> calls (n + m) o r o2.
Proof. intros n m o r o1 o2 H. induction H as [o r|n o oa ob r E H IH]; intros C; [exact C|]. cbn. econstructor; [exact E|]. apply IH. exact C. Qed.
Lemma make_state : forall file name, state name [] (o_parser (make file name)) /\ o_deck (make file name) = file.
Proof. intros file name. split; [|reflexivity]. refine (conj eq_refl (conj eq_refl (conj eq_refl (conj _ (NoDup_nil _))))). intros m []. Qed.

Lemma call_cards : forall nm cs o ms, Forall (card_form fixed_point) cs -> state nm ms (o_parser o) -> sanitize (o_deck o) = Ok (map body cs) ->
  exists o' new, call o = (o', Ok tt) /\ o_deck o' = map body cs /\ state nm (ms ++ new) (o_parser o') /\
    map m_thing new = flat_map (fun c => things (c_kind c) (seen_values c)) cs.
Proof.
  intros nm cs o ms F St Sn. unfold call. rewrite (run_ok _ _ Sn). destruct (cards_steps nm cs ms (o_parser o) St F) as (p & new & E & S' & Tt).
  rewrite E. do 2 eexists. refine (conj eq_refl (conj eq_refl (conj S' Tt))).
Qed.
Lemma calls_cards : forall n nm cs o ms, Forall (card_form fixed_point) cs -> state nm ms (o_parser o) -> sanitize (o_deck o) = Ok (map body cs) ->
  exists o' new, calls n o (Ok tt) o' /\ sanitize (o_deck o') = Ok (map body cs) /\ state nm (ms ++ new) (o_parser o') /\
    map m_thing new = times n (flat_map (fun c => things (c_kind c) (seen_values c)) cs).
Proof.
  induction n as [|n IH]; intros nm cs o ms F St Sn.
  - exists o, []. rewrite app_nil_r. refine (conj (CallsNone _ _) (conj Sn (conj St eq_refl))).
  - destruct (call_cards nm cs o ms F St Sn) as (o1 & n1 & C & D & S1 & T1).
    destruct (IH nm cs o1 (ms ++ n1) F S1) as (o2 & n2 & C2 & D2 & S2 & T2); [rewrite D; apply clean_again; exact F|].
    exists o2, (n1 ++ n2). rewrite app_assoc. refine (conj _ (conj D2 (conj S2 _))); [econstructor; eassumption|]. rewrite map_app, T1, T2. reflexivity.
Qed.

(** Full statement: every call gives the beamline of the deck.  Missing: it gives one more copy each
    time (refuted below). *)
Theorem C116_calls_partial : forall es name n, Forall entry_ok es -> comments_inside es ->
  exists o, calls n (make (map entry_text es) name) (Ok tt) o /\ holds o (times n (all_things es)) /\
    p_line (o_parser o) = p_line (o_parser (make (map entry_text es) name)).
Proof.
  intros es name n F C. pose proof (entries_fixed _ F) as Ff. destruct (make_state (map entry_text es) name) as [St D].
  destruct (calls_cards n name (cards es) (make (map entry_text es) name) []) as (o & new & Cs & _ & S' & Tt).
  - apply cards_form. exact Ff.
  - exact St.
  - rewrite D. apply sanitize_entries; assumption.
  - exists o. split; [exact Cs|]. cbn [app] in S'. split.
    + unfold holds, all_things. rewrite <- flat_map_seen by (apply cards_form; exact F). rewrite <- Tt. eapply state_consists. exact S'.
    + transitivity 0%nat; [apply S'|reflexivity].
Qed.
Print Assumptions C116_calls_partial.
Example C116_calls_applies : Forall entry_ok sample_entries /\ comments_inside sample_entries /\ List.length (all_things sample_entries) = 6%nat.
Proof. split; [apply C48_applies|split; [apply C48_applies|reflexivity]]. Qed.

Lemma length_times : forall {A} n (l : list A), List.length (times n l) = (n * List.length l)%nat.
Proof. intros A n l. induction n as [|n IH]; [reflexivity|]. cbn [times]. rewrite app_length, IH. reflexivity. Qed.
Lemma forall2_len : forall {A B} (P : A -> B -> Prop) l m, Forall2 P l m -> List.length l = List.length m.
Proof. intros A B P l m H. induction H; cbn; congruence. Qed.
Lemma holds_length : forall o a b, holds o a -> holds o b -> List.length a = List.length b.
Proof.
  intros o a b (e1 & S1 & _ & F1 & _) (e2 & S2 & _ & F2 & _). apply forall2_len in F1, F2. rewrite S1 in S2. injection S2 as S2.
  apply (f_equal (@List.length _)) in S2. rewrite !map_length in S2. congruence.
Qed.
Lemma things_some : forall c, (1 <= List.length (things (c_kind c) (card_values c)))%nat.
Proof.
  intros c. destruct (c_kind c); cbn [things List.length]; try lia. destruct (card_values c) as [|v1 [|v2 [|v3 [|v4 [|v5 [|v6 [|v7 [|v8 r]]]]]]]]; cbn [List.length]; lia.
Qed.

(** The second call doubles the beamline, for every deck with a card, and with it the one that
    the first call returned. *)
Theorem C116_again_refuted : forall es name o1 o2, Forall entry_ok es -> comments_inside es -> cards es <> [] ->
  call (make (map entry_text es) name) = (o1, Ok tt) -> call o1 = (o2, Ok tt) ->
  holds o1 (all_things es) /\ holds o2 (all_things es ++ all_things es) /\ ~ holds o2 (all_things es) /\ p_line (o_parser o2) = p_line (o_parser o1).
Proof.
  intros es name o1 o2 F C N C1 C2. destruct (C116_calls_partial es name 1 F C) as (p & Cp & Hp & Lp). inversion Cp as [|? ? oa ? ? Ea Ra]; subst. rewrite C1 in Ea. injection Ea as <-. inversion Ra; subst.
  destruct (C116_calls_partial es name 2 F C) as (q & Cq & Hq & Lq). inversion Cq as [|? ? ob ? ? Eb Rb]; subst. rewrite C1 in Eb. injection Eb as <-. inversion Rb as [|? ? oc ? ? Ec Rc]; subst. rewrite C2 in Ec. injection Ec as <-. inversion Rc; subst.
  cbn [times] in Hp, Hq. rewrite app_nil_r in Hp, Hq. refine (conj Hp (conj Hq (conj _ _))); [|congruence].
  intros H. pose proof (holds_length _ _ _ H Hq) as L. rewrite app_length in L. destruct (cards es) as [|c cs] eqn:E; [contradiction|].
  unfold all_things in L. rewrite E in L. cbn [flat_map] in L. rewrite app_length in L. pose proof (things_some c). lia.
Qed.
Print Assumptions C116_again_refuted.
Example C116_again_applies : exists o1 o2, cards sample_entries <> [] /\ call (make (map entry_text sample_entries) "dtl") = (o1, Ok tt) /\ call o1 = (o2, Ok tt).
Proof.
  destruct C116_calls_applies as (F & C & _). destruct (C116_calls_partial sample_entries "dtl" 2 F C) as (q & Cq & _).
  inversion Cq as [|? ? ob ? ? Eb Rb]; subst. inversion Rb as [|? ? oc ? ? Ec Rc]; subst. exists ob, oc. split; [discriminate|]. split; assumption.
Qed.

(* ---------------- comments behind the last card ---------------- *)
(** blank lines and [n] comment lines *)
Inductive trailing : nat -> list entry -> Prop :=
| TrailNone : trailing 0 []
| TrailBlank : forall n l es, blank_line l -> trailing n es -> trailing n (BlankLine l :: es)
| TrailComment : forall n pad rest es, blank_line pad -> trailing n es -> trailing (S n) (CommentLine pad rest :: es).

Lemma run_app_err : forall a b d x, sanitize_run b = (d, Err x) -> sanitize_run (a ++ b) = (a ++ d, Err x).
Proof. induction a as [|l a IH]; intros b d x E; [exact E|]. cbn [app sanitize_run]. rewrite (IH _ _ _ E). reflexivity. Qed.
(** the last comment goes, with the blank lines behind it *)
Lemma trailing_run : forall n es, trailing n es ->
  match n with
  | O => sanitize_run (map entry_text es) = ([], Ok tt)
  | S k => exists es', trailing k es' /\ sanitize_run (map entry_text es) = (map entry_text es', Err IndexError)
  end.
Proof.
  intros n es H. induction H as [|n l es B H IH|n pad rest es B H IH].
  - reflexivity.
  - destruct n as [|k]; cbn [map sanitize_run entry_text].
    + rewrite IH. rewrite sanitize_blank by exact B. reflexivity.
    + destruct IH as (es' & T' & E). exists (BlankLine l :: es'). split; [constructor; assumption|]. rewrite E. reflexivity.
  - destruct n as [|k]; cbn [map sanitize_run entry_text].
    + exists []. split; [constructor|]. rewrite IH. rewrite sanitize_comment by exact B. reflexivity.
    + destruct IH as (es' & T' & E). exists (CommentLine pad rest :: es'). split; [constructor; assumption|]. rewrite E. reflexivity.
Qed.
Lemma trailing_fails : forall n o front tail, o_deck o = front ++ map entry_text tail -> trailing n tail ->
  exists o' tail', calls n o (Err IndexError) o' /\ o_parser o' = o_parser o /\ o_deck o' = front ++ map entry_text tail' /\ trailing 0 tail'.
Proof.
  induction n as [|n IH]; intros o front tail D Tr.
  - exists o, tail. refine (conj (CallsNone _ _) (conj eq_refl (conj D Tr))).
  - destruct (trailing_run _ _ Tr) as (tail' & Tr' & E). set (o1 := {| o_deck := front ++ map entry_text tail'; o_parser := o_parser o |}).
    assert (C : call o = (o1, Err IndexError)) by (unfold call; rewrite D, (run_app_err _ _ _ _ E); reflexivity).
    destruct (IH o1 front tail' eq_refl Tr') as (o2 & t2 & C2 & P2 & D2 & T2). exists o2, t2. refine (conj _ (conj P2 (conj D2 T2))). econstructor; eassumption.
Qed.
Lemma trailing_sanitize : forall front tail l, sanitize (map entry_text front) = Ok l -> trailing 0 tail -> sanitize (map entry_text front ++ map entry_text tail) = Ok l.
Proof.
  intros front tail l E Tr. revert l E. assert (X : sanitize (map entry_text tail) = Ok []).
  { remember 0%nat as z eqn:Z. induction Tr as [|n x es B H IH|n pad rest es B H IH]; [reflexivity| |discriminate]. cbn [map sanitize entry_text]. rewrite (IH Z). cbn [rbind]. apply sanitize_blank. exact B. }
  induction front as [|e front IH]; intros l E; [cbn in *; congruence|]. cbn [map app sanitize] in *. destruct (sanitize (map entry_text front)) as [m|y|] eqn:Sm; [|discriminate|discriminate].
  rewrite (IH m eq_refl). exact E.
Qed.

(** Full statement: a call that fails on comments behind the last card fails again.  As it is each
    failed call takes one of these comments out of the object, and when none is left the next call gives
    the beamline. *)
Theorem C116_comments_refuted : forall es tail n name, Forall entry_ok es -> comments_inside es -> trailing n tail ->
  exists o o', calls n (make (map entry_text (es ++ tail)) name) (Err IndexError) o /\ holds o [] /\
    call o = (o', Ok tt) /\ holds o' (all_things es).
Proof.
  intros es tail n name F C Tr. pose proof (entries_fixed _ F) as Ff. destruct (make_state (map entry_text (es ++ tail)) name) as [St D].
  destruct (trailing_fails n (make (map entry_text (es ++ tail)) name) (map entry_text es) tail) as (o & t2 & Cs & P2 & D2 & T2); [rewrite D; apply map_app|exact Tr|].
  rewrite <- P2 in St. destruct (call_cards name (cards es) o []) as (o' & new & Co & _ & S' & Tt).
  - apply cards_form. exact Ff.
  - exact St.
  - rewrite D2. apply trailing_sanitize; [apply sanitize_entries; assumption|exact T2].
  - exists o, o'. refine (conj Cs (conj _ (conj Co _))).
    + unfold holds. change (@nil thing) with (map m_thing []). eapply state_consists. exact St.
    + unfold holds, all_things. rewrite <- flat_map_seen by (apply cards_form; exact F). rewrite <- Tt. eapply state_consists. exact S'.
Qed.
Print Assumptions C116_comments_refuted.
Example C116_comments_applies : Forall entry_ok sample_entries /\ comments_inside sample_entries /\
  trailing 2 [CommentLine [] (T " end"); BlankLine []; CommentLine (T " ") []; BlankLine (T " ")].
Proof. split; [apply C48_applies|split; [apply C48_applies|]]. repeat (constructor; [blank_is|]). constructor. Qed.

(* ---------------- a word that is no card ---------------- *)
Definition strange_clean (pad w rest : text) : text := pad ++ lowert w ++ cut (lowert rest).
Lemma strange_cut : forall pad w rest, blank_line pad -> strange w -> cut (strange_clean pad w rest) = strange_clean pad w rest.
Proof.
  intros pad w rest P (N & C & _). unfold strange_clean. rewrite cut_app.
  - f_equal. rewrite cut_app; [rewrite cut_cut; reflexivity|]. intros I. unfold lowert in I. apply in_map_iff in I. destruct I as (c & E & I). apply low_semicolon in E. destruct (C c I) as [_ X]. contradiction.
  - intros I. pose proof (blank_of _ P) as B. unfold blank in B. rewrite forallb_forall in B. specialize (B _ I). discriminate B.
Qed.
Lemma low_low : forall c, low (low c) = low c.
Proof. intros [[] [] [] [] [] [] [] []]; reflexivity. Qed.
Lemma lowert_lowert : forall s, lowert (lowert s) = lowert s.
Proof. intros s. unfold lowert. rewrite map_map. apply map_ext. apply low_low. Qed.
Lemma lowert_cut : forall s, lowert (cut (lowert s)) = cut (lowert s).
Proof.
  induction s as [|c s IH]; [reflexivity|]. unfold lowert in *. cbn [map]. rewrite cut_cons. destruct (Ascii.eqb (low c) semicolon); [reflexivity|]. cbn [map]. rewrite low_low, IH. reflexivity.
Qed.
Lemma strange_low : forall w, strange w -> strange (lowert w).
Proof.
  intros w (N & C & K). refine (conj _ (conj _ _)).
  - destruct w; [contradiction|discriminate].
  - intros c I. unfold lowert in I. apply in_map_iff in I. destruct I as (d & <- & I). destruct (C d I) as [W S]. split; [rewrite low_ws; exact W|]. intros E. apply low_semicolon in E. contradiction.
  - intros k E. apply (K k). apply same_name_lower. apply same_name_lower in E. rewrite <- E. clear. change (lower (str w) = lower (str (lowert w))). rewrite <- !str_lowert, lowert_lowert. reflexivity.
Qed.
Lemma strange_again : forall pad w rest done, blank_line pad -> strange w -> sanitize_line (strange_clean pad w rest) done = Ok (strange_clean pad w rest :: done).
Proof.
  intros pad w rest done P W. unfold strange_clean. rewrite sanitize_strange; [|exact P|apply strange_low; exact W].
  rewrite lowert_lowert, lowert_cut, cut_cut. reflexivity.
Qed.
Lemma state_counted : forall nm ms p p', state nm ms p -> p_heap p' = p_heap p -> p_line p' = p_line p -> p_freq p' = p_freq p -> (p_count p <= p_count p')%nat -> state nm ms p'.
Proof. intros nm ms p p' St H1 H2 H3 H4. apply (state_later nm ms p); assumption. Qed.
Lemma strange_next : forall p pad w rest, blank_line pad -> strange w -> gap rest -> exists p', tw_line p (strange_clean pad w rest) = (p', Err KeyError) /\
  p_heap p' = p_heap p /\ p_line p' = p_line p /\ p_freq p' = p_freq p /\ (p_count p <= p_count p')%nat.
Proof.
  intros p pad w rest P (N & C & K) G. unfold tw_line, strange_clean. cbn [next_name].
  destruct (split_head pad (lowert w) (cut (lowert rest))) as (tl & ->).
  - apply blank_of; exact P.
  - intros c I. unfold lowert in I. apply in_map_iff in I. destruct I as (d & <- & I). rewrite low_ws. apply (C d I).
  - destruct w; [contradiction|discriminate].
  - apply gap_lower. exact G.
  - assert (D : dget string_dec tw_classifiers (str (lowert (lowert w))) = None).
    { apply dget_none. intros I. rewrite lowert_lowert in I. rewrite str_lowert in I.
      assert (X : forall k, lower (str w) <> kind_word k).
      { intros k E. apply (K k). apply same_name_lower. change (string_of_list_ascii w) with (str w). rewrite E. destruct k; reflexivity. }
      destruct I as [I|[I|[I|[I|[I|[I|[I|[]]]]]]]]; symmetry in I; revert I; [apply (X Drift)|apply (X Quad)|apply (X DtlCell)|apply (X NCells)|apply (X SyncPhase)|apply (X Freq)|apply (X FieldMap)]. }
    rewrite D. eexists. split; [reflexivity|]. cbn. auto.
Qed.
Lemma call_strange : forall nm cs pad w rest y o ms, Forall (card_form fixed_point) cs -> blank_line pad -> strange w -> gap rest -> state nm ms (o_parser o) ->
  sanitize (o_deck o) = Ok (map body cs ++ strange_clean pad w rest :: y) ->
  exists o' new, call o = (o', Err KeyError) /\ o_deck o' = map body cs ++ strange_clean pad w rest :: y /\ state nm (ms ++ new) (o_parser o') /\
    map m_thing new = flat_map (fun c => things (c_kind c) (seen_values c)) cs.
Proof.
  intros nm cs pad w rest y o ms F P W G St Sn. unfold call. rewrite (run_ok _ _ Sn). rewrite tw_lines_app. destruct (cards_steps nm cs ms (o_parser o) St F) as (p & new & E & S' & Tt).
  rewrite E. cbn [and_then tw_lines]. destruct (strange_next p pad w rest P W G) as (p' & E' & H1 & H2 & H3 & H4). rewrite E'. cbn [and_then].
  do 2 eexists. refine (conj eq_refl (conj eq_refl (conj _ Tt))). exact (state_later _ _ p p' S' H1 H2 H3 H4).
Qed.
Lemma calls_strange : forall n nm cs pad w rest y o ms, Forall (card_form fixed_point) cs -> blank_line pad -> strange w -> gap rest -> sanitize y = Ok y -> state nm ms (o_parser o) ->
  sanitize (o_deck o) = Ok (map body cs ++ strange_clean pad w rest :: y) ->
  exists o' new, calls n o (Err KeyError) o' /\ state nm (ms ++ new) (o_parser o') /\
    map m_thing new = times n (flat_map (fun c => things (c_kind c) (seen_values c)) cs).
Proof.
  induction n as [|n IH]; intros nm cs pad w rest y o ms F P W G Y St Sn.
  - exists o, []. rewrite app_nil_r. refine (conj (CallsNone _ _) (conj St eq_refl)).
  - destruct (call_strange nm cs pad w rest y o ms F P W G St Sn) as (o1 & n1 & C & D & S1 & T1).
    destruct (IH nm cs pad w rest y o1 (ms ++ n1) F P W G Y S1) as (o2 & n2 & C2 & S2 & T2).
    { rewrite D. apply clean_strange; [exact F|]. cbn [sanitize]. rewrite Y. cbn [rbind]. apply strange_again; assumption. }
    exists o2, (n1 ++ n2). rewrite app_assoc. refine (conj _ (conj S2 _)); [econstructor; eassumption|]. rewrite map_app, T1, T2. reflexivity.
Qed.

(** A deck with another word, such as END, raises at every call, and every call adds the cards in
    front of it once more. *)
Theorem C116_other_word_refuted : forall a pad w rest b name n, Forall entry_ok a -> blank_line pad -> strange w -> gap rest -> Forall entry_ok b -> comments_inside b ->
  exists o, calls n (make (map entry_text a ++ (pad ++ w ++ rest) :: map entry_text b) name) (Err KeyError) o /\ holds o (times n (all_things a)).
Proof.
  intros a pad w rest b name n Fa P W G Fb Cb. pose proof (entries_fixed _ Fa) as Fa'. pose proof (entries_fixed _ Fb) as Fb'. set (file := map entry_text a ++ (pad ++ w ++ rest) :: map entry_text b).
  destruct (make_state file name) as [St D]. destruct (calls_strange n name (cards a) pad w rest (map body (cards b)) (make file name) []) as (o & new & Cs & S' & Tt); try assumption.
  - apply cards_form. exact Fa'.
  - apply clean_again. apply cards_form. exact Fb'.
  - rewrite D. unfold file. apply sanitize_app; [|exact Fa'| |].
    + cbn [sanitize]. rewrite (sanitize_entries b Fb' Cb). cbn [rbind]. apply sanitize_strange; assumption.
    + intros p0 pad0 rest0 q _. left. discriminate.
    + intros y r E. injection E as <- _. apply strange_cut; assumption.
  - exists o. split; [exact Cs|]. cbn [app] in S'. unfold holds, all_things. rewrite <- flat_map_seen by (apply cards_form; exact Fa). rewrite <- Tt. eapply state_consists. exact S'.
Qed.
Print Assumptions C116_other_word_refuted.
Example C116_other_word_applies : strange (T "END") /\ gap (T " 1 ; done") /\ Forall entry_ok sample_entries.
Proof. exact C48_other_word_applies. Qed.

(** The first call is the import of C48. *)
Theorem C116_first_call : forall file name, match tracewin file name, call (make file name) with (p, r), (o, r') => p = o_parser o /\ r = r' end.
Proof.
  assert (X : forall d, match sanitize d with Ok l => sanitize_run d = (l, Ok tt) | Err x => snd (sanitize_run d) = Err x | Diverges => snd (sanitize_run d) = Diverges end).
  { induction d as [|l d IH]; [reflexivity|]. cbn [sanitize sanitize_run]. destruct (sanitize d) as [m|x|]; cbn [rbind].
    - rewrite IH. destruct (sanitize_line l m); reflexivity.
    - destruct (sanitize_run d) as [? [|y|]]; cbn [snd] in *; [discriminate|exact IH|discriminate].
    - destruct (sanitize_run d) as [? [|y|]]; cbn [snd] in *; [discriminate|discriminate|exact IH]. }
  intros file name. unfold tracewin, call. cbn [make new_line empty_heap lines elems List.length app o_deck o_parser]. specialize (X file). destruct (sanitize file) as [l|x|]; cbn [need].
  - rewrite X. destruct (tw_lines _ l) as [p r]. split; reflexivity.
  - destruct (sanitize_run file) as [d [|y|]]; cbn [snd] in X; [discriminate|injection X as ->|discriminate]. split; reflexivity.
  - destruct (sanitize_run file) as [d [|y|]]; cbn [snd] in X; [discriminate|discriminate|]. split; reflexivity.
Qed.
Print Assumptions C116_first_call.

(** * Claim C143: the transfer matrix of an imported TraceWin deck. *)
From Coq Require Import List Reals Bool Arith String Ascii ZArith Lia Lra.
From Verif Require Import PyBase PyDict PyText Line_Model Line_Spec Line_Proofs Line_Proofs2 Lte_Spec Trace_Model Trace_Spec Trace_Proofs Trace_Proofs2 Trace_Proofs3.
From Verif Require Trace_Props Immat_Props.
Import ListNotations.
Open Scope R_scope.

(* ------------------------------------------------------------------ *)
(** ** Specification *)
Definition plain (k : kind) : Prop := k = Drift \/ k = Quad.
(** The matrix for a card, in the variables K1 and L *)
Inductive card_matrix : kind -> smat -> Prop :=
| M_drift : forall m, (forall v, m v = drift_matrix v) -> card_matrix Drift m
| M_quad : forall m, (forall v, m v = quad_matrix v) -> card_matrix Quad m.
Definition kinds (es : list entry) : list kind := map c_kind (cards es).

(* ------------------------------------------------------------------ *)
(** ** The heap of an import is well formed *)
Definition sound (p : parser) : Prop := wf (p_heap p) /\ types_ok (p_heap p).
Lemma sound_add : forall p name ty ps, sound p -> sound (fst (add p name ty ps)).
Proof.
  intros p name ty ps [H T]. unfold add. pose proof (wf_add_element (p_heap p) (p_line p) name ty ps false H) as W. pose proof (types_add_element (p_heap p) (p_line p) name ty ps false T) as V.
  destruct (add_element (p_heap p) (p_line p) name ty ps false) as [h r]. exact (conj W V).
Qed.
Lemma sound_then : forall s f, sound (fst s) -> (forall p, sound p -> sound (fst (f p))) -> sound (fst (and_then s f)).
Proof. intros [p [[]|x|]] f H G; cbn in *; [apply G; exact H|exact H|exact H]. Qed.
Lemma sound_need : forall {A} p (r : res A) f, sound p -> (forall x, sound (fst (f x))) -> sound (fst (need p r f)).
Proof. intros A p [x|x|] f H G; cbn; [apply G|exact H|exact H]. Qed.
Ltac sound := repeat first [assumption | apply sound_need; [assumption|intros ?] | apply sound_then; [|intros ? ?] | apply sound_add].
Lemma sound_handle : forall p ty name d, sound p -> sound (fst (handle p ty name d)).
Proof.
  intros p ty name d H. unfold handle. destruct (String.eqb ty "dtl_cel"); [unfold handle_dtl_cell; sound|]. destruct (String.eqb ty "freq"); [unfold handle_freq; apply sound_need; [exact H|intros x; exact H]|].
  destruct (String.eqb ty "ncells"); [unfold handle_ncells; destruct (p_freq p); [|exact H]; destruct (Req_EM_T _ _); [exact H|]; sound|].
  destruct (String.eqb ty "field_map"); [unfold handle_field_map; destruct (p_freq p); [|exact H]; sound|]. exact H.
Qed.
Lemma sound_line : forall p l, sound p -> sound (fst (tw_line p l)).
Proof.
  intros p l H. unfold tw_line. destruct (next_name p) as [name p1] eqn:N. assert (H1 : sound p1) by (unfold next_name in N; injection N as _ <-; exact H).
  destruct (split_ws l) as [|w ws]; [exact H1|]. destruct (dget string_dec tw_classifiers _); [|exact H1]. destruct (dget string_dec tw_elements _) as [ns|]; [|exact H1].
  apply sound_need; [exact H1|]. intros d. cbv zeta. assert (H2 : forall b : bool, sound (if b then p1 else snd (next_name p1))) by (intros []; exact H1).
  match goal with |- context [handle ?q ?a ?b ?c] => pose proof (sound_handle q a b c (H2 _)) as Q; destruct (handle q a b c) as [p3 [u|x|]] end; cbn [fst] in Q; [exact Q| |exact Q].
  destruct x; try exact Q. apply sound_add. exact Q.
Qed.
Lemma sound_lines : forall ls p, sound p -> sound (fst (tw_lines p ls)).
Proof. induction ls as [|l ls IH]; intros p H; [exact H|]. cbn [tw_lines]. apply sound_then; [apply sound_line; exact H|exact IH]. Qed.
Lemma sound_deck : forall deck name, sound (fst (tracewin deck name)).
Proof.
  intros deck name. unfold tracewin. assert (W : wf (fst (new_line empty_heap (Some name))) /\ types_ok (fst (new_line empty_heap (Some name)))).
  { split; [exact (wf_new_line empty_heap (Some name) wf_empty)|]. intros [|e] el X; discriminate X. }
  destruct (new_line empty_heap (Some name)) as [h a]. cbn [fst] in W.
  apply sound_need; [exact W|]. intros ls. apply sound_lines. exact W.
Qed.

(* ------------------------------------------------------------------ *)
(** ** The elements of the beamline *)
Lemma imported : forall es name, Forall entry_ok es -> comments_inside es -> exists p l addrs,
  tracewin (map entry_text es) name = (p, Ok tt) /\ wf (p_heap p) /\ p_line p = 0%nat /\ nth_error (lines (p_heap p)) 0 = Some l /\ l_seq l = map RE addrs /\
  Forall2 (fun a t => exists el, nth_error (elems (p_heap p)) a = Some el /\ e_type el = fst t) addrs (flat_map (fun c => things (c_kind c) (card_values c)) (cards es)).
Proof.
  intros es name F C. destruct (deck_steps name es (Trace_Props.entries_fixed _ F) C) as (p & ms & E & St & Tt).
  rewrite Trace_Props.flat_map_seen in Tt by (apply cards_form; exact F).
  assert (W : wf (p_heap p)) by (pose proof (sound_deck (map entry_text es) name) as W; rewrite E in W; exact (proj1 W)).
  pose proof (state_consists _ _ _ St) as (addrs & Sq & _ & Fa & _). rewrite Tt in Fa. destruct St as (_ & L0 & _). rewrite L0 in Sq. unfold sequence in Sq.
  destruct (nth_error (lines (p_heap p)) 0) as [l|] eqn:Ln; [|discriminate]. cbn [option_map] in Sq. injection Sq as Sq.
  exists p, l, addrs. refine (conj E (conj W (conj L0 (conj Ln (conj Sq _))))).
  clear - Fa. induction Fa as [|a t l m (el & H1 & H2 & _) Fa IH]; [apply Forall2_nil|apply Forall2_cons; [exists el; split; assumption|exact IH]].
Qed.
Definition type_of (k : kind) : string := match k with Drift => "drift" | _ => "quadrupole" end.
Lemma plain_things : forall cs, (forall c, In c cs -> plain (c_kind c)) ->
  Forall2 (fun t k => k = Drift /\ fst t = "drift"%string \/ k = Quad /\ fst t = "quadrupole"%string) (flat_map (fun c => things (c_kind c) (card_values c)) cs) (map c_kind cs).
Proof.
  induction cs as [|c cs IH]; intros P; [constructor|]. cbn [flat_map map]. destruct (P c (or_introl eq_refl)) as [E|E]; rewrite E; cbn [things app]; (constructor; [auto|apply IH; intros d I; apply P; right; exact I]).
Qed.
Lemma chain : forall {A B D} (P : A -> B -> Prop) (Q : B -> D -> Prop) l m n, Forall2 P l m -> Forall2 Q m n -> Forall2 (fun a d => exists b, P a b /\ Q b d) l n.
Proof. intros A B D P Q l m n F. revert n. induction F as [|a b l m H F IH]; intros n G; inversion G; subst; constructor; [exists b; split; assumption|apply IH; assumption]. Qed.

(* ------------------------------------------------------------------ *)
(** ** Theorems *)
(** Full statement: the transfer matrix of an imported deck is the product of the matrices of its
    cards, the first card acting first, with the numbers of the cards.  Missing: other cards than
    drifts and quadrupoles, and the numbers (both refuted below). *)
Theorem C143_order_partial : forall es name, Forall entry_ok es -> comments_inside es -> (forall k, In k (kinds es) -> plain k) -> kinds es <> [] ->
  exists p M ms, tracewin (map entry_text es) name = (p, Ok tt) /\ generate_matrix (p_heap p) (p_line p) = Ok M /\
    Forall2 card_matrix (kinds es) ms /\ forall v i j, (i < 4)%nat -> (j < 4)%nat -> M v i j = product (map (fun m => m v) ms) i j.
Proof.
  intros es name F C P N. destruct (imported es name F C) as (p & l & addrs & E & W & L0 & Ln & Sq & Fa).
  assert (Pt : forall c, In c (cards es) -> plain (c_kind c)) by (intros c I; apply P; unfold kinds; apply in_map; exact I).
  pose proof (chain _ _ _ _ _ Fa (plain_things _ Pt)) as G.
  destruct (Immat_Props.line_matrix (p_heap p) l addrs (map type_of (kinds es)) W Ln Sq) as (M & ms & GM & TM & Pr).
  - intros X. apply N. destruct (kinds es); [reflexivity|discriminate X].
  - unfold kinds. clear - G. induction G as [|a k addrs ks (t & (el & H1 & H2) & H3) G IH]; [constructor|]. cbn [map]. constructor; [|exact IH].
    exists el. split; [exact H1|]. destruct H3 as [[-> H3]|[-> H3]]; (split; [cbn; congruence|]); [right|left]; reflexivity.
  - exists p, M, ms. rewrite L0. refine (conj E (conj GM (conj _ Pr))).
    assert (Pk : forall k, In k (kinds es) -> plain k) by exact P. clear - TM Pk. remember (map type_of (kinds es)) as tys eqn:Q. revert Q. generalize (kinds es) Pk. clear Pk.
    induction TM as [|ty m tys ms H TM IH]; intros ks Pk Q; destruct ks as [|k ks]; try discriminate Q; [constructor|]. cbn [map] in Q. injection Q as -> Q.
    constructor; [|apply IH; [intros x I; apply Pk; right; exact I|exact Q]]. destruct (Pk k (or_introl eq_refl)) as [->| ->]; destruct H as [[X Y]|[X Y]]; try discriminate X; constructor; exact Y.
Qed.
Print Assumptions C143_order_partial.

Example C143_order_applies :
  let es := [Trace_Spec.Card (Trace_Props.simple Drift "DRIFT" [Trace_Props.num [1; 0]%nat [5]%nat]);
             Trace_Spec.Card (Trace_Props.simple Quad "quad" [Trace_Props.num [1; 0; 0]%nat []; Trace_Props.neg (Trace_Props.num [3]%nat [5]%nat)])] in
  Forall entry_ok es /\ comments_inside es /\ kinds es = [Drift; Quad].
Proof.
  split; [|split; [|reflexivity]].
  - repeat (constructor; [Trace_Props.card_is|]). constructor.
  - intros a pad rest b Y. destruct a as [|x [|y [|z a]]]; discriminate Y.
Qed.

(** The numbers of the cards are not used: decks with the same sequence of words have the same
    matrix, whatever their lengths and strengths. *)
Lemma same_matrices : forall ks ms ms' v, Forall2 card_matrix ks ms -> Forall2 card_matrix ks ms' -> map (fun m : smat => m v) ms = map (fun m => m v) ms'.
Proof.
  intros ks ms ms' v F. revert ms'. induction F as [|k m ks ms H F IH]; intros ms' G; inversion G as [|? m' ? ms2 H' G' Q1 Q2]; subst; [reflexivity|]. cbn [map]. f_equal; [|apply IH; exact G'].
  inversion H; subst; inversion H'; subst; congruence.
Qed.
Theorem C143_numbers_refuted : forall es es' name name', Forall entry_ok es -> comments_inside es -> Forall entry_ok es' -> comments_inside es' ->
  (forall k, In k (kinds es) -> plain k) -> kinds es <> [] -> kinds es' = kinds es ->
  exists p p' M M', tracewin (map entry_text es) name = (p, Ok tt) /\ tracewin (map entry_text es') name' = (p', Ok tt) /\
    generate_matrix (p_heap p) (p_line p) = Ok M /\ generate_matrix (p_heap p') (p_line p') = Ok M' /\
    forall v i j, (i < 4)%nat -> (j < 4)%nat -> M v i j = M' v i j.
Proof.
  intros es es' name name' F C F' C' P N K. destruct (C143_order_partial es name F C P N) as (p & M & ms & E & G & Fm & V).
  destruct (C143_order_partial es' name' F' C') as (p' & M' & ms' & E' & G' & Fm' & V'); [rewrite K; exact P|rewrite K; exact N|].
  exists p, p', M, M'. refine (conj E (conj E' (conj G (conj G' _)))). intros v i j Hi Hj. rewrite K in Fm'. eapply eq_trans; [apply V; assumption|]. eapply eq_trans; [|symmetry; apply V'; assumption].
  exact (f_equal (fun q => product q i j) (same_matrices _ _ _ v Fm Fm')).
Qed.
Print Assumptions C143_numbers_refuted.

(** One card of any other word, such as a frequency or a cavity, and there is no matrix. *)
Lemma odd_thing : forall k vs, ~ plain k -> exists t, In t (things k vs) /\ ~ Immat_Props.has_matrix (fst t).
Proof.
  assert (Q : forall (ty : string) x, ~ Immat_Props.has_matrix ty -> exists t : thing, In t [(ty, x)] /\ ~ Immat_Props.has_matrix (fst t)) by (intros ty x H; exists (ty, x); split; [left; reflexivity|exact H]).
  intros k vs N. destruct k; try (exfalso; apply N; unfold plain; tauto); cbn [things]; try (apply Q; intros [X|X]; discriminate X).
  destruct vs as [|l [|q1 [|q2 [|g [|b1 [|b2 [|vo [|ph r]]]]]]]]; try (apply Q; intros [X|X]; discriminate X).
  eexists. split; [right; left; reflexivity|]. intros [X|X]; discriminate X.
Qed.
Lemma first_odd : forall h addrs (ts : list thing), Forall2 (fun a t => exists el, nth_error (elems h) a = Some el /\ e_type el = fst t) addrs ts ->
  (exists t, In t ts /\ ~ Immat_Props.has_matrix (fst t)) -> exists pre a post el, addrs = pre ++ a :: post /\
  (forall x, In x pre -> exists el, nth_error (elems h) x = Some el /\ Immat_Props.has_matrix (e_type el)) /\ nth_error (elems h) a = Some el /\ ~ Immat_Props.has_matrix (e_type el).
Proof.
  intros h addrs ts F. induction F as [|a t addrs ts (el & H1 & H2) F IH]; intros (t0 & I & N); [destruct I|].
  assert (D : Immat_Props.has_matrix (e_type el) \/ ~ Immat_Props.has_matrix (e_type el)).
  { unfold Immat_Props.has_matrix. destruct (string_dec (e_type el) "quadrupole"); [tauto|]. destruct (string_dec (e_type el) "drift"); tauto. }
  destruct D as [D|D].
  - destruct IH as (pre & b & post & el' & -> & P & X & Y).
    + exists t0. split; [|exact N]. destruct I as [<-|I]; [|exact I]. exfalso. apply N. rewrite <- H2. exact D.
    + exists (a :: pre), b, post, el'. split; [reflexivity|]. split; [|split; assumption]. intros x [<-|Ix]; [exists el; split; assumption|apply P; exact Ix].
  - exists [], a, addrs, el. split; [reflexivity|]. split; [intros x []|]. split; assumption.
Qed.
Theorem C143_others_refuted : forall es name k, Forall entry_ok es -> comments_inside es -> In k (kinds es) -> ~ plain k ->
  exists p, tracewin (map entry_text es) name = (p, Ok tt) /\ generate_matrix (p_heap p) (p_line p) = Err KeyError.
Proof.
  intros es name k F C I N. destruct (imported es name F C) as (p & l & addrs & E & W & L0 & Ln & Sq & Fa). exists p. split; [exact E|]. rewrite L0.
  unfold kinds in I. apply in_map_iff in I. destruct I as (c & <- & I). destruct (odd_thing (c_kind c) (card_values c) N) as (t & It & Nt).
  destruct (first_odd _ _ _ Fa) as (pre & a & post & el & -> & P & X & Y); [exists t; split; [apply in_flat_map; exists c; split; assumption|exact Nt]|].
  apply (Immat_Props.stops_at (p_heap p) l pre (RE a) (map RE post) KeyError W Ln); [rewrite Sq, map_app; reflexivity|exact P|]. apply (Immat_Props.no_matrix _ _ el); assumption.
Qed.
Print Assumptions C143_others_refuted.
(** the deck of C48 has a frequency and a DTL cell *)
Example C143_others_applies : Forall entry_ok Trace_Props.sample_entries /\ comments_inside Trace_Props.sample_entries /\ In Freq (kinds Trace_Props.sample_entries) /\ ~ plain Freq.
Proof. destruct Trace_Props.C48_applies as (F & C & _). refine (conj F (conj C (conj _ _))); [cbn; tauto|intros [X|X]; discriminate X]. Qed.

(** * Claim C139: the positions of the elements of an imported lattice. *)
From Coq Require Import List Reals Bool Arith String Ascii ZArith Lia Lra.
From Verif Require Import PyBase PyDict PyText Line_Model Line_Spec Lte_Model Lte_Spec Line_Proofs Lte_Proofs Lte_Proofs2 Lte_Proofs3 Lte_Proofs4 Lte_Proofs5 Lte_Proofs6 Lte_Props Ltelen_Props.
From Verif Require Json_Model Json_Spec Json_Proofs Json_Props Jsonlen_Props.
Import ListNotations.
Open Scope R_scope.

(* ------------------------------------------------------------------ *)
(** ** Specification *)
(** Every element is at the sum of the lengths before it, and the last ends at the length of the line. *)
Definition placed (h : heap) (a : nat) (addrs : list nat) (rs : list R) : Prop :=
  (forall i e, nth_error addrs i = Some e -> edge_of h e = Ok (total (firstn i rs))) /\ length_of h a = Ok (total rs).

(* ------------------------------------------------------------------ *)
(** ** Proofs *)
Lemma root_top : forall h l, wf h -> nth_error (lines h) 0 = Some l -> l_top l = 0%nat.
Proof.
  intros h l [W _] H. destruct (W 0%nat l H) as (_ & _ & _ & _ & _ & [E|(p & lp & Hp & I)]); [exact E|].
  destruct (W p lp Hp) as (_ & W2 & _). destruct (W2 _ I) as (C & _). lia.
Qed.
Lemma expanded_line : forall h, wf h -> forall s l, expands h s l -> forall t, (forall e, In (RE e) s -> exists el, nth_error (elems h) e = Some el /\ e_line el = Some t) ->
  (forall b, In (RL b) s -> exists lb, nth_error (lines h) b = Some lb /\ l_top lb = t) -> forall e, In e l -> exists el, nth_error (elems h) e = Some el /\ e_line el = Some t.
Proof.
  intros h [W K] s l X. induction X as [|e r l X IH|b s r l1 l2 Hs X1 IH1 X2 IH2]; intros t A B x I; [contradiction| |].
  - destruct I as [<-|I]; [apply A; now left|]. apply (IH t); [intros y J; apply A; now right|intros y J; apply B; now right|exact I].
  - apply in_app_iff in I. destruct I as [I|I].
    + destruct (B b (or_introl eq_refl)) as (lb & Hb & Tb). destruct (W b lb Hb) as (W1 & W2 & _). unfold sequence in Hs. rewrite Hb in Hs. injection Hs as <-.
      apply (IH1 t); [intros y J; rewrite <- Tb; now apply W1|intros y J; rewrite <- Tb; destruct (W2 y J) as (_ & lc & Hc & Tc); eauto|exact I].
    + apply (IH2 t); [intros y J; apply A; now right|intros y J; apply B; now right|exact I].
Qed.
Lemma lines_of_root : forall h l0 addrs, wf h -> nth_error (lines h) 0 = Some l0 -> get_beamline_elements h 0 = Ok addrs ->
  forall e, In e addrs -> exists el, nth_error (elems h) e = Some el /\ e_line el = Some 0%nat.
Proof.
  intros h l0 addrs W H G e I. destruct (gbe_ok h 0 l0 W H) as (es & G' & X). rewrite G in G'. injection G' as <-. pose proof (root_top h l0 W H) as T0. destruct W as [W K]. destruct (W 0%nat l0 H) as (W1 & W2 & _).
  apply (expanded_line h (conj W K) _ _ X 0%nat); [intros y J; rewrite <- T0; now apply W1|intros y J; rewrite <- T0; destruct (W2 y J) as (_ & lc & Hc & Tc); eauto|exact I].
Qed.
Lemma edge_before : forall h addrs rs, Forall2 (fun a r => forall acc, add_length h acc a = Ok (acc + r)) addrs rs -> NoDup addrs ->
  forall i e, nth_error addrs i = Some e -> forall acc, edge_loop h e acc addrs = Ok (acc + total (firstn i rs)).
Proof.
  intros h addrs rs F. induction F as [|a r addrs rs A F IH]; intros N i e H acc; [destruct i; discriminate|]. inversion N as [|? ? N1 N2]; subst. cbn [edge_loop]. destruct i as [|i].
  - injection H as ->. rewrite Nat.eqb_refl. f_equal. unfold total. cbn. ring.
  - cbn [nth_error] in H. assert (Ne : a <> e) by (intros ->; apply N1; eapply nth_error_In; exact H). apply Nat.eqb_neq in Ne. rewrite Ne, A. cbn [rbind].
    rewrite (IH N2 i e H). f_equal. unfold total. cbn [firstn fold_right]. ring.
Qed.
Lemma sum_all : forall h addrs rs, Forall2 (fun a r => forall acc, add_length h acc a = Ok (acc + r)) addrs rs -> forall acc, sum_lengths h acc addrs = Ok (acc + total rs).
Proof.
  intros h addrs rs F. induction F as [|a r addrs rs A F IH]; intros acc; cbn [sum_lengths]; [f_equal; unfold total; cbn; ring|]. rewrite A. cbn [rbind]. rewrite IH. f_equal. unfold total. cbn [fold_right]. ring.
Qed.
Lemma all_placed : forall h l0 addrs rs, wf h -> nth_error (lines h) 0 = Some l0 -> get_beamline_elements h 0 = Ok addrs -> NoDup addrs ->
  Forall2 (fun a r => forall acc, add_length h acc a = Ok (acc + r)) addrs rs -> placed h 0 addrs rs.
Proof.
  intros h l0 addrs rs W H G N F. split.
  - intros i e Hi. destruct (lines_of_root h l0 addrs W H G e (nth_error_In _ _ Hi)) as (el & He & Le). unfold edge_of. rewrite He, Le, G. cbn [rbind].
    rewrite (edge_before h addrs rs F N i e Hi). f_equal. ring.
  - unfold length_of. rewrite G. cbn [rbind]. rewrite (sum_all h addrs rs F). f_equal. ring.
Qed.
Lemma distinct_addresses : forall {A} (R : nat -> A -> Prop) addrs xs, Forall2 R addrs xs -> (forall a x y, R a x -> R a y -> In x xs -> In y xs -> x = y) -> NoDup xs -> NoDup addrs.
Proof.
  intros A R addrs xs F. induction F as [|a x addrs xs H F IH]; intros U N; [constructor|]. inversion N as [|? ? N1 N2]; subst. constructor.
  - intros I. apply N1. assert (X : exists y, In y xs /\ R a y).
    { clear - F I. induction F as [|b y addrs xs B F IH]; [contradiction|]. destruct I as [->|I]; [exists y; split; [now left|exact B]|]. destruct (IH I) as (z & J & C). exists z. split; [now right|exact C]. }
    destruct X as (y & J & B). now rewrite (U a x y H B (or_introl eq_refl) (or_intror J)).
  - apply IH; [|exact N2]. intros b y z B C I J. apply (U b); auto; now right.
Qed.

(* ------------------------------------------------------------------ *)
(** ** C139 Positions.
    Full statement: every occurrence of an element is at the sum of the lengths before it. An
    element occurring twice has one position (refuted below), so the elements occur once each. *)
Theorem C139_elegant_partial : forall es sel before items tail els uses rs beamline_name show,
  lattice_ok es -> In (Line sel before items tail) es -> unfolds es items els uses -> NoDup uses -> lowert beamline_name = bare sel ->
  Forall2 (has_length es) els rs -> NoDup els ->
  exists k h addrs, (forall fuel, (k <= fuel)%nat -> import fuel show (map entry_text es) beamline_name = (h, Ok tt)) /\
    get_beamline_elements h 0 = Ok addrs /\ Forall2 (fun a n => exists el, nth_error (elems h) a = Some el /\ is_element es n el) addrs els /\ placed h 0 addrs rs.
Proof.
  intros es sel before items tail els uses rs bn show L I U ND E Hl Nd. destruct (import_ok es sel before items tail els uses bn show L I U ND E) as (k & h & R & G).
  destruct (good_flat _ _ _ _ _ G) as (addrs & G1 & F). exists k, h, addrs. split; [exact R|]. split; [exact G1|]. split; [exact F|].
  destruct G as ((l0 & subs & Ln & _) & W & _). apply (all_placed h l0); [exact W|rewrite Ln; reflexivity|exact G1| |].
  - apply (distinct_addresses _ _ _ F); [|exact Nd]. intros a x y (e1 & H1 & d1 & _ & _ & N1 & _) (e2 & H2 & d2 & _ & _ & N2 & _) _ _. rewrite H1 in H2. injection H2 as <-. apply str_inj. congruence.
  - clear - F Hl L. revert rs Hl. induction F as [|a n addrs els A F IH]; intros rs Hl; inversion Hl; subst; constructor; [|auto]. intros acc. eapply one_length; eauto.
Qed.
Print Assumptions C139_elegant_partial.
Import Json_Model Json_Spec Json_Proofs Json_Props Jsonlen_Props.
Open Scope R_scope.
Theorem C139_records_partial : forall M k es (len : jelem -> R), one_meaning M -> free_keys M -> lines_named_once M -> back_flat M ->
  In k (m_lines M) -> expansion M (jl_items k) es -> (forall e, In e es -> recorded_length M e (len e)) -> NoDup es ->
  exists enough, forall limit, (enough <= limit)%nat -> exists h addrs,
    parse_json limit M (jl_name k) = Ok (h, 0%nat) /\ get_beamline_elements h 0 = Ok addrs /\ Forall2 (imported M h) addrs es /\ placed h 0 addrs (map len es).
Proof.
  intros M k es len O Fk Nm Bf Ik H Ls Nd.
  assert (C : coded M (jl_items k) es) by (apply expansion_coded; auto; intros i c J1 J2 J3 J4; exact (Bf k i c Ik J1 J2 J3 J4)).
  destruct (gen_ok M O Fk Nm _ _ C (Nm k Ik)) as [n Hn]. exists n. intros limit L. unfold parse_json. rewrite (found_name M k O Ik).
  pose proof (wf_new_line empty_heap (Some (jl_name k)) wf_empty) as W. cbn in W. cbn [new_line].
  destruct (Hn limit L _ 0%nat _ W eq_refl) as (h' & l' & s & addrs & E & W' & _ & _ & Ha & Sq & _ & Ex & F); [intros m e D; discriminate|reflexivity|].
  cbn [new_line empty_heap elems lines List.length app] in *. rewrite E. exists h', addrs. split; [reflexivity|]. destruct (gbe_ok h' 0 l' W' Ha) as (es2 & G & Ex').
  rewrite Sq in Ex'. cbn [l_seq app] in Ex'. pose proof (expands_fun _ _ _ Ex' _ Ex) as ->. split; [exact G|].
  assert (F2 : Forall2 (imported M h') addrs es) by (clear - O F; induction F; constructor; auto; apply exact_imported; assumption). split; [exact F2|].
  apply (all_placed h' l'); [exact W'|exact Ha|exact G| |].
  - apply (distinct_addresses _ _ _ F2); [|exact Nd]. intros a x y (e1 & H1 & N1 & _) (e2 & H2 & N2 & _) Ix Iy. rewrite H1 in H2. injection H2 as <-.
    assert (Mx : forall z, In z es -> In z (m_elems M)).
    { clear - H. induction H as [|i e r l I Ei H IH|i c r l1 l2 I Ei H1 IH1 H2 IH2|i c r l1 l2 I Ei Ng H1 IH1 H2 IH2]; intros z J; [contradiction| | |].
      - destruct J as [<-|J]; auto.
      - apply in_app_iff in J. destruct J; auto.
      - apply in_app_iff in J. destruct J as [J|J]; auto. apply IH1. now apply in_rev. }
    destruct O as (_ & _ & _ & Nn & _). pose proof (Mx x Ix) as Jx. pose proof (Mx y Iy) as Jy. assert (Q : je_name x = je_name y) by congruence. clear - Nn Jx Jy Q.
    induction (m_elems M) as [|z l IH]; [contradiction|]. cbn [map] in Nn. inversion Nn as [|? ? N1 N2]; subst. destruct Jx as [->|Jx], Jy as [->|Jy]; auto; exfalso; apply N1; [rewrite Q|rewrite <- Q]; now apply in_map.
  - clear - F2 O Ls. induction F2 as [|a e addrs es A F IH]; cbn [map]; constructor; [|apply IH; intros x I; apply Ls; now right]. intros acc. apply (imported_length M h' a e); auto. apply Ls. now left.
Qed.
Print Assumptions C139_records_partial.

(** An element that occurs twice has the position of its first occurrence: in d m d, of lengths 2
    and 3, the third is at 0 and not at 5. *)
Definition edges_read (r : heap * res unit) : option (list (res R)) :=
  match r with (h, Ok _) => match get_beamline_elements h 0 with Ok l => Some (map (edge_of h) l) | _ => None end | _ => None end.
Theorem C139_repeated_refuted : exists k x y z, (forall fuel, (k <= fuel)%nat ->
  edges_read (import fuel no_show (file_of ["d: drift, l=2"; "m: drift, l=3"; "main: line=(d,m,d)"]%string) (T "main")) = Some [Ok x; Ok y; Ok z]) /\ x = 0 /\ y = 2 /\ z = 0.
Proof.
  exists 12%nat. do 3 eexists. split.
  - intros fuel H. replace fuel with (12 + (fuel - 12))%nat by lia. vm_compute. reflexivity.
  - repeat split; lra.
Qed.
Print Assumptions C139_repeated_refuted.
Lemma as_many : forall {A B} {R : A -> B -> Prop} {l m}, Forall2 R l m -> List.length l = List.length m.
Proof. intros A B R l m F. induction F; cbn; congruence. Qed.
(** Cases: a drift of length 6 and a mark; records of lengths 3, 7 and none in two lines. *)
Definition both : list item := [One (name "d1"); One (name "m")].
Definition small_lattice : list entry := [Define Lte_Props.drift; Define Lte_Props.mark; Line (T "both") (T " ") both [newline]].
Lemma small_ok : lattice_ok small_lattice.
Proof.
  destruct other_lattice_ok as [F _]. split.
  - inversion F as [|? ? F1 G]; subst. inversion G as [|? ? F2 G2]; subst. constructor; [exact F1|constructor; [exact F2|constructor; [|constructor]]].
    split; [apply lower_by; vm_compute; reflexivity|]. split; [apply identifier_by; [discriminate|reflexivity]|]. split; [apply blank_by; reflexivity|]. split; [apply blank_by; reflexivity|].
    split; [discriminate|]. split; [|left; reflexivity]. repeat (constructor; [apply name_by; (discriminate || reflexivity)|]). constructor.
  - cbn. repeat constructor; cbn; intuition discriminate.
Qed.
Definition small_records : models := {| m_lines := [ln 10 "main" [1; 20]%Z; ln 20 "cell" [2; 3]%Z]; m_elems := [numbered; variable; unmeasured]; m_rpn := [("len"%string, VNum 7)] |}.
Example C139_applies : forall show,
  (exists k h addrs, (forall fuel, (k <= fuel)%nat -> import fuel show (map entry_text small_lattice) (T "both") = (h, Ok tt)) /\ get_beamline_elements h 0 = Ok addrs /\
    List.length addrs = 2%nat /\ placed h 0 addrs [6; 0]) /\
  (exists enough, forall limit, (enough <= limit)%nat -> exists h addrs, parse_json limit small_records "main" = Ok (h, 0%nat) /\ get_beamline_elements h 0 = Ok addrs /\
    List.length addrs = 3%nat /\ placed h 0 addrs [3; 7; 0]).
Proof.
  intros show. split.
  - assert (D : In (Define Lte_Props.drift) small_lattice) by (left; reflexivity). assert (Mk : In (Define Lte_Props.mark) small_lattice) by (right; left; reflexivity).
    destruct (C139_elegant_partial small_lattice (T "both") (T " ") both [newline] [T "d1"; T "m"] [] [6; 0] (T "both") show) as (k & h & addrs & R & G & F & P).
    + exact small_ok.
    + right; right; left; reflexivity.
    + apply (unfolds_element _ (name "d1") Lte_Props.drift _ _ _ D eq_refl). apply (unfolds_element _ (name "m") Lte_Props.mark _ _ _ Mk eq_refl). constructor.
    + constructor.
    + reflexivity.
    + repeat (constructor; [intros d I N; cbn [small_lattice In] in I; destruct I as [I|[I|[I|[]]]]; try discriminate; injection I as <-; try discriminate;
        first [left; eexists; split; [left; reflexivity|split; reflexivity] | right; split; [intros p []|reflexivity]]|]). constructor.
    + repeat (constructor; [cbn; intuition discriminate|]). constructor.
    + exists k, h, addrs. split; [exact R|]. split; [exact G|]. split; [|exact P]. now rewrite (as_many F).
  - destruct (C139_records_partial small_records (ln 10 "main" [1; 20]%Z) [numbered; variable; unmeasured] lengths) as (n & A).
    + unfold one_meaning. repeat match goal with |- _ /\ _ => split end; try (cbn; repeat (constructor; [cbn; intuition discriminate|]); constructor). intros i H. named H; lia.
    + intros e k v H1 H2. named H1; subst e; named H2; injection H2 as <- _; repeat split; discriminate.
    + intros k H. apply once_by. named H; subst k; reflexivity.
    + intros k i c H1 H2 H3. named H1; subst k; named H2; subst i; lia.
    + left. reflexivity.
    + apply ex_elem; [cbn; tauto|reflexivity|]. apply (ex_line small_records 20 (ln 20 "cell" [2; 3]%Z) [] [variable; unmeasured] []); [cbn; tauto|reflexivity| |constructor].
      repeat (apply ex_elem; [cbn; tauto|reflexivity|]). constructor.
    + intros e I. destruct (turned_lengths e) as [(v & Lv & Mv)|X]; [cbn in *; tauto| |right; exact X]. left. exists v. split; [exact Lv|]. inversion Mv; subst; constructor; assumption.
    + repeat (constructor; [cbn; intuition discriminate|]). constructor.
    + exists n. intros limit L. destruct (A limit L) as (h & addrs & P & G & F & Q). exists h, addrs. split; [exact P|]. split; [exact G|]. split; [now rewrite (as_many F)|exact Q].
Qed.

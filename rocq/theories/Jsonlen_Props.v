(** * Claim C137: the elements and the length of a lattice imported from records, lines taken backwards included. *)
From Coq Require Import List Reals Bool Arith String ZArith Lia Lra Permutation.
From Verif Require Import PyBase PyDict Line_Model Line_Spec Line_Proofs Json_Model Json_Spec Json_Proofs Json_Props.
Import ListNotations.
Open Scope Z_scope.

(* ------------------------------------------------------------------ *)
(** ** Specification *)
(** The length recorded for an element: the meaning of what was recorded last under l, in any
    capitalisation, or nothing *)
Definition recorded_length (M : models) (e : jelem) (r : R) : Prop :=
  (exists v, last_value "L" (je_fields e) (Some v) /\ meaning M v (VNum r)) \/ (last_value "L" (je_fields e) None /\ r = 0%R).

(* ------------------------------------------------------------------ *)
(** ** Proofs *)
Lemma coded_app : forall M a la, coded M a la -> forall b lb, coded M b lb -> coded M (a ++ b) (la ++ lb).
Proof.
  intros M a la H. induction H as [|e r l I H IH|i k r l1 l2 I E H1 IH1 H2 IH2]; intros b lb B; cbn [app].
  - exact B.
  - constructor; auto.
  - rewrite <- app_assoc. apply (c_line M i k); auto.
Qed.
Lemma coded_rev : forall M a la, coded M a la -> exists lr, coded M (rev a) lr /\ Permutation la lr.
Proof.
  intros M a la H. induction H as [|e r l I H IH|i k r l1 l2 I E H1 IH1 H2 IH2]; cbn [rev].
  - exists []. split; constructor.
  - destruct IH as (lr & C & P). exists (lr ++ [e]). split; [apply coded_app; [exact C|repeat constructor; exact I]|]. rewrite P. apply Permutation_cons_append.
  - destruct IH2 as (lr & C & P). exists (lr ++ (l1 ++ [])). split; [apply coded_app; [exact C|apply (c_line M i k); auto; constructor]|].
    rewrite app_nil_r, P. apply Permutation_app_comm.
Qed.
Lemma expansion_coded_any : forall M, one_meaning M -> forall items l, expansion M items l -> exists l', coded M items l' /\ Permutation l l'.
Proof.
  intros M O items l H. induction H as [|i e r l I E H IH|i k r l1 l2 I E H1 IH1 H2 IH2|i k r l1 l2 I E Ng H1 IH1 H2 IH2].
  - exists []. split; constructor.
  - destruct IH as (l' & C & P). subst i. exists (e :: l'). split; [now constructor|now constructor].
  - destruct IH1 as (m1 & C1 & P1), IH2 as (m2 & C2 & P2). exists (m1 ++ m2). split; [|now apply Permutation_app].
    assert (Pi : 0 < i) by (destruct O as (_ & P & _); apply P; apply in_app_iff; left; subst i; apply in_map; exact I).
    apply (c_line M i k); [exact I|rewrite Z.abs_eq; lia| |exact C2]. destruct (0 <=? i) eqn:Q; [exact C1|apply Z.leb_gt in Q; lia].
  - destruct IH1 as (m1 & C1 & P1), IH2 as (m2 & C2 & P2). destruct (coded_rev _ _ _ C1) as (mr & Cr & Pr). exists (mr ++ m2). split.
    + apply (c_line M i k); [exact I|rewrite Z.abs_neq; lia| |exact C2]. destruct (0 <=? i) eqn:Q; [apply Z.leb_le in Q; lia|exact Cr].
    + apply Permutation_app; [|exact P2]. transitivity l1; [symmetry; apply Permutation_rev|]. now transitivity m1.
Qed.
Lemma recorded_fun : forall k (l : list (string * value)) o1 o2, last_value k l o1 -> last_value k l o2 -> o1 = o2.
Proof.
  intros k l o1 o2 H1 H2. pose proof (last_value_get k l o1 [] H1) as A. pose proof (last_value_get k l o2 [] H2) as B.
  destruct o1, o2; cbn in *; congruence.
Qed.
Lemma meaning_fun : forall M v w1 w2, one_meaning M -> meaning M v w1 -> meaning M v w2 -> w1 = w2.
Proof.
  intros M v w1 w2 (_ & _ & _ & _ & N) A B. destruct A as [s v I|s A|r]; inversion B as [s' v' I' Es|s' A' Es|r' Es]; subst; auto.
  - clear - N I I'. induction (m_rpn M) as [|[k x] l IH]; [contradiction|]. cbn in N. inversion N as [|? ? N1 N2]; subst.
    destruct I as [E|I], I' as [E'|I']; [congruence| | |auto].
    + injection E as -> ->. exfalso. apply N1. now apply (in_map fst) in I'.
    + injection E' as -> ->. exfalso. apply N1. now apply (in_map fst) in I.
  - exfalso. now apply (A' v).
  - exfalso. now apply (A w2).
Qed.
Lemma l_not_id : ~ same_name "L" "_id".
Proof. intros H. inversion H as [|? ? ? ? _ H1]; subst. inversion H1. Qed.
Lemma imported_length : forall M h a e r, one_meaning M -> imported M h a e -> recorded_length M e r -> forall acc, add_length h acc a = Ok (acc + r)%R.
Proof.
  intros M h a e r O (x & Ex & _ & _ & K) H acc. unfold add_length. unfold element_at in Ex. rewrite Ex.
  destruct (K "L"%string) as [X|[(v & w & L & Mw & G)|(L & G)]]; [now destruct l_not_id| |].
  - rewrite G. destruct H as [(v' & L' & Mr)|(L' & _)]; [|discriminate (recorded_fun _ _ _ _ L L')].
    injection (recorded_fun _ _ _ _ L L') as <-. now rewrite (meaning_fun M v w (VNum r) O Mw Mr).
  - rewrite G. destruct H as [(v' & L' & _)|(_ & ->)]; [discriminate (recorded_fun _ _ _ _ L L')|]. f_equal. ring.
Qed.
Lemma imported_total : forall M h (len : jelem -> R) addrs es, one_meaning M -> Forall2 (imported M h) addrs es -> (forall e, In e es -> recorded_length M e (len e)) ->
  forall acc, sum_lengths h acc addrs = Ok (acc + total (map len es))%R.
Proof.
  intros M h len addrs es O F. induction F as [|a e addrs es A F IH]; intros H acc; cbn [sum_lengths map].
  - f_equal. unfold total. cbn. ring.
  - rewrite (imported_length M h a e (len e) O A (H e (or_introl eq_refl))). cbn [rbind]. rewrite (IH (fun x I => H x (or_intror I))). f_equal. unfold total. cbn [fold_right]. ring.
Qed.
Lemma total_perm : forall l l', Permutation l l' -> total l = total l'.
Proof. intros l l' P. unfold total. induction P; cbn [fold_right]; [reflexivity|now rewrite IHP|ring|congruence]. Qed.
Lemma total_text : forall h addrs, (forall a, In a addrs -> exists x, nth_error (elems h) a = Some x) ->
  (exists a x s, In a addrs /\ nth_error (elems h) a = Some x /\ agn_get (e_params x) "L" = Some (VStr s)) -> forall acc, sum_lengths h acc addrs = Err TypeError.
Proof.
  intros h addrs. induction addrs as [|a addrs IH]; intros A (b & x & s & I & E & G) acc; [contradiction|]. cbn [sum_lengths].
  destruct (A a (or_introl eq_refl)) as (ea & Ea). unfold add_length. rewrite Ea.
  destruct I as [->|I].
  - rewrite Ea in E. injection E as ->. now rewrite G.
  - destruct (agn_get (e_params ea) "L") as [[v|t]|]; cbn [rbind]; try reflexivity; (apply IH; [intros c J; apply A; now right|exists b, x, s; auto]).
Qed.

(* ------------------------------------------------------------------ *)
(** ** C137 Elements of an imported lattice, whatever is taken backwards.
    Where a line of lines is taken backwards the order is not that of C45, but the elements are
    those of the expansion, each as often. *)
Theorem C137_same_elements_partial : forall M k es, one_meaning M -> free_keys M -> lines_named_once M ->
  In k (m_lines M) -> expansion M (jl_items k) es ->
  exists es' enough, Permutation es es' /\ forall limit, (enough <= limit)%nat -> exists h a addrs,
    parse_json limit M (jl_name k) = Ok (h, a) /\ get_beamline_elements h a = Ok addrs /\ Forall2 (imported M h) addrs es'.
Proof.
  intros M k es O Fk Nm Ik H. destruct (expansion_coded_any M O _ _ H) as (es' & C & P). exists es'.
  destruct (gen_ok M O Fk Nm _ _ C (Nm k Ik)) as [n Hn]. exists n. split; [exact P|]. intros limit L. unfold parse_json. rewrite (found_name M k O Ik).
  pose proof (wf_new_line empty_heap (Some (jl_name k)) wf_empty) as W. destruct (new_line empty_heap (Some (jl_name k))) as [h0 a0] eqn:E0.
  unfold new_line in E0. cbn in E0. injection E0 as E0h E0a. cbn [fst] in W.
  destruct (Hn limit L h0 a0 {| l_name := Some (jl_name k); l_elements := []; l_lines := []; l_seq := []; l_top := 0%nat |} W)
    as (h' & l' & s & addrs & E & W' & _ & _ & Ha & Sq & _ & Ex & F).
  - subst h0 a0. reflexivity.
  - intros m e D. discriminate.
  - reflexivity.
  - rewrite E. exists h', a0, addrs. split; [reflexivity|]. destruct (gbe_ok h' a0 l' W' Ha) as (es2 & G & Ex').
    rewrite Sq in Ex'. cbn [l_seq app] in Ex'. split; [rewrite G; f_equal; eapply expands_fun; eauto|].
    clear - O F. induction F; constructor; auto. apply exact_imported; assumption.
Qed.
Print Assumptions C137_same_elements_partial.
(** The length is the sum of the recorded lengths of the elements, variables replaced. *)
Theorem C137_length_partial : forall M k es (len : jelem -> R), one_meaning M -> free_keys M -> lines_named_once M ->
  In k (m_lines M) -> expansion M (jl_items k) es -> (forall e, In e es -> recorded_length M e (len e)) ->
  exists enough, forall limit, (enough <= limit)%nat -> exists h a, parse_json limit M (jl_name k) = Ok (h, a) /\ length_of h a = Ok (total (map len es)).
Proof.
  intros M k es len O Fk Nm Ik H Ls. destruct (C137_same_elements_partial M k es O Fk Nm Ik H) as (es' & n & P & Q). exists n. intros limit L.
  destruct (Q limit L) as (h & a & addrs & E & G & F). exists h, a. split; [exact E|]. unfold length_of. rewrite G. cbn [rbind].
  rewrite (imported_total M h len addrs es' O F).
  - rewrite (total_perm (map len es) (map len es')) by now apply Permutation_map. f_equal. ring.
  - intros e I. apply Ls. eapply Permutation_in; [symmetry; exact P|exact I].
Qed.
Print Assumptions C137_length_partial.
(** Turning a line round does not change the length. *)
Theorem C137_backwards_partial : forall M k b es (len : jelem -> R), one_meaning M -> free_keys M -> lines_named_once M ->
  In k (m_lines M) -> In b (m_lines M) -> jl_items b = [- jl_id k] -> expansion M (jl_items k) es -> (forall e, In e es -> recorded_length M e (len e)) ->
  exists enough, forall limit, (enough <= limit)%nat -> exists h a h' a' r,
    parse_json limit M (jl_name k) = Ok (h, a) /\ parse_json limit M (jl_name b) = Ok (h', a') /\ length_of h a = Ok r /\ length_of h' a' = Ok r.
Proof.
  intros M k b es len O Fk Nm Ik Ib Jb H Ls. destruct (C137_length_partial M k es len O Fk Nm Ik H Ls) as (n & A).
  assert (Pk : 0 < jl_id k) by (destruct O as (_ & P & _); apply P; apply in_app_iff; left; now apply in_map).
  assert (Hb : expansion M (jl_items b) (rev es ++ [])) by (rewrite Jb; apply (ex_back M _ k); [exact Ik|lia|lia|exact H|constructor]). rewrite app_nil_r in Hb.
  destruct (C137_length_partial M b (rev es) len O Fk Nm Ib Hb) as (m & B); [intros e I; apply Ls; now apply in_rev|].
  exists (n + m)%nat. intros limit L. destruct (A limit ltac:(lia)) as (h & a & E & G). destruct (B limit ltac:(lia)) as (h' & a' & E' & G').
  exists h, a, h', a', (total (map len es)). repeat (split; [assumption|]). rewrite G'. f_equal. apply total_perm. apply Permutation_map. symmetry. apply Permutation_rev.
Qed.
Print Assumptions C137_backwards_partial.
(** A length that is a text naming no variable is not a length: asking raises. *)
Theorem C137_text : forall M k es e s, one_meaning M -> free_keys M -> lines_named_once M -> In k (m_lines M) -> expansion M (jl_items k) es ->
  In e es -> last_value "L" (je_fields e) (Some (VStr s)) -> (forall v, ~ In (s, v) (m_rpn M)) ->
  exists enough, forall limit, (enough <= limit)%nat -> exists h a, parse_json limit M (jl_name k) = Ok (h, a) /\ length_of h a = Err TypeError.
Proof.
  intros M k es e s O Fk Nm Ik H Ie Lv Nv. destruct (C137_same_elements_partial M k es O Fk Nm Ik H) as (es' & n & P & Q). exists n. intros limit L.
  destruct (Q limit L) as (h & a & addrs & E & G & F). exists h, a. split; [exact E|]. unfold length_of. rewrite G. cbn [rbind]. apply total_text.
  - intros b I. clear - F I. induction F as [|c y addrs es' (x & Ex & _) F IH]; [contradiction|]. destruct I as [->|I]; [eauto|auto].
  - assert (I' : In e es') by (eapply Permutation_in; eauto). clear P Q G. induction F as [|c y addrs es' A F IH]; [contradiction|]. destruct I' as [->|I'].
    + destruct A as (x & Ex & _ & _ & K). exists c, x, s. split; [now left|]. split; [exact Ex|].
      destruct (K "L"%string) as [X|[(v & w & L1 & Mw & Gx)|(L1 & Gx)]]; [now destruct l_not_id| |discriminate (recorded_fun _ _ _ _ L1 Lv)].
      injection (recorded_fun _ _ _ _ L1 Lv) as ->. rewrite Gx, (meaning_fun M (VStr s) w (VStr s) O Mw); [reflexivity|now constructor].
    + destruct (IH I') as (c' & x & s' & B1 & B2 & B3). exists c', x, s'. split; [now right|auto].
Qed.
Print Assumptions C137_text.

(** Full statement: for every lattice whose numbers and names belong to one thing. False when a
    line is named twice: two cells of length 3 are 12 long. *)
Definition length_imported (limit : nat) (M : models) (n : string) : res R := match parse_json limit M n with Ok (h, a) => length_of h a | _ => Err NameError end.
Definition three : jelem := {| je_id := 1; je_name := "a"; je_type := "DRIFT"; je_fields := [("l"%string, VNum 3)] |}.
Definition two_cells : models := {| m_lines := [ln 10 "main" [20; 20]; ln 20 "cell" [1]]; m_elems := [three]; m_rpn := [] |}.
Theorem C137_used_twice_refuted : exists k es enough, In k (m_lines two_cells) /\ one_meaning two_cells /\ free_keys two_cells /\ expansion two_cells (jl_items k) es /\
  Forall2 (recorded_length two_cells) es [3%R; 3%R] /\ forall limit, (enough <= limit)%nat -> length_imported limit two_cells (jl_name k) = Ok 12%R.
Proof.
  exists (ln 10 "main" [20; 20]), [three; three], 5%nat. split; [left; reflexivity|].
  assert (Cell : expansion two_cells [1] [three]) by (apply ex_elem; [cbn; tauto|reflexivity|constructor]).
  assert (Lt : recorded_length two_cells three 3%R).
  { left. exists (VNum 3). split; [|constructor]. apply (lv_some "L" [] "l" (VNum 3) []); [|intros ? ? []].
    constructor; [|constructor]. right. left. exists 11%nat. split; reflexivity. }
  unfold one_meaning. repeat match goal with |- _ /\ _ => split end.
  - cbn. repeat (constructor; [cbn; intuition discriminate|]). constructor.
  - intros i H. named H; lia.
  - cbn. repeat (constructor; [cbn; intuition discriminate|]). constructor.
  - cbn. repeat (constructor; [cbn; intuition discriminate|]). constructor.
  - constructor.
  - intros e k v H1 H2. named H1; subst e; named H2; injection H2 as <- _; repeat split; discriminate.
  - cbn [jl_items ln]. apply (ex_line _ _ (ln 20 "cell" [1]) _ [three] [three]); [cbn; tauto|reflexivity|exact Cell|].
    apply (ex_line _ _ (ln 20 "cell" [1]) _ [three] []); [cbn; tauto|reflexivity|exact Cell|constructor].
  - repeat (constructor; [exact Lt|]). constructor.
  - intros limit H. replace limit with (5 + (limit - 5))%nat by lia.
    match goal with |- ?l = _ => let v := eval vm_compute in l in change l with v end. f_equal. lra.
Qed.
Print Assumptions C137_used_twice_refuted.
(** A case: a line of lines taken backwards; the lengths are a number, a variable and none. *)
Definition numbered : jelem := {| je_id := 1; je_name := "a"; je_type := "DRIFT"; je_fields := [("l"%string, VNum 3)] |}.
Definition variable : jelem := {| je_id := 2; je_name := "b"; je_type := "DRIFT"; je_fields := [("L"%string, VStr "len")] |}.
Definition unmeasured : jelem := {| je_id := 3; je_name := "c"; je_type := "MARK"; je_fields := [] |}.
Definition worded : jelem := {| je_id := 4; je_name := "d"; je_type := "DRIFT"; je_fields := [("l"%string, VStr "long")] |}.
Definition turned : models := {| m_lines := [ln 10 "main" [-20]; ln 20 "cell" [1; 30; 2]; ln 30 "arc" [2; 3; 2]; ln 40 "odd" [1; 4]];
  m_elems := [numbered; variable; unmeasured; worded]; m_rpn := [("len"%string, VNum 7)] |}.
Lemma turned_ok : one_meaning turned /\ free_keys turned /\ lines_named_once turned.
Proof.
  unfold one_meaning. repeat match goal with |- _ /\ _ => split end.
  - cbn. repeat (constructor; [cbn; intuition discriminate|]). constructor.
  - intros i H. named H; lia.
  - cbn. repeat (constructor; [cbn; intuition discriminate|]). constructor.
  - cbn. repeat (constructor; [cbn; intuition discriminate|]). constructor.
  - cbn. repeat (constructor; [cbn; intuition discriminate|]). constructor.
  - intros e k v H1 H2. named H1; subst e; named H2; injection H2 as <- _; repeat split; discriminate.
  - intros k H. apply once_by. named H; subst k; reflexivity.
Qed.
Lemma turned_cell : expansion turned [1; 30; 2] [numbered; variable; unmeasured; variable; variable].
Proof.
  apply ex_elem; [cbn; tauto|reflexivity|].
  apply (ex_line turned _ (ln 30 "arc" [2; 3; 2]) [2] [variable; unmeasured; variable] [variable]); [cbn; tauto|reflexivity| |].
  - repeat (apply ex_elem; [cbn; tauto|reflexivity|]). constructor.
  - apply ex_elem; [cbn; tauto|reflexivity|]. constructor.
Qed.
Definition lengths (e : jelem) : R := if je_id e =? 1 then 3 else if je_id e =? 2 then 7 else 0.
Lemma turned_lengths : forall e, In e [numbered; variable; unmeasured; variable; variable] -> recorded_length turned e (lengths e).
Proof.
  assert (A : recorded_length turned numbered 3%R).
  { left. exists (VNum 3). split; [|constructor]. apply (lv_some "L" [] "l" (VNum 3) []); [|intros ? ? []]. constructor; [|constructor]. right. left. exists 11%nat. split; reflexivity. }
  assert (B : recorded_length turned variable 7%R).
  { left. exists (VStr "len"). split; [|constructor; left; reflexivity]. apply (lv_some "L" [] "L" (VStr "len") []); [|intros ? ? []]. constructor; [|constructor]. left. reflexivity. }
  assert (C : recorded_length turned unmeasured 0%R) by (right; split; [constructor; intros ? ? []|reflexivity]).
  intros e [<-|[<-|[<-|[<-|[<-|[]]]]]]; assumption.
Qed.
Example C137_applies : exists enough, forall limit, (enough <= limit)%nat ->
  (exists h a, parse_json limit turned "main" = Ok (h, a) /\ length_of h a = Ok 24%R) /\
  (exists h a h' a' r, parse_json limit turned "cell" = Ok (h, a) /\ parse_json limit turned "main" = Ok (h', a') /\ length_of h a = Ok r /\ length_of h' a' = Ok r) /\
  (exists h a, parse_json limit turned "odd" = Ok (h, a) /\ length_of h a = Err TypeError).
Proof.
  destruct turned_ok as (O & Fk & Nm). set (es := [numbered; variable; unmeasured; variable; variable]).
  destruct (C137_length_partial turned (ln 10 "main" [-20]) (rev es) lengths O Fk Nm) as (n1 & A1).
  - left. reflexivity.
  - change (rev es) with (rev es ++ []). apply (ex_back turned (-20) (ln 20 "cell" [1; 30; 2])); [cbn; tauto|reflexivity|lia|exact turned_cell|constructor].
  - intros e I. apply turned_lengths. now apply in_rev.
  - destruct (C137_backwards_partial turned (ln 20 "cell" [1; 30; 2]) (ln 10 "main" [-20]) es lengths O Fk Nm) as (n2 & A2).
    + cbn. tauto.
    + cbn. tauto.
    + reflexivity.
    + exact turned_cell.
    + exact turned_lengths.
    + destruct (C137_text turned (ln 40 "odd" [1; 4]) [numbered; worded] worded "long" O Fk Nm) as (n3 & A3).
      * cbn. tauto.
      * repeat (apply ex_elem; [cbn; tauto|reflexivity|]). constructor.
      * cbn. tauto.
      * apply (lv_some "L" [] "l" (VStr "long") []); [|intros ? ? []]. constructor; [|constructor]. right. left. exists 11%nat. split; reflexivity.
      * intros v [E|[]]. discriminate.
      * exists (n1 + n2 + n3)%nat. intros limit L. split; [|split; [apply A2; lia|apply A3; lia]].
        destruct (A1 limit ltac:(lia)) as (h & a & E & G). exists h, a. split; [exact E|]. rewrite G. f_equal. unfold total, lengths. cbn. lra.
Qed.

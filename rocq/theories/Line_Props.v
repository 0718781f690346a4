(** Theorems on elements and beamlines (C34-C40).  [history ops] is the state after any sequence of
    calls; calls that raise leave what they had done. *)
From Coq Require Import List Reals Bool Arith String Ascii ZArith Lia Lra.
From Verif Require Import PyBase PyDict Line_Model Line_Spec Line_Proofs Line_Proofs2 Line_Motion.
Import ListNotations.
Open Scope R_scope.
Local Notation "'num' r" := (VNum r) (at level 10).

(* ================================================================== *)
(** C34 *)
Theorem C34_last_assignment : forall (assignments : list (string * value)) k o, last_value k assignments o ->
  agn_get (fold_left (fun d kv => agn_set d (fst kv) (snd kv)) assignments []) k = o.
Proof.
  intros l k o H. pose proof (last_value_get k l o [] H) as E. unfold assigns in E. rewrite E. destruct o; reflexivity.
Qed.
Print Assumptions C34_last_assignment.

(** Every list of assignments has exactly one last value for a name. *)
Theorem C34_last_value_defined : forall (assignments : list (string * value)) k,
  exists o, last_value k assignments o /\ forall o', last_value k assignments o' -> o' = o.
Proof.
  intros l k. destruct (last_value_exists k l) as [o H]. exists o. split; [exact H|]. intros o' H'.
  rewrite <- (C34_last_assignment l k o' H'). apply C34_last_assignment. exact H.
Qed.
Print Assumptions C34_last_value_defined.

(** The same for the parameters given to an element. *)
Theorem C34_element : forall name ty kwargs el k o, new_element name ty kwargs = Ok el -> last_value k kwargs o ->
  agn_get (e_params el) k = o.
Proof.
  intros name ty kwargs el k o H L. unfold new_element in H. destruct (existsb _ kwargs); [discriminate|]. injection H as <-.
  cbn [e_params]. apply C34_last_assignment. exact L.
Qed.
Print Assumptions C34_element.
Example C34_applies : last_value "kick"%string [("L"%string, VNum 1); ("KICK"%string, VNum 2); ("Kick"%string, VNum 3); ("l"%string, VStr "x"%string)] (Some (VNum 3))
  /\ last_value "l"%string [("L"%string, VNum 1); ("KICK"%string, VNum 2)] (Some (VNum 1)).
Proof.
  split.
  - apply (lv_some "kick"%string [("L"%string, VNum 1); ("KICK"%string, VNum 2)] "Kick"%string (VNum 3) [("l"%string, VStr "x"%string)]).
    + apply same_name_lower. reflexivity.
    + intros k w [E|[]] S. injection E as <- <-. apply same_name_lower in S. discriminate.
  - apply (lv_some "l"%string [] "L"%string (VNum 1) [("KICK"%string, VNum 2)]).
    + apply same_name_lower. reflexivity.
    + intros k w [E|[]] S. injection E as <- <-. apply same_name_lower in S. discriminate.
Qed.

(** Full statement for every way of reading: false, dict.get and [in] miss a name that [] finds. *)
Theorem C34_get_and_in_refuted : exists assignments k v,
  agn_get (fold_left (fun d kv => agn_set d (fst kv) (snd kv)) assignments []) k = Some v /\
  raw_get (fold_left (fun d kv => agn_set d (fst kv) (snd kv)) assignments []) k = None.
Proof. exists [("L"%string, VNum 1)], "L"%string, (VNum 1). split; reflexivity. Qed.
Print Assumptions C34_get_and_in_refuted.

(* ================================================================== *)
(** C35 *)
Theorem C35_flattens : forall ops a s, sequence (history ops) a = Some s ->
  exists es, get_beamline_elements (history ops) a = Ok es /\ expands (history ops) s es.
Proof.
  intros ops a s H. destruct (seq_line _ _ _ H) as (l & Hl & <-). apply gbe_ok; [apply wf_history|exact Hl].
Qed.
Print Assumptions C35_flattens.

Theorem C35_expansion_unique : forall h s l l', expands h s l -> expands h s l' -> l = l'.
Proof. intros h s l l' H H'. exact (expands_fun h s l H l' H'). Qed.
Print Assumptions C35_expansion_unique.

(** Adding an element: at the end of the beamline, nothing else moves. *)
Theorem C35_add_element : forall ops a name ty ps h', add_element (history ops) a name ty ps false = (h', Ok tt) ->
  exists s e el, sequence (history ops) a = Some s /\ sequence h' a = Some (s ++ [RE e]) /\
    element_at h' e = Some el /\ e_name el = name /\
    forall b, b <> a -> sequence h' b = sequence (history ops) b.
Proof.
  intros ops a name ty ps h' H. destruct (add_element_effect _ _ _ _ _ _ _ (wf_history ops) H) as (l & s & b & e & el & Hl & Hs & Hb & Sq & _ & He & Hn & _).
  destruct Hb as [[_ ->]|[X _]]; [|discriminate]. exists s, e, el.
  assert (S0 : sequence (history ops) a = Some s) by (unfold sequence; rewrite Hl, Hs; reflexivity).
  repeat split; auto.
  - rewrite Sq, Nat.eqb_refl, S0. reflexivity.
  - intros b Nb. rewrite Sq. destruct (a =? b)%nat eqn:E; [apply Nat.eqb_eq in E; congruence|reflexivity].
Qed.
Print Assumptions C35_add_element.

(** With subline=True: at the end of the beamline that ends this one. *)
Theorem C35_add_to_subline : forall ops a name ty ps h', add_element (history ops) a name ty ps true = (h', Ok tt) ->
  exists s b t e el, sequence (history ops) a = Some (s ++ [RL b]) /\ sequence (history ops) b = Some t /\
    sequence h' b = Some (t ++ [RE e]) /\ element_at h' e = Some el /\ e_name el = name /\
    forall x, x <> b -> sequence h' x = sequence (history ops) x.
Proof.
  intros ops a name ty ps h' H. destruct (add_element_effect _ _ _ _ _ _ _ (wf_history ops) H) as (l & s & b & e & el & Hl & Hs & Hb & Sq & (t & Ht) & He & Hn & _).
  destruct Hb as [[X _]|[_ (s0 & Es)]]; [discriminate|]. exists s0, b, t, e, el.
  repeat split; auto.
  - unfold sequence. rewrite Hl. cbn. congruence.
  - rewrite Sq, Nat.eqb_refl, Ht. reflexivity.
  - intros x Nx. rewrite Sq. destruct (b =? x)%nat eqn:E; [apply Nat.eqb_eq in E; congruence|reflexivity].
Qed.
Print Assumptions C35_add_to_subline.

(** Adding a beamline: a known one of this beamline, unchanged, or a new empty one. *)
Theorem C35_add_beamline : forall ops a name s, sequence (history ops) a = Some s ->
  exists h' b, add_beamline (history ops) a name = (h', Ok tt) /\ sequence h' a = Some (s ++ [RL b]) /\
    elems h' = elems (history ops) /\
    (forall x, x <> a -> x <> b -> sequence h' x = sequence (history ops) x) /\
    ((In (RL b) s /\ sequence h' b = sequence (history ops) b) \/
     (sequence (history ops) b = None /\ sequence h' b = Some [] /\
      exists lb, nth_error (lines h') b = Some lb /\ l_name lb = name)).
Proof. intros ops a name s H. apply add_beamline_effect; [apply wf_history|exact H]. Qed.
Print Assumptions C35_add_beamline.

(** A call that raises moves nothing. *)
Theorem C35_failed_add : forall ops a name ty ps sub h' x, add_element (history ops) a name ty ps sub = (h', Err x) ->
  forall b, sequence h' b = sequence (history ops) b.
Proof. intros ops a name ty ps sub h' x H. apply (add_element_fail _ _ _ _ _ _ _ _ H). Qed.
Print Assumptions C35_failed_add.

(** A concrete history: a drift, a beamline with two quadrupoles, the drift again, the beamline again. *)
Definition demo_ops : list op :=
  [NewLine (Some "main"%string); AddElement 0 "d"%string "DRIFT "%string [("L"%string, VNum 2)] false; AddLine 0 (Some "cell"%string);
   AddElement 0 "q1"%string "quadrupole"%string [("L"%string, VNum 1)] true; AddElement 1 "q2"%string "quadrupole"%string [] false;
   AddElement 0 "d"%string "other"%string [] false; AddLine 0 (Some "cell"%string)].
Example C35_applies : sequence (history demo_ops) 0 = Some [RE 0; RL 1; RE 0; RL 1] /\
  get_beamline_elements (history demo_ops) 0 = Ok [0; 1; 2; 0; 1; 2]%nat.
Proof. split; reflexivity. Qed.

(* ================================================================== *)
(** C36 *)
Theorem C36_length : forall ops a s es vs, sequence (history ops) a = Some s -> expands (history ops) s es ->
  Forall2 (length_is (history ops)) es vs -> length_of (history ops) a = Ok (total vs).
Proof.
  intros ops a s es vs Hs X F. destruct (C35_flattens ops a s Hs) as (es' & E & X'). rewrite (expands_fun _ _ _ X _ X') in F.
  unfold length_of. rewrite E. cbn [rbind]. rewrite (sum_lengths_ok _ (wf_history ops) _ _ 0 F). f_equal. ring.
Qed.
Print Assumptions C36_length.

Theorem C36_edge : forall ops a s e, sequence (history ops) a = Some s -> In (RE e) s ->
  exists t ts es before, top_of (history ops) a t /\ sequence (history ops) t = Some ts /\ expands (history ops) ts es /\
    before_first e es before /\
    forall vs, Forall2 (length_is (history ops)) before vs -> edge_of (history ops) e = Ok (total vs).
Proof.
  intros ops a s e Hs I. pose proof (wf_history ops) as Wf. set (h := history ops) in *.
  destruct (seq_line _ _ _ Hs) as (l & Hl & <-).
  destruct (gbe_ok h a l Wf Hl) as (es & _ & X).
  destruct (in_top a h a l es (le_n a) Wf Hl X) as (lt & ts & Ht & Xt & Inc).
  assert (Ie : In e ts) by (apply Inc; eapply expands_in; [exact X|exact I]).
  assert (Sp : exists before after, ts = before ++ e :: after /\ ~ In e before).
  { clear - Ie. induction ts as [|x ts IH]; [destruct Ie|]. destruct (Nat.eq_dec x e) as [->|N].
    - exists [], ts. split; [reflexivity|intros []].
    - destruct Ie as [E|Ie]; [congruence|]. destruct (IH Ie) as (b & c & -> & Nb). exists (x :: b), c. split; [reflexivity|].
      intros [E|J]; [congruence|contradiction]. }
  destruct Sp as (before & after & Ets & Nb).
  exists (l_top l), (l_seq lt), ts, before. split; [apply (top_of_exists a); auto|]. split; [unfold sequence; rewrite Ht; reflexivity|].
  split; [exact Xt|]. split; [exists after; auto|].
  intros vs F. unfold edge_of. destruct Wf as [W K]. destruct (W a l Hl) as (W1 & _). destruct (W1 e I) as (el & He & Te). rewrite He, Te.
  destruct (gbe_ok h (l_top l) lt (conj W K) Ht) as (ts' & Eg & Xt'). rewrite Eg. cbn [rbind]. rewrite <- (expands_fun _ _ _ Xt _ Xt'), Ets.
  rewrite (edge_loop_found h (conj W K) before e after vs 0 Nb F). f_equal. ring.
Qed.
Print Assumptions C36_edge.

Theorem C36_bounds : forall ops a s e t ts es vs, sequence (history ops) a = Some s -> In (RE e) s ->
  top_of (history ops) a t -> sequence (history ops) t = Some ts -> expands (history ops) ts es ->
  Forall2 (length_is (history ops)) es vs -> Forall (fun v => 0 <= v) vs ->
  exists x, edge_of (history ops) e = Ok x /\ length_of (history ops) t = Ok (total vs) /\ 0 <= x <= total vs.
Proof.
  intros ops a s e t ts es vs Hs I Ht Hts X F Pos.
  destruct (C36_edge ops a s e Hs I) as (t' & ts' & es' & before & Ht' & Hts' & X' & (after & Es & Nb) & E).
  destruct (seq_line _ _ _ Hs) as (l & Hl & _).
  rewrite (top_of_unique _ _ _ _ (wf_history ops) Hl Ht') in Hts'. rewrite (top_of_unique _ _ _ _ (wf_history ops) Hl Ht) in *.
  rewrite Hts in Hts'. injection Hts' as <-. rewrite <- (expands_fun _ _ _ X _ X') in Es.
  rewrite Es in F. apply Forall2_app_inv_l in F. destruct F as (v1 & v2 & F1 & F2 & ->).
  exists (total v1). split; [apply E; exact F1|]. split.
  - eapply C36_length; [exact Hts|exact X|]. rewrite Es. apply Forall2_app; assumption.
  - apply Forall_app in Pos. destruct Pos as [P1 P2]. rewrite total_app.
    assert (G : forall w, Forall (fun v => 0 <= v) w -> 0 <= total w).
    { induction w as [|x w IH]; intros H; unfold total in *; cbn [fold_right]; [lra|]. inversion H; subst. specialize (IH H3). lra. }
    pose proof (G _ P1). pose proof (G _ P2). lra.
Qed.
Print Assumptions C36_bounds.

(** A length given as text makes the length of every beamline containing it an error. *)
Theorem C36_text_length : forall ops a s es e el k t, sequence (history ops) a = Some s -> expands (history ops) s es ->
  In e es -> element_at (history ops) e = Some el -> same_name k "L" -> In (k, VStr t) (e_params el) ->
  length_of (history ops) a = Err TypeError.
Proof.
  intros ops a s es e el k t Hs X I He Sk Ik. destruct (C35_flattens ops a s Hs) as (es' & E & X'). rewrite <- (expands_fun _ _ _ X _ X') in E.
  unfold length_of. rewrite E. cbn [rbind]. pose proof (wf_history ops) as [W K].
  assert (G : agn_get (e_params el) "L" = Some (VStr t)).
  { apply agn_get_in; [eapply K; exact He|]. exists k. split; [|exact Ik]. apply same_name_lower. apply same_name_lower in Sk. congruence. }
  assert (Ex : forall s es, expands (history ops) s es -> (forall x, In (RE x) s -> exists ex, nth_error (elems (history ops)) x = Some ex) ->
     forall x, In x es -> exists ex, nth_error (elems (history ops)) x = Some ex).
  { intros s0 es0 X0. induction X0; intros HH x Ix; [destruct Ix| |].
    - destruct Ix as [<-|Ix]; [apply HH; left; reflexivity|]. apply IHX0; [intros y Iy; apply HH; right; exact Iy|exact Ix].
    - apply in_app_iff in Ix. destruct Ix as [Ix|Ix].
      + apply IHX0_1; [|exact Ix]. intros y Iy. destruct (seq_line _ _ _ H) as (lb & Hb & <-). destruct (W b lb Hb) as (W1 & _).
        destruct (W1 _ Iy) as (ey & Hy & _). exists ey; exact Hy.
      + apply IHX0_2; [intros y Iy; apply HH; right; exact Iy|exact Ix]. }
  assert (All : forall x, In x es -> exists ex, nth_error (elems (history ops)) x = Some ex).
  { apply (Ex s es X). intros x Ix. destruct (seq_line _ _ _ Hs) as (l & Hl & <-). destruct (W a l Hl) as (W1 & _).
    destruct (W1 _ Ix) as (ey & Hy & _). exists ey; exact Hy. }
  clear - I He G All. generalize 0 as acc. induction es as [|x es IH]; intros acc; [destruct I|]. cbn [sum_lengths].
  destruct (All x (or_introl eq_refl)) as (ex & Hx). unfold add_length. rewrite Hx.
  destruct I as [->|I].
  - unfold element_at in He. rewrite He in Hx. injection Hx as <-. rewrite G. reflexivity.
  - destruct (agn_get (e_params ex) "L") as [[v|t']|]; cbn [rbind]; try reflexivity; apply IH; auto; intros y Iy; apply All; right; exact Iy.
Qed.
Print Assumptions C36_text_length.

(** An element that is in no sequence (its addition with subline=True failed) has the whole length as its edge. *)
Theorem C36_orphan : forall ops e el t ts es vs, element_at (history ops) e = Some el -> e_line el = Some t ->
  sequence (history ops) t = Some ts -> expands (history ops) ts es -> ~ In e es -> Forall2 (length_is (history ops)) es vs ->
  edge_of (history ops) e = Ok (total vs).
Proof.
  intros ops e el t ts es vs He Hl Ht X N F. destruct (C35_flattens ops t ts Ht) as (es' & E & X'). rewrite <- (expands_fun _ _ _ X _ X') in E.
  unfold edge_of. unfold element_at in He. rewrite He, Hl, E. cbn [rbind].
  rewrite (edge_loop_absent _ (wf_history ops) _ _ _ 0 N F). f_equal. ring.
Qed.
Print Assumptions C36_orphan.

Example C36_applies : Forall2 (length_is (history demo_ops)) [0; 1; 2; 0; 1; 2]%nat [2; 1; 0; 2; 1; 0] /\
  length_of (history demo_ops) 0 = Ok 6 /\ top_of (history demo_ops) 1 0.
Proof.
  assert (D : Forall2 (length_is (history demo_ops)) [0; 1; 2; 0; 1; 2]%nat [2; 1; 0; 2; 1; 0]).
  { assert (L0 : length_is (history demo_ops) 0 2) by (eexists; split; [reflexivity|]; left; exists "l"%string; split; [apply same_name_lower; reflexivity|left; reflexivity]).
    assert (L1 : length_is (history demo_ops) 1 1) by (eexists; split; [reflexivity|]; left; exists "l"%string; split; [apply same_name_lower; reflexivity|left; reflexivity]).
    assert (L2 : length_is (history demo_ops) 2 0) by (eexists; split; [reflexivity|]; right; split; [intros k w []|reflexivity]).
    repeat constructor; assumption. }
  split; [exact D|]. split.
  - destruct (C35_flattens demo_ops 0 [RE 0; RL 1; RE 0; RL 1] eq_refl) as (es & E & X).
    replace es with [0; 1; 2; 0; 1; 2]%nat in X by (vm_compute in E; congruence).
    rewrite (C36_length demo_ops 0 _ _ _ eq_refl X D). f_equal. unfold total. cbn [fold_right]. ring.
  - exact (top_of_exists 1 (history demo_ops) 1 {| l_name := Some "cell"%string; l_elements := [("q2"%string, 2%nat)]; l_lines := []; l_seq := [RE 1; RE 2]; l_top := 0 |}
      (le_n 1) (wf_history demo_ops) eq_refl).
Qed.
Example C36_orphan_applies :
  let ops := [NewLine None; AddElement 0 "d"%string "drift"%string [("L"%string, VNum 2)] false; AddElement 0 "q"%string "quad"%string [] true] in
  snd (add_element (history (firstn 2 ops)) 0 "q"%string "quad"%string [] true) = Err AssertionError /\
  (exists el, element_at (history ops) 1 = Some el /\ e_line el = Some 0%nat) /\ sequence (history ops) 0 = Some [RE 0] /\
  edge_of (history ops) 1 = Ok (0 + 2).
Proof. repeat split. eexists; split; reflexivity. Qed.

(* ================================================================== *)
(** C37 *)
Theorem C37_reuse_partial : forall ops1 a name ty1 ps1 s1 h1 ops2 ty2 ps2 s2 h3,
  add_element (history ops1) a name ty1 ps1 s1 = (h1, Ok tt) ->
  let h2 := fold_left (fun h o => fst (step h o)) ops2 h1 in
  add_element h2 a name ty2 ps2 s2 = (h3, Ok tt) ->
  exists e b1 q1 b2 q2 el1 el3,
    (* the first call put e at the end of b1, the second at the end of b2 *)
    sequence (history ops1) b1 = Some q1 /\ sequence h1 b1 = Some (q1 ++ [RE e]) /\
    sequence h2 b2 = Some q2 /\ sequence h3 b2 = Some (q2 ++ [RE e]) /\
    (forall b, b <> b2 -> nth_error (lines h3) b = nth_error (lines h2) b) /\
    (* no element is new or changed by the second call *)
    elems h3 = elems h2 /\
    (* its type is the one it had; so are its parameters unless edited in between *)
    element_at h1 e = Some el1 /\ element_at h3 e = Some el3 /\ e_name el3 = name /\ e_type el3 = e_type el1 /\
    (forallb (fun o => match o with EditName _ _ _ _ | EditIndex _ _ _ _ => false | _ => true end) ops2 = true ->
     e_params el3 = e_params el1).
Proof.
  intros ops1 a name ty1 ps1 s1 h1 ops2 ty2 ps2 s2 h3 H1 h2 H3.
  pose proof (wf_history ops1) as W0.
  destruct (add_element_effect _ _ _ _ _ _ _ W0 H1) as (l & s & b1 & e & el1 & Hl & Hs & Hb & Sq & (q1 & Hq1) & He & Hn & _ & C).
  assert (Eh2 : h2 = history (ops1 ++ AddElement a name ty1 ps1 s1 :: ops2)).
  { rewrite runs_history. unfold runs. cbn [fold_left step]. rewrite H1. reflexivity. }
  assert (W2 : wf h2) by (rewrite Eh2; apply wf_history).
  (* after the first call the name is registered *)
  assert (R1 : exists l1, nth_error (lines h1) a = Some l1 /\ dget string_dec (l_elements l1) name = Some e).
  { destruct C as [(D & _ & L)|(D & _ & _ & _ & _ & L)]; rewrite L, upd_nth.
    - rewrite Hl. destruct (b1 =? a)%nat; cbn; eexists; split; try reflexivity; exact D.
    - rewrite upd_nth, Nat.eqb_refl, Hl. destruct (b1 =? a)%nat; cbn; eexists; split; try reflexivity; cbn; apply dget_dset_same. }
  destruct R1 as (l1 & Hl1 & D1).
  assert (G : forall p, (p = true -> forallb (fun o => negb (is_edit o)) ops2 = true) -> grows p h1 h2) by (intros; apply grows_runs; assumption).
  destruct (G false) as [G1 G2]; [discriminate|]. destruct (G2 _ _ Hl1) as (l2 & Hl2 & _ & D2). specialize (D2 _ _ D1).
  destruct (add_element_effect _ _ _ _ _ _ _ W2 H3) as (l' & s' & b2 & e' & el3 & Hl' & Hs' & Hb' & Sq' & (q2 & Hq2) & He' & Hn' & _ & C').
  rewrite Hl2 in Hl'. injection Hl' as <-. destruct C' as [(D' & E' & L')|(D' & _)]; [|congruence].
  rewrite D2 in D'. injection D' as <-.
  destruct (G1 e el1 He) as (el2 & He2 & Hn2 & Ht2 & _).
  exists e, b1, q1, b2, q2, el1, el3. repeat split; auto.
  - rewrite Sq, Nat.eqb_refl, Hq1. reflexivity.
  - rewrite Sq', Nat.eqb_refl, Hq2. reflexivity.
  - intros b Nb. rewrite L', upd_other by congruence. reflexivity.
  - unfold element_at in He'. rewrite E' in He'. rewrite He2 in He'. injection He' as <-. exact Ht2.
  - intros Ed. assert (Ed' : forallb (fun o => negb (is_edit o)) ops2 = true).
    { rewrite <- Ed. clear. induction ops2 as [|o r IH]; cbn; [reflexivity|]. rewrite IH. destruct o; reflexivity. }
    destruct (G true (fun _ => Ed')) as [G1' _]. destruct (G1' e el1 He) as (el2' & He2' & _ & _ & P). unfold element_at in He'. rewrite E' in He'.
    rewrite He2' in He'. injection He' as <-. apply P. reflexivity.
Qed.
Print Assumptions C37_reuse_partial.

(** The first time a name is given to a beamline, a new element with that type (trimmed, in lower case)
    and those parameters is made; no other element changes. *)
Theorem C37_first : forall ops a l name ty ps s h', nth_error (lines (history ops)) a = Some l ->
  (forall n e, In (n, e) (l_elements l) -> n <> name) -> add_element (history ops) a name ty ps s = (h', Ok tt) ->
  exists el, elems h' = elems (history ops) ++ [el] /\ e_name el = name /\ e_type el = strip (lower ty) /\
    forall k o, last_value k ps o -> agn_get (e_params el) k = o.
Proof.
  intros ops a l name ty ps s h' Hl N H.
  destruct (add_element_effect _ _ _ _ _ _ _ (wf_history ops) H) as (l0 & s0 & b1 & e & el & Hl0 & _ & _ & _ & _ & He & Hn & _ & C).
  rewrite Hl in Hl0. injection Hl0 as <-. destruct C as [(D & _)|(D & _ & E & T & P & _)].
  - apply dget_in in D. exfalso. apply (N _ _ D). reflexivity.
  - exists el. repeat split; auto. intros k o L. rewrite P. apply C34_last_assignment. exact L.
Qed.
Print Assumptions C37_first.

Example C37_applies : exists h1 h3, add_element (history [NewLine None; AddLine 0 (Some "cell"%string)]) 0 "q"%string "QUAD"%string [("L"%string, VNum 1)] true = (h1, Ok tt) /\
  add_element (fst (step h1 (AddLine 0 None))) 0 "q"%string "drift"%string [] true = (h3, Ok tt).
Proof. eexists. eexists. split; reflexivity. Qed.

(** Full statement: false for an element that came into the beamline through its parent: adding it
    again makes a second element of the same name in the same sequence. *)
Theorem C37_through_parent_refuted : exists ops b e1 e2 el1 el2,
  sequence (history ops) b = Some [RE e1; RE e2] /\ e1 <> e2 /\
  element_at (history ops) e1 = Some el1 /\ element_at (history ops) e2 = Some el2 /\
  e_name el1 = e_name el2 /\ e_type el1 <> e_type el2.
Proof.
  exists [NewLine None; AddLine 0 (Some "cell"%string); AddElement 0 "q"%string "quad"%string [] true; AddElement 1 "q"%string "drift"%string [] false], 1%nat, 0%nat, 1%nat.
  eexists. eexists. repeat split; try reflexivity; [lia|discriminate].
Qed.
Print Assumptions C37_through_parent_refuted.

(** A call that raises can still have registered the element: the next call with that name ignores its arguments. *)
Theorem C37_failed_call_refuted : exists ops a name ty ps h1 x, add_element (history ops) a name ty ps true = (h1, Err x) /\
  exists h2 e el, add_element h1 a name "quad"%string [] false = (h2, Ok tt) /\ sequence h2 a = Some [RE e] /\
    element_at h2 e = Some el /\ e_type el <> "quad"%string.
Proof.
  exists [NewLine None], 0%nat, "q"%string, "drift"%string, [], (fst (add_element (history [NewLine None]) 0 "q"%string "drift"%string [] true)), IndexError.
  split; [reflexivity|]. eexists. exists 0%nat. eexists. split; [reflexivity|]. split; [reflexivity|]. split; [reflexivity|]. discriminate.
Qed.
Print Assumptions C37_failed_call_refuted.

(* ================================================================== *)
(** C38 *)
Theorem C38_by_name_partial : forall ops a l name ps vs, nth_error (lines (history ops)) a = Some l ->
  (forall b lb, In (RL b) (l_seq l) -> nth_error (lines (history ops)) b = Some lb -> l_name lb <> Some name) ->
  exists h', edit_by_name (history ops) a name ps vs = (h', Ok tt) /\ same_but_params (history ops) h' /\
    forall e el, element_at (history ops) e = Some el -> exists el', element_at h' e = Some el' /\
      (In (RE e) (l_seq l) /\ e_name el = name -> forall k o, last_value k (combine ps vs) o ->
         agn_get (e_params el') k = match o with Some v => Some v | None => agn_get (e_params el) k end) /\
      (~ (In (RE e) (l_seq l) /\ e_name el = name) -> el' = el).
Proof.
  intros ops a l name ps vs Hl N. unfold edit_by_name. rewrite Hl, zip_combine. set (h := history ops) in *.
  set (f := filter _ _). pose proof (wf_history ops) as [W K]. fold h in W, K.
  assert (Inf : forall r, In r f <-> In r (l_seq l) /\ ref_name h r = Some name).
  { intros r. unfold f. rewrite filter_In. destruct (ref_name h r) as [n|]; [|split; intros [_ X]; discriminate].
    destruct (String.eqb_spec n name) as [->|Nn]; split; intros [A B]; try discriminate; split; auto; congruence. }
  destruct (edit_effect f h (combine ps vs)) as (h' & E & L & Len & X).
  { right. intros b I. apply Inf in I. destruct I as [I R]. destruct (W a l Hl) as (_ & W2 & _). destruct (W2 _ I) as (_ & lb & Hb & _).
    cbn in R. rewrite Hb in R. exact (N b lb I Hb R). }
  assert (InE : forall e el, element_at h e = Some el -> In (RE e) f <-> In (RE e) (l_seq l) /\ e_name el = name).
  { intros e el He. rewrite Inf. unfold ref_name, element_at in *. rewrite He. split; intros [A B]; split; congruence. }
  exists h'. split; [exact E|]. split.
  - unfold same_but_params. split; [exact L|]. split; [exact Len|]. intros e el He. destruct (X e el He) as (el' & He' & A & B). exists el'. split; [exact He'|].
    destruct (in_dec ref_dec (RE e) f) as [I|I]; [destruct (A I) as (P1 & P2 & P3 & _); auto|rewrite (B I); auto].
  - intros e el He. destruct (X e el He) as (el' & He' & A & B). exists el'. split; [exact He'|]. split.
    + intros I k o Lv. apply (InE e el He) in I. destruct (A I) as (_ & _ & _ & P). apply P. exact Lv.
    + intros I. apply B. intros J. apply I. apply (InE e el He). exact J.
Qed.
Print Assumptions C38_by_name_partial.

(** A beamline of that name in the sequence makes the call fail. *)
Theorem C38_beamline_name : forall ops a l b lb name ps vs, nth_error (lines (history ops)) a = Some l ->
  In (RL b) (l_seq l) -> nth_error (lines (history ops)) b = Some lb -> l_name lb = Some name -> combine ps vs <> [] ->
  snd (edit_by_name (history ops) a name ps vs) = Err AttributeError.
Proof.
  intros ops a l b lb name ps vs Hl I Hb Hn N. unfold edit_by_name. rewrite Hl, zip_combine.
  match goal with |- snd (edit_positions ?h ?pv ?f) = _ => destruct (edit_fails f h pv N) as [h' E]; [|rewrite E; reflexivity] end.
  exists b. apply filter_In. split; [exact I|]. cbn. rewrite Hb, Hn. apply String.eqb_refl.
Qed.
Print Assumptions C38_beamline_name.

(** An integer address: the element at that position (counted from the end when negative). *)
Theorem C38_by_index_partial : forall ops a l pos i e ps vs, nth_error (lines (history ops)) a = Some l ->
  nth_error (l_seq l) pos = Some (RE e) ->
  (i = Z.of_nat pos \/ i = (Z.of_nat pos - Z.of_nat (List.length (l_seq l)))%Z) ->
  exists h', edit_by_index (history ops) a i ps vs = (h', Ok tt) /\ same_but_params (history ops) h' /\
    forall x el, element_at (history ops) x = Some el -> exists el', element_at h' x = Some el' /\
      (x = e -> forall k o, last_value k (combine ps vs) o ->
         agn_get (e_params el') k = match o with Some v => Some v | None => agn_get (e_params el) k end) /\
      (x <> e -> el' = el).
Proof.
  intros ops a l pos i e ps vs Hl Hp Hi. unfold edit_by_index. rewrite Hl, zip_combine. set (h := history ops) in *.
  assert (Lp : (pos < List.length (l_seq l))%nat) by (apply nth_error_Some; congruence).
  assert (P : py_index (l_seq l) i = Some (RE e)).
  { unfold py_index.
    assert (J : (if (i <? 0)%Z then (i + Z.of_nat (List.length (l_seq l)))%Z else i) = Z.of_nat pos).
    { destruct Hi as [->| ->]; match goal with |- (if ?c then _ else _) = _ => destruct c eqn:Q end; try reflexivity;
        try (apply Z.ltb_lt in Q); try (apply Z.ltb_ge in Q); lia. }
    rewrite J. destruct ((Z.of_nat pos <? 0)%Z || (Z.of_nat (List.length (l_seq l)) <=? Z.of_nat pos)%Z)%bool eqn:Q.
    - apply orb_true_iff in Q. destruct Q as [Q|Q]; [apply Z.ltb_lt in Q|apply Z.leb_le in Q]; lia.
    - rewrite Nat2Z.id. exact Hp. }
  assert (M : exists h', (match combine ps vs with [] => (h, Ok tt) | _ :: _ => match py_index (l_seq l) i with Some r => edit_positions h (combine ps vs) [r] | None => (h, Err IndexError) end end) = (h', Ok tt) /\
     lines h' = lines h /\ List.length (elems h') = List.length (elems h) /\
     forall x el, nth_error (elems h) x = Some el -> exists el', nth_error (elems h') x = Some el' /\ (x = e -> edited (combine ps vs) el el') /\ (x <> e -> el' = el)).
  { rewrite P. destruct (edit_effect [RE e] h (combine ps vs)) as (h' & E & L & Len & X).
    { right. intros b [B|[]]. discriminate. }
    destruct (combine ps vs) as [|kv pv] eqn:Ec.
    - exists h. repeat split; auto. intros x el Hx. exists el. split; [exact Hx|]. split; [|reflexivity]. intros _. unfold edited. split; [reflexivity|]. split; [reflexivity|]. split; [reflexivity|].
      intros k o Lv. inversion Lv; [reflexivity|]. destruct l1; discriminate.
    - exists h'. repeat split; auto. intros x el Hx. destruct (X x el Hx) as (el' & A & B & C). exists el'. split; [exact A|]. split.
      + intros ->. apply B. left; reflexivity.
      + intros N. apply C. intros [Q|[]]. congruence. }
  destruct M as (h' & E & L & Len & X). exists h'. split; [destruct (combine ps vs); exact E|]. split.
  - unfold same_but_params. split; [exact L|]. split; [exact Len|]. intros x el Hx. destruct (X x el Hx) as (el' & A & B & C). exists el'. split; [exact A|].
    destruct (Nat.eq_dec x e) as [Q|Q]; [destruct (B Q) as (P1 & P2 & P3 & _); auto|rewrite (C Q); auto].
  - intros x el Hx. destruct (X x el Hx) as (el' & A & B & C). exists el'. split; [exact A|]. split; [|exact C].
    intros Q k o Lv. destruct (B Q) as (_ & _ & _ & P4). apply P4. exact Lv.
Qed.
Print Assumptions C38_by_index_partial.

Theorem C38_out_of_range : forall ops a l i ps vs, nth_error (lines (history ops)) a = Some l -> combine ps vs <> [] ->
  (i >= Z.of_nat (List.length (l_seq l)) \/ i < - Z.of_nat (List.length (l_seq l)))%Z ->
  edit_by_index (history ops) a i ps vs = (history ops, Err IndexError).
Proof.
  intros ops a l i ps vs Hl N Hi. unfold edit_by_index. rewrite Hl, zip_combine.
  assert (P : py_index (l_seq l) i = None).
  { unfold py_index. destruct (i <? 0)%Z eqn:Q; [apply Z.ltb_lt in Q|apply Z.ltb_ge in Q];
    match goal with |- (if ?c then _ else _) = _ => destruct c eqn:Q2; [reflexivity|] end; apply orb_false_iff in Q2; destruct Q2 as [Q2 Q3];
    apply Z.ltb_ge in Q2; apply Z.leb_gt in Q3; lia. }
  rewrite P. destruct (combine ps vs); [congruence|reflexivity].
Qed.
Print Assumptions C38_out_of_range.

Example C38_applies : exists l, nth_error (lines (history demo_ops)) 0 = Some l /\
  (forall b lb, In (RL b) (l_seq l) -> nth_error (lines (history demo_ops)) b = Some lb -> l_name lb <> Some "d"%string) /\
  In (RE 0) (l_seq l) /\ nth_error (l_seq l) 2 = Some (RE 0).
Proof.
  eexists. split; [reflexivity|]. split; [|split; [left; reflexivity|reflexivity]].
  intros b lb I Hb. cbn in I. assert (b = 1%nat) by (intuition congruence). subst b. vm_compute in Hb. injection Hb as <-. discriminate.
Qed.

(** Full statement, first half: false for the elements of nested beamlines. *)
Theorem C38_nested_refuted : exists ops a h', edit_by_name (history ops) a "q"%string ["L"%string] [VNum 2] = (h', Ok tt) /\
  (exists es e el, get_beamline_elements (history ops) a = Ok es /\ In e es /\ element_at h' e = Some el /\ e_name el = "q"%string /\
     agn_get (e_params el) "L" = Some (VNum 1)).
Proof.
  exists [NewLine None; AddLine 0 (Some "cell"%string); AddElement 1 "q"%string "quad"%string [("L"%string, VNum 1)] false], 0%nat.
  eexists. split; [reflexivity|]. exists [0%nat], 0%nat. eexists. repeat split; try reflexivity. left; reflexivity.
Qed.
Print Assumptions C38_nested_refuted.
(** Second half: false when the element occurs at another position too. *)
Theorem C38_other_position_refuted : exists ops a h' s e el, edit_by_index (history ops) a 0 ["L"%string] [VNum 2] = (h', Ok tt) /\
  sequence h' a = Some s /\ nth_error s 2 = Some (RE e) /\ element_at h' e = Some el /\ agn_get (e_params el) "L" = Some (VNum 2) /\
  exists el0, element_at (history ops) e = Some el0 /\ agn_get (e_params el0) "L" = Some (VNum 1).
Proof.
  exists [NewLine None; AddElement 0 "d"%string "drift"%string [("L"%string, VNum 1)] false; AddElement 0 "q"%string "quad"%string [] false; AddElement 0 "d"%string "drift"%string [] false], 0%nat.
  eexists. eexists. exists 0%nat. eexists. split; [reflexivity|]. split; [reflexivity|]. split; [reflexivity|]. split; [reflexivity|]. split; [reflexivity|].
  eexists. split; reflexivity.
Qed.
Print Assumptions C38_other_position_refuted.

(* ================================================================== *)
(** C39 *)
Theorem C39_roundtrip_partial : forall ops a A subl C elsA elsB elsC name,
  let h := history ops in
  sequence h a = Some (map RE A ++ subl ++ map RE C) ->
  (subl = [] /\ elsB = [] \/ exists b B, subl = [RL b] /\ sequence h b = Some (map RE B) /\ Forall2 (fun e el => element_at h e = Some el) B elsB) ->
  Forall2 (fun e el => element_at h e = Some el) A elsA -> Forall2 (fun e el => element_at h e = Some el) C elsC ->
  agree (elsA ++ elsC) -> agree elsB -> (forall x, In x (elsA ++ elsB ++ elsC) -> no_clash x) ->
  exists data h' s t, save_beamline h a = Ok data /\
    load_beamline (fst (new_line h name)) (snd (new_line h name)) data = (h', Ok tt) /\
    sequence h' (snd (new_line h name)) = Some s /\
    looks h (map RE A ++ subl ++ map RE C) t /\ looks h' s t.
Proof.
  intros ops a A subl C elsA elsB elsC name h Hs Hsub HA HC CA CB P.
  exact (roundtrip h a A C subl elsA elsB elsC name (wf_history ops) (types_history ops) Hs Hsub HA HC CA CB P).
Qed.
Print Assumptions C39_roundtrip_partial.

(** The view of a beamline is unique. *)
Theorem C39_view_unique : forall h s t t', looks h s t -> looks h s t' -> t = t'.
Proof.
  intros h s t t' H. revert t'. induction H; intros t' H'; inversion H'; subst.
  - reflexivity.
  - rewrite H in H3. injection H3 as <-. f_equal. apply IHlooks. assumption.
  - rewrite H in H4. injection H4 as <-. f_equal; [f_equal; apply IHlooks1; assumption|apply IHlooks2; assumption].
Qed.
Print Assumptions C39_view_unique.

Theorem C39_load_into_used : forall ops a s data, sequence (history ops) a = Some s -> s <> [] ->
  load_beamline (history ops) a data = (history ops, Ok tt).
Proof.
  intros ops a s data Hs N. destruct (seq_line _ _ _ Hs) as (l & Hl & <-). unfold load_beamline. rewrite Hl. destruct (l_seq l); [congruence|reflexivity].
Qed.
Print Assumptions C39_load_into_used.

Definition save_ops : list op :=
  [NewLine (Some "main"%string); AddElement 0 "d"%string "drift"%string [("L"%string, VNum 2)] false; AddLine 0 (Some "cell"%string);
   AddElement 0 "q1"%string "quadrupole"%string [("L"%string, VNum 1); ("K1"%string, VStr "k"%string)] true; AddElement 0 "d"%string "drift"%string [] false].
Example C39_applies : exists eld elq, sequence (history save_ops) 0 = Some (map RE [0%nat] ++ [RL 1] ++ map RE [0%nat]) /\
  Forall2 (fun e el => element_at (history save_ops) e = Some el) [0%nat] [eld] /\
  Forall2 (fun e el => element_at (history save_ops) e = Some el) [1%nat] [elq] /\
  sequence (history save_ops) 1 = Some (map RE [1%nat]) /\
  agree ([eld] ++ [eld]) /\ agree [elq] /\ forall x, In x ([eld] ++ [elq] ++ [eld]) -> no_clash x.
Proof.
  eexists. eexists. split; [reflexivity|]. split; [repeat constructor|]. split; [repeat constructor|]. split; [reflexivity|]. split; [|split].
  - intros x y [<-|[<-|[]]] [<-|[<-|[]]] _; split; reflexivity.
  - intros x y [<-|[]] [<-|[]] _; split; reflexivity.
  - intros x I k v Ik. cbn in I. destruct I as [<-|[<-|[<-|[]]]]; cbn in Ik;
      repeat (destruct Ik as [Ik|Ik]; [injection Ik as <- _; cbn; intros J; repeat (destruct J as [J|J]; [discriminate|]); exact J|]); destruct Ik.
Qed.

(** Full statement: false for two sub-beamlines (they come back as one), for deeper nesting, and for a
    parameter called "name". *)
Definition reloaded (ops : list op) : heap :=
  match save_beamline (history ops) 0 with
  | Ok data => fst (load_beamline (fst (new_line (history ops) None)) (snd (new_line (history ops) None)) data)
  | _ => history ops
  end.
Theorem C39_two_sublines_refuted : exists ops b es es', snd (new_line (history ops) None) = b /\
  get_beamline_elements (history ops) 0 = Ok es /\ get_beamline_elements (reloaded ops) b = Ok es' /\ List.length es = 2%nat /\ List.length es' = 4%nat.
Proof.
  exists [NewLine None; AddLine 0 (Some "a"%string); AddElement 1 "d"%string "drift"%string [] false; AddLine 0 (Some "b"%string); AddElement 2 "q"%string "quad"%string [] false].
  do 3 eexists. repeat split; reflexivity.
Qed.
Print Assumptions C39_two_sublines_refuted.
Theorem C39_nested_refuted : exists ops b s s' b1, snd (new_line (history ops) None) = b /\
  sequence (history ops) 0 = Some s /\ s = [RL 1] /\ sequence (history ops) 1 = Some [RL 2] /\
  sequence (reloaded ops) b = Some s' /\ s' = [RL b1; RL b1] /\ sequence (reloaded ops) b1 = Some [RE 1].
Proof.
  exists [NewLine None; AddLine 0 (Some "a"%string); AddLine 1 (Some "b"%string); AddElement 2 "d"%string "drift"%string [] false].
  do 4 eexists. repeat split; reflexivity.
Qed.
Print Assumptions C39_nested_refuted.
Theorem C39_name_parameter_refuted : exists ops b e el, snd (new_line (history ops) None) = b /\
  (exists el0, element_at (history ops) 0 = Some el0 /\ e_name el0 = "q"%string) /\
  sequence (reloaded ops) b = Some [RE e] /\ element_at (reloaded ops) e = Some el /\ e_name el = "other"%string.
Proof.
  exists [NewLine None; AddElement 0 "q"%string "quad"%string [("name"%string, VStr "other"%string)] false].
  do 3 eexists. split; [reflexivity|]. split; [eexists; split; reflexivity|]. split; [reflexivity|]. split; reflexivity.
Qed.
Print Assumptions C39_name_parameter_refuted.

(* ================================================================== *)
(** C40 *)
(** The order of the product, and what the factors are: for each element the matrix of its type in the
    symbols L and K1 (not in its parameters). *)
Theorem C40_product_partial : forall ops a s M, sequence (history ops) a = Some s -> generate_matrix (history ops) a = Ok M ->
  exists ms : list smat,
    Forall2 (fun r m => exists e el, r = RE e /\ element_at (history ops) e = Some el /\
      (e_type el = "quadrupole"%string /\ (forall v, m v = quad_matrix v) \/ e_type el = "drift"%string /\ (forall v, m v = drift_matrix v))) s ms /\
    forall v i j, (i < 4)%nat -> (j < 4)%nat -> M v i j = product (map (fun m => m v) ms) i j.
Proof.
  intros ops a s M Hs H. destruct (seq_line _ _ _ Hs) as (l & Hl & <-). unfold generate_matrix in H. rewrite Hl in H.
  destruct (mapres (element_matrix (history ops)) (l_seq l)) as [ms|x|] eqn:E; try discriminate. cbn [rbind] in H.
  exists ms. split; [|apply concatenate_product; exact H]. apply mapres_ok in E.
  clear - E. induction E as [|r m s ms Hm E IH]; constructor; [|exact IH]. clear IH E. destruct (element_matrix_ok _ _ _ (wf_history ops) Hm) as (e & el & m0 & -> & He & Hm0 & Ev).
  exists e, el. split; [reflexivity|]. split; [exact He|]. unfold matrices in Hm0.
  destruct (String.eqb_spec (e_type el) "quadrupole") as [T|_]; [injection Hm0 as <-; left; auto|].
  destruct (String.eqb_spec (e_type el) "drift") as [T|_]; [injection Hm0 as <-; right; auto|discriminate].
Qed.
Print Assumptions C40_product_partial.

Theorem C40_symplectic : forall ops a M v, generate_matrix (history ops) a = Ok M -> v "K1"%string <> 0 -> symplectic (M v).
Proof.
  intros ops a M v H _. assert (exists s, sequence (history ops) a = Some s) as [s Hs].
  { unfold generate_matrix in H. unfold sequence. destruct (nth_error (lines (history ops)) a) as [l|]; [|discriminate]. exists (l_seq l). reflexivity. }
  destruct (C40_product_partial ops a s M Hs H) as (ms & F & P).
  assert (S : symplectic (product (map (fun m => m v) ms))).
  { apply product_symplectic. intros m I. apply in_map_iff in I. destruct I as (m0 & <- & I). clear - F I.
    induction F as [|r m1 s ms Hm F IH]; [destruct I|]. destruct I as [->|I]; [|apply IH; exact I].
    destruct Hm as (e & el & _ & _ & [[_ E]|[_ E]]); rewrite E; [apply quad_symplectic|apply drift_symplectic]. }
  intros i j Hi Hj. rewrite <- (S i j Hi Hj). apply sum4_ext. intros k Hk. apply sum4_ext. intros l Hl. rewrite !P by assumption. reflexivity.
Qed.
Print Assumptions C40_symplectic.

(** What the factors do: each quadrupole moves a particle by x'' = - K1 x, y'' = K1 y over the
    length L, each drift straight on. *)
Theorem C40_motion : forall ops a s M v, sequence (history ops) a = Some s -> generate_matrix (history ops) a = Ok M -> v "K1"%string <> 0 ->
  exists ms : list mat,
    Forall2 (fun r m => exists e el, r = RE e /\ element_at (history ops) e = Some el /\
      (e_type el = "quadrupole"%string /\ transports (v "K1"%string) (v "L"%string) m \/ e_type el = "drift"%string /\ transports 0 (v "L"%string) m)) s ms /\
    forall i j, (i < 4)%nat -> (j < 4)%nat -> M v i j = product ms i j.
Proof.
  intros ops a s M v Hs H K. destruct (C40_product_partial ops a s M Hs H) as (ms & F & P). exists (map (fun m => m v) ms). split; [|apply P].
  clear - F K. induction F as [|r m s ms Hm F IH]; constructor; [|exact IH]. destruct Hm as (e & el & -> & He & Hm). exists e, el. split; [reflexivity|]. split; [exact He|].
  destruct Hm as [[T E]|[T E]]; [left|right]; (split; [exact T|]); rewrite E; [apply quad_transports; exact K|apply drift_transports].
Qed.
Print Assumptions C40_motion.

(** It is defined exactly for a non-empty sequence of drifts and quadrupoles. *)
Theorem C40_defined : forall ops a s, sequence (history ops) a = Some s ->
  (s = [] -> generate_matrix (history ops) a = Err IndexError) /\
  (s <> [] -> (forall r, In r s -> exists e el, r = RE e /\ element_at (history ops) e = Some el /\ (e_type el = "quadrupole"%string \/ e_type el = "drift"%string)) ->
     exists M, generate_matrix (history ops) a = Ok M) /\
  (forall s1 b s2, s = map RE s1 ++ RL b :: s2 -> (forall e, In e s1 -> exists el, element_at (history ops) e = Some el /\ (e_type el = "quadrupole"%string \/ e_type el = "drift"%string)) ->
     generate_matrix (history ops) a = Err AttributeError) /\
  (forall s1 e el s2, s = map RE s1 ++ RE e :: s2 -> (forall e, In e s1 -> exists el, element_at (history ops) e = Some el /\ (e_type el = "quadrupole"%string \/ e_type el = "drift"%string)) ->
     element_at (history ops) e = Some el -> e_type el <> "quadrupole"%string -> e_type el <> "drift"%string -> generate_matrix (history ops) a = Err KeyError).
Proof.
  intros ops a s Hs. destruct (seq_line _ _ _ Hs) as (l & Hl & <-). unfold generate_matrix. rewrite Hl. set (h := history ops) in *.
  assert (One : forall e el, element_at h e = Some el -> e_type el = "quadrupole"%string \/ e_type el = "drift"%string -> exists m, element_matrix h (RE e) = Ok m).
  { intros e el He T. cbn. unfold element_at in He. rewrite He. unfold matrices. destruct T as [->| ->]; cbn; eexists; reflexivity. }
  assert (Pre : forall s1 r s2 x, (forall e, In e s1 -> exists el, element_at h e = Some el /\ (e_type el = "quadrupole"%string \/ e_type el = "drift"%string)) ->
     element_matrix h r = Err x -> mapres (element_matrix h) (map RE s1 ++ r :: s2) = Err x).
  { induction s1 as [|e s1 IH]; intros r s2 x H E; cbn [map app mapres].
    - rewrite E. reflexivity.
    - destruct (H e (or_introl eq_refl)) as (el & He & T). destruct (One e el He T) as [m Em]. rewrite Em. cbn [rbind].
      rewrite (IH r s2 x); [reflexivity| |exact E]. intros e' I. apply H. right; exact I. }
  split; [intros ->; reflexivity|]. split; [|split].
  - intros N H. assert (exists ms, mapres (element_matrix h) (l_seq l) = Ok ms /\ List.length ms = List.length (l_seq l)) as (ms & E & Len).
    { clear N Hs Hl. induction (l_seq l) as [|r s IH]; [exists []; split; reflexivity|]. destruct (H r (or_introl eq_refl)) as (e & el & -> & He & T).
      destruct (One e el He T) as [m Em]. destruct IH as (ms & E & Len); [intros r I; apply H; right; exact I|]. exists (m :: ms). cbn [mapres]. rewrite Em, E. cbn. split; [reflexivity|congruence]. }
    rewrite E. cbn [rbind]. unfold concatenate. destruct (rev ms) as [|m r] eqn:R; [|eexists; reflexivity].
    exfalso. apply N. assert (List.length (rev ms) = 0%nat) by (rewrite R; reflexivity). rewrite rev_length, Len in H0. destruct (l_seq l); [reflexivity|discriminate].
  - intros s1 b s2 -> H. rewrite (Pre s1 (RL b) s2 AttributeError H eq_refl). reflexivity.
  - intros s1 e el s2 -> H He N1 N2. rewrite (Pre s1 (RE e) s2 KeyError H); [reflexivity|]. cbn. unfold element_at in He. rewrite He.
    unfold matrices. destruct (String.eqb_spec (e_type el) "quadrupole"); [congruence|]. destruct (String.eqb_spec (e_type el) "drift"); [congruence|reflexivity].
Qed.
Print Assumptions C40_defined.

Example C40_applies : exists M, generate_matrix (history [NewLine None; AddElement 0 "d"%string "drift"%string [("L"%string, VNum 1)] false;
   AddElement 0 "q"%string "quadrupole"%string [("K1"%string, VNum 2); ("L"%string, VNum 3)] false]) 0 = Ok M.
Proof. eexists. reflexivity. Qed.

(** Full statement, last part: false.  The matrix depends on no parameter of any element. *)
Theorem C40_parameters_refuted : exists ops1 ops2 M1 M2,
  length_of (history ops1) 0 <> length_of (history ops2) 0 /\
  generate_matrix (history ops1) 0 = Ok M1 /\ generate_matrix (history ops2) 0 = Ok M2 /\ forall v i j, M1 v i j = M2 v i j.
Proof.
  exists [NewLine None; AddElement 0 "d"%string "drift"%string [("L"%string, VNum 1)] false],
         [NewLine None; AddElement 0 "d"%string "drift"%string [("L"%string, VNum 2)] false].
  do 2 eexists. split; [|split; [reflexivity|split; [reflexivity|reflexivity]]].
  unfold length_of. cbn -[Rplus]. intros E. injection E as E. lra.
Qed.
Print Assumptions C40_parameters_refuted.

From Coq Require Import List Reals Bool Arith String Ascii ZArith Lia Lra.
From Verif Require Import PyBase PyDict Line_Model Line_Spec Line_Proofs.
Import ListNotations.
Open Scope R_scope.

(* ---------------- what persists ---------------- *)
Definition grows (p : bool) (h h' : heap) : Prop :=
  (forall e el, nth_error (elems h) e = Some el -> exists el', nth_error (elems h') e = Some el' /\
     e_name el' = e_name el /\ e_type el' = e_type el /\ (p = true -> e_params el' = e_params el)) /\
  (forall a l, nth_error (lines h) a = Some l -> exists l', nth_error (lines h') a = Some l' /\ l_name l' = l_name l /\
     forall n e, dget string_dec (l_elements l) n = Some e -> dget string_dec (l_elements l') n = Some e).

Lemma grows_refl : forall p h, grows p h h.
Proof. intros. split; intros; eexists; repeat split; eauto. Qed.
Lemma grows_trans : forall p h1 h2 h3, grows p h1 h2 -> grows p h2 h3 -> grows p h1 h3.
Proof.
  intros p h1 h2 h3 [A1 A2] [B1 B2]. split.
  - intros e el H. destruct (A1 _ _ H) as (el2 & H2 & N2 & T2 & P2). destruct (B1 _ _ H2) as (el3 & H3 & N3 & T3 & P3).
    exists el3. repeat split; try congruence. intros E. rewrite P3, P2; auto.
  - intros a l H. destruct (A2 _ _ H) as (l2 & H2 & N2 & D2). destruct (B2 _ _ H2) as (l3 & H3 & N3 & D3).
    exists l3. repeat split; auto; congruence.
Qed.
Lemma grows_weak : forall p h h', grows true h h' -> grows p h h'.
Proof.
  intros p h h' [A B]. split; [|exact B]. intros e el H. destruct (A _ _ H) as (el' & H' & N & T & P). exists el'. repeat split; auto.
Qed.
Lemma grows_upd_line : forall p h a f,
  (forall l, nth_error (lines h) a = Some l -> l_name (f l) = l_name l /\
     forall n e, dget string_dec (l_elements l) n = Some e -> dget string_dec (l_elements (f l)) n = Some e) ->
  grows p h (upd_line h a f).
Proof.
  intros p h a f H. split; [intros e el E; exists el; repeat split; auto|].
  intros x l Hx. unfold upd_line. cbn [lines]. rewrite upd_nth, Hx. destruct (a =? x)%nat eqn:E; cbn.
  - apply Nat.eqb_eq in E. subst x. exists (f l). split; [reflexivity|]. apply H. exact Hx.
  - exists l. repeat split; auto.
Qed.
Lemma grows_upd_elem : forall (p : bool) h a f,
  (forall el, e_name (f el) = e_name el /\ e_type (f el) = e_type el /\ (p = true -> e_params (f el) = e_params el)) ->
  grows p h (upd_elem h a f).
Proof.
  intros p h a f H. split; [|intros x l E; exists l; repeat split; auto].
  intros x el Hx. unfold upd_elem. cbn [elems]. rewrite upd_nth, Hx. destruct (a =? x)%nat; cbn; eexists; split; try reflexivity; auto.
Qed.
Lemma grows_app : forall p h es ls, grows p h {| elems := elems h ++ es; lines := lines h ++ ls |}.
Proof.
  intros. split; cbn.
  - intros e el H. exists el. repeat split; auto. rewrite nth_error_app1; [exact H|]. apply nth_error_Some; congruence.
  - intros a l H. exists l. repeat split; auto. rewrite nth_error_app1; [exact H|]. apply nth_error_Some; congruence.
Qed.

Lemma grows_the_element : forall h a l name ty ps, nth_error (lines h) a = Some l ->
  grows true h (fst (the_element h a l name ty ps)).
Proof.
  intros h a l name ty ps Ha. unfold the_element. destruct (dget string_dec (l_elements l) name) eqn:D; [apply grows_refl|].
  destruct (new_element name ty ps) as [el|x|]; try apply grows_refl. cbn [fst].
  eapply grows_trans; [apply (grows_app true h [el] [])|]. rewrite app_nil_r. apply grows_upd_line. cbn. intros l0 H0.
  rewrite Ha in H0. injection H0 as <-. split; [reflexivity|]. intros n e E. rewrite dget_dset_other; [exact E|congruence].
Qed.

Lemma grows_append : forall p h a r, grows p h (upd_line h a (append_ref r)).
Proof. intros. apply grows_upd_line. intros. split; auto. Qed.

Lemma grows_add_element : forall h a name ty ps s, grows true h (fst (add_element h a name ty ps s)).
Proof.
  intros. unfold add_element. destruct (nth_error (lines h) a) as [l|] eqn:Ha; [|apply grows_refl].
  pose proof (grows_the_element h a l name ty ps Ha) as G.
  destruct (the_element h a l name ty ps) as [h1 [e|x|]]; cbn [fst] in *; try exact G.
  assert (G2 : grows true h (upd_elem h1 e (fun el => with_e_line el (l_top l)))).
  { eapply grows_trans; [exact G|]. apply grows_upd_elem. intros; repeat split. }
  destruct s; [|eapply grows_trans; [exact G2|apply grows_append]].
  destruct (last_ref l) as [[e'|b]|]; cbn [fst]; try exact G2. eapply grows_trans; [exact G2|apply grows_append].
Qed.
Lemma grows_new_line : forall p h n, grows p h (fst (new_line h n)).
Proof.
  intros. unfold new_line. cbn [fst].
  match goal with |- grows _ _ {| elems := _; lines := _ ++ ?x |} => pose proof (grows_app p h [] x) as G end.
  rewrite app_nil_r in G. exact G.
Qed.
Lemma grows_add_beamline : forall h a name, grows true h (fst (add_beamline h a name)).
Proof.
  intros. unfold add_beamline. destruct (nth_error (lines h) a) as [l|] eqn:Ha; [|apply grows_refl].
  assert (T : forall h b t, grows true h (upd_line h b (with_top t))) by (intros; apply grows_upd_line; intros; split; auto).
  destruct (dget name_dec (l_lines l) name) as [b|].
  - cbn [fst]. eapply grows_trans; [apply grows_append|apply T].
  - destruct (new_line h name) as [h1 b] eqn:N. cbn [fst].
    eapply grows_trans; [|apply T]. eapply grows_trans; [|apply grows_append].
    eapply grows_trans; [|apply grows_upd_line; intros; split; auto].
    change h1 with (fst (h1, b)). rewrite <- N. apply grows_new_line.
Qed.
Lemma grows_create : forall n h self b, grows true h (fst (create_node h self b n)).
Proof.
  induction n as [d|l IH] using node_ind2; intros h self b; cbn [create_node].
  - destruct (text_of (dget string_dec d "name"%string) KeyError); try apply grows_refl.
    destruct (text_of (dget string_dec d "type"%string) KeyError); try apply grows_refl. apply grows_add_element.
  - pose proof (grows_add_beamline h self None) as G.
    destruct (add_beamline h self None) as [h1 [u|e|]]; cbn [fst] in *; try exact G.
    destruct (nth_error (lines h1) self) as [ls|]; [|exact G].
    destruct (last_ref ls) as [[e|b']|]; [exact G| |exact G].
    rewrite create_list_eq. eapply grows_trans; [exact G|]. clear - IH. revert h1.
    induction IH as [|n ns Hn Hns IH2]; intros h1; cbn [create_nodes]; [apply grows_refl|].
    pose proof (Hn h1 self b') as W2. destruct (create_node h1 self b' n) as [h2 [u|e|]]; cbn [fst] in *; try exact W2.
    eapply grows_trans; [exact W2|apply IH2].
Qed.
Lemma grows_creates : forall ns h self b, grows true h (fst (create_nodes h self b ns)).
Proof.
  induction ns as [|n ns IH]; intros h self b; cbn [create_nodes]; [apply grows_refl|].
  pose proof (grows_create n h self b) as W2. destruct (create_node h self b n) as [h2 [u|e|]]; cbn [fst] in *; try exact W2.
  eapply grows_trans; [exact W2|apply IH].
Qed.
Lemma grows_edit : forall l h pv, grows false h (fst (edit_positions h pv l)).
Proof.
  induction l as [|[e|b] l IH]; intros h pv; cbn [edit_positions].
  - apply grows_refl.
  - eapply grows_trans; [|apply IH]. apply grows_upd_elem. intros; repeat split; auto. discriminate.
  - destruct pv; [apply IH|apply grows_refl].
Qed.

Definition is_edit (o : op) : bool := match o with EditName _ _ _ _ | EditIndex _ _ _ _ => true | _ => false end.
Lemma grows_step : forall o h, grows (negb (is_edit o)) h (fst (step h o)).
Proof.
  intros o h. destruct o; cbn [step is_edit negb].
  - apply grows_new_line.
  - apply grows_add_element.
  - apply grows_add_beamline.
  - unfold edit_by_name. destruct (nth_error (lines h) a); [apply grows_edit|apply grows_refl].
  - unfold edit_by_index. destruct (nth_error (lines h) a); [|apply grows_refl].
    destruct (zip ps vs); [apply grows_refl|]. destruct (py_index (l_seq l) i); [apply grows_edit|apply grows_refl].
  - unfold load_beamline. destruct (nth_error (lines h) a); [|apply grows_refl]. destruct (l_seq l); [apply grows_creates|apply grows_refl].
Qed.

(** Running more calls from a heap. *)
Definition runs (h : heap) (ops : list op) : heap := fold_left (fun h o => fst (step h o)) ops h.
Lemma grows_runs : forall ops p h, (p = true -> forallb (fun o => negb (is_edit o)) ops = true) -> grows p h (runs h ops).
Proof.
  induction ops as [|o ops IH]; intros p h H; [apply grows_refl|]. cbn [runs fold_left].
  eapply grows_trans; [|apply IH; intros E; specialize (H E); cbn in H; apply andb_true_iff in H; tauto].
  pose proof (grows_step o h) as G. destruct p.
  - specialize (H eq_refl). cbn in H. apply andb_true_iff in H. destruct H as [H _]. rewrite H in G. exact G.
  - destruct (negb (is_edit o)); [apply grows_weak; exact G|exact G].
Qed.
Lemma runs_history : forall ops1 ops2, history (ops1 ++ ops2) = runs (history ops1) ops2.
Proof. intros. unfold history, runs. apply fold_left_app. Qed.

(* ---------------- effect of add_element on sequences ---------------- *)
Lemma last_ref_app : forall l r, last_ref l = Some r -> exists s, l_seq l = s ++ [r].
Proof.
  intros l r H. unfold last_ref in H. destruct (rev (l_seq l)) as [|x y] eqn:E; [discriminate|]. injection H as ->.
  exists (rev y). rewrite <- (rev_involutive (l_seq l)), E. reflexivity.
Qed.

Lemma seq_upd : forall h b r x, sequence (upd_line h b (append_ref r)) x =
  if (b =? x)%nat then option_map (fun s => s ++ [r]) (sequence h x) else sequence h x.
Proof.
  intros. unfold sequence, upd_line. cbn [lines]. rewrite upd_nth. destruct (b =? x)%nat; [|reflexivity].
  destruct (nth_error (lines h) x); reflexivity.
Qed.
Lemma seq_upd_elem : forall h e f x, sequence (upd_elem h e f) x = sequence h x.
Proof. reflexivity. Qed.

Lemma the_element_seq : forall h a l name ty ps, nth_error (lines h) a = Some l -> forall x,
  sequence (fst (the_element h a l name ty ps)) x = sequence h x.
Proof.
  intros h a l name ty ps Ha x. unfold the_element. destruct (dget string_dec (l_elements l) name); [reflexivity|].
  destruct (new_element name ty ps) as [el|y|]; try reflexivity. cbn [fst]. unfold sequence, upd_line. cbn [lines].
  rewrite upd_nth. destruct (a =? x)%nat; [|reflexivity]. destruct (nth_error (lines h) x); reflexivity.
Qed.

(** Everything a successful add_element does. *)
Lemma add_element_effect : forall h a name ty ps sub h', wf h -> add_element h a name ty ps sub = (h', Ok tt) ->
  exists l s b e el,
    nth_error (lines h) a = Some l /\ s = l_seq l /\
    (sub = false /\ b = a \/ sub = true /\ exists s0, s = s0 ++ [RL b]) /\
    (forall x, sequence h' x = if (b =? x)%nat then option_map (fun s => s ++ [RE e]) (sequence h x) else sequence h x) /\
    (exists t, sequence h b = Some t) /\
    element_at h' e = Some el /\ e_name el = name /\ e_line el = Some (l_top l) /\
    ((dget string_dec (l_elements l) name = Some e /\ elems h' = elems h /\ lines h' = upd (lines h) b (append_ref (RE e))) \/
     (dget string_dec (l_elements l) name = None /\ e = List.length (elems h) /\ elems h' = elems h ++ [el] /\
      e_type el = interpret_element ty /\ e_params el = assigns [] ps /\
      lines h' = upd (upd (lines h) a (register_element name e)) b (append_ref (RE e)))).
Proof.
  intros h a name ty ps sub h' W H. unfold add_element in H.
  destruct (nth_error (lines h) a) as [l|] eqn:Ha; [|discriminate].
  destruct (the_element h a l name ty ps) as [h1 [e|x|]] eqn:TE; try discriminate.
  destruct (the_element_ok h a l name ty ps h1 e W Ha TE) as (W2 & el & He & Hn & Hl & C). cbn zeta in *.
  set (h2 := upd_elem h1 e _) in *.
  assert (S2 : forall x, sequence h2 x = sequence h x).
  { intros x. unfold h2. rewrite seq_upd_elem. change h1 with (fst (h1, @Ok nat e)). rewrite <- TE. apply the_element_seq; exact Ha. }
  assert (Main : forall b, h' = upd_line h2 b (append_ref (RE e)) ->
     (sub = false /\ b = a \/ sub = true /\ exists s0, l_seq l = s0 ++ [RL b]) -> (exists t, sequence h b = Some t) ->
     exists (l1 : line) (s : list ref) (b0 e0 : nat) (el0 : element),
       Some l = Some l1 /\ s = l_seq l1 /\ (sub = false /\ b0 = a \/ sub = true /\ (exists s0, s = s0 ++ [RL b0])) /\
       (forall x, sequence h' x = if (b0 =? x)%nat then option_map (fun s0 => s0 ++ [RE e0]) (sequence h x) else sequence h x) /\
       (exists t, sequence h b0 = Some t) /\ element_at h' e0 = Some el0 /\ e_name el0 = name /\ e_line el0 = Some (l_top l1) /\
       ((dget string_dec (l_elements l1) name = Some e0 /\ elems h' = elems h /\ lines h' = upd (lines h) b0 (append_ref (RE e0))) \/
        (dget string_dec (l_elements l1) name = None /\ e0 = List.length (elems h) /\ elems h' = elems h ++ [el0] /\
         e_type el0 = interpret_element ty /\ e_params el0 = assigns [] ps /\
         lines h' = upd (upd (lines h) a (register_element name e0)) b0 (append_ref (RE e0))))).
  { intros b -> Hb Ht. exists l, (l_seq l), b, e, el. repeat split; auto.
    - intros x. rewrite seq_upd, !S2. reflexivity.
    - destruct C as [(D & E & E2)|(D & E & E2 & T & P & L)].
      + left. rewrite E2. repeat split; auto.
      + right. repeat split; auto. unfold upd_line. cbn [lines]. rewrite L. reflexivity. }
  destruct sub.
  - destruct (last_ref l) as [[e1|b]|] eqn:LR; try discriminate. injection H as <-. apply (Main b); auto.
    + right. split; [reflexivity|]. apply last_ref_app. exact LR.
    + destruct W as [W K]. destruct (W a l Ha) as (_ & Wb & _). destruct (Wb b (last_ref_in _ _ LR)) as (_ & lb & Hb & _).
      exists (l_seq lb). unfold sequence. rewrite Hb. reflexivity.
  - injection H as <-. apply (Main a); auto. exists (l_seq l). unfold sequence. rewrite Ha. reflexivity.
Qed.

Lemma add_element_fail : forall h a name ty ps sub h' x, add_element h a name ty ps sub = (h', Err x) ->
  forall b, sequence h' b = sequence h b.
Proof.
  intros h a name ty ps sub h' x H b. unfold add_element in H.
  destruct (nth_error (lines h) a) as [l|] eqn:Ha; [|injection H as <- _; reflexivity].
  pose proof (the_element_seq h a l name ty ps Ha) as S.
  destruct (the_element h a l name ty ps) as [h1 [e|y|]] eqn:TE; cbn [fst] in S.
  - destruct sub; [|discriminate]. destruct (last_ref l) as [[e1|b1]|]; try discriminate; injection H as <- _; rewrite seq_upd_elem; apply S.
  - injection H as <- _. apply S.
  - discriminate.
Qed.

Lemma add_beamline_effect : forall h a name, wf h -> forall s, sequence h a = Some s ->
  exists h' b, add_beamline h a name = (h', Ok tt) /\ sequence h' a = Some (s ++ [RL b]) /\
    elems h' = elems h /\
    (forall x, x <> a -> x <> b -> sequence h' x = sequence h x) /\
    ((In (RL b) s /\ sequence h' b = sequence h b) \/
     (sequence h b = None /\ sequence h' b = Some [] /\
      exists lb, nth_error (lines h') b = Some lb /\ l_name lb = name)).
Proof.
  intros h a name W s Hs. unfold sequence in Hs. destruct (nth_error (lines h) a) as [l|] eqn:Ha; [|discriminate]. injection Hs as <-.
  destruct (dget name_dec (l_lines l) name) as [b|] eqn:D.
  - destruct (add_beamline_known h a l name b W Ha D) as [E I]. exists (upd_line h a (append_ref (RL b))), b.
    destruct W as [W K]. destruct (W a l Ha) as (_ & W2 & _). destruct (W2 _ I) as (Lt & _).
    repeat split; auto.
    + rewrite seq_upd, Nat.eqb_refl. unfold sequence. rewrite Ha. reflexivity.
    + intros x Nx _. rewrite seq_upd. destruct (a =? x)%nat eqn:Q; [apply Nat.eqb_eq in Q; congruence|reflexivity].
    + left. split; [exact I|]. rewrite seq_upd. destruct (a =? b)%nat eqn:Q; [apply Nat.eqb_eq in Q; lia|reflexivity].
  - rewrite (add_beamline_new h a l name Ha D). eexists. exists (List.length (lines h)). split; [reflexivity|].
    assert (La : (a < List.length (lines h))%nat) by (apply nth_error_Some; congruence).
    unfold sequence. cbn [lines elems]. repeat split.
    + rewrite nth_error_app1 by (rewrite upd_length; exact La). rewrite upd_nth, Nat.eqb_refl, Ha. reflexivity.
    + intros x Na Nb. destruct (Nat.lt_ge_cases x (List.length (lines h))) as [Lt|Ge].
      * rewrite nth_error_app1 by (rewrite upd_length; exact Lt). rewrite upd_other by congruence. reflexivity.
      * replace (nth_error (lines h) x) with (@None line) by (symmetry; apply nth_error_None; exact Ge).
        match goal with |- option_map _ ?o = _ => replace o with (@None line); [reflexivity|] end.
        symmetry. apply nth_error_None. rewrite app_length, upd_length. cbn. lia.
    + right. split; [replace (nth_error (lines h) (List.length (lines h))) with (@None line); [reflexivity|symmetry; apply nth_error_None; lia]|].
      rewrite nth_error_app2, upd_length, Nat.sub_diag by (rewrite upd_length; lia). split; [reflexivity|]. eexists. split; reflexivity.
Qed.

(* ---------------- top of a line ---------------- *)
Lemma top_le : forall n h a l, (a <= n)%nat -> wf h -> nth_error (lines h) a = Some l -> (l_top l <= a)%nat.
Proof.
  induction n as [|n IH]; intros h a l Ln [W K] Ha; destruct (W a l Ha) as (_ & _ & _ & _ & _ & [E|(p & lp & Hp & I)]); try lia;
    destruct (W p lp Hp) as (_ & W2 & _); destruct (W2 _ I) as (Lt & lb & Hb & Tb); [lia|].
  rewrite Ha in Hb. injection Hb as <-. pose proof (IH h p lp ltac:(lia) (conj W K) Hp). lia.
Qed.
Lemma seq_line : forall h a s, sequence h a = Some s -> exists l, nth_error (lines h) a = Some l /\ l_seq l = s.
Proof. intros h a s H. unfold sequence in H. destruct (nth_error (lines h) a) as [l|]; [|discriminate]. injection H as <-. exists l. auto. Qed.
Lemma inside_top : forall h a t, wf h -> inside h a t -> forall la, nth_error (lines h) a = Some la ->
  exists lt, nth_error (lines h) t = Some lt /\ l_top lt = l_top la.
Proof.
  intros h a t [W K] H. induction H as [a s Hs|a p s t Hp I _ IH]; intros la Ha.
  - exists la. auto.
  - destruct (seq_line _ _ _ Hp) as (lp & Hlp & <-). destruct (IH lp Hlp) as (lt & Ht & E). exists lt. split; [exact Ht|].
    destruct (W p lp Hlp) as (_ & W2 & _). destruct (W2 _ I) as (_ & lb & Hb & Tb). rewrite Ha in Hb. injection Hb as <-. congruence.
Qed.
Lemma top_of_unique : forall h a la t, wf h -> nth_error (lines h) a = Some la -> top_of h a t -> t = l_top la.
Proof.
  intros h a la t Wf Ha [I N]. destruct (inside_top h a t Wf I la Ha) as (lt & Ht & E).
  destruct Wf as [W K]. destruct (W t lt Ht) as (_ & _ & _ & _ & _ & [E2|(p & lp & Hp & J)]); [congruence|].
  exfalso. apply (N p (l_seq lp)); [unfold sequence; rewrite Hp; reflexivity|exact J].
Qed.
Lemma top_of_exists : forall n h a la, (a <= n)%nat -> wf h -> nth_error (lines h) a = Some la -> top_of h a (l_top la).
Proof.
  intros n h a la Ln Wf Ha. split.
  - revert a la Ln Ha. induction n as [|n IH]; intros a la Ln Ha; pose proof Wf as [W K]; destruct (W a la Ha) as (_ & _ & _ & _ & _ & [E|(p & lp & Hp & I)]).
    + rewrite E. eapply in_self. unfold sequence. rewrite Ha. reflexivity.
    + destruct (W p lp Hp) as (_ & W2 & _); destruct (W2 _ I) as (Lt & _). lia.
    + rewrite E. eapply in_self. unfold sequence. rewrite Ha. reflexivity.
    + destruct (W p lp Hp) as (_ & W2 & _); destruct (W2 _ I) as (Lt & lb & Hb & Tb). rewrite Ha in Hb. injection Hb as <-. rewrite Tb.
      eapply in_up; [unfold sequence; rewrite Hp; reflexivity|exact I|]. apply IH; [lia|exact Hp].
  - intros p s Hp I. destruct (seq_line _ _ _ Hp) as (lp & Hlp & <-). pose proof Wf as [W K].
    destruct (W p lp Hlp) as (_ & W2 & _); destruct (W2 _ I) as (Lt & lb & Hb & Tb).
    destruct (W a la Ha) as (_ & _ & _ & _ & (lt & Ht & Et) & _). rewrite Ht in Hb. injection Hb as <-.
    pose proof (top_le p h p lp (le_n p) Wf Hlp). lia.
Qed.

(* ---------------- edits ---------------- *)
Lemma zip_combine : forall {A B} (l : list A) (m : list B), zip l m = combine l m.
Proof. induction l as [|x l IH]; intros [|y m]; cbn; try reflexivity. f_equal. apply IH. Qed.

Definition edited (pv : list (string * value)) (el el' : element) : Prop :=
  e_name el' = e_name el /\ e_type el' = e_type el /\ e_line el' = e_line el /\
  forall k o, last_value k pv o -> agn_get (e_params el') k = match o with Some v => Some v | None => agn_get (e_params el) k end.

Lemma edited_once : forall pv el, edited pv el (set_params pv el).
Proof.
  intros. unfold edited. repeat split. intros k o L. unfold set_params, with_params. cbn [e_params].
  apply (last_value_get k pv o (e_params el) L).
Qed.
Lemma edited_twice : forall pv a b c, edited pv a b -> edited pv b c -> edited pv a c.
Proof.
  intros pv a b c (A1 & A2 & A3 & A4) (B1 & B2 & B3 & B4). unfold edited. repeat split; try congruence.
  intros k o L. rewrite (B4 _ _ L). destruct o; [reflexivity|]. apply (A4 _ _ L).
Qed.

Definition ref_dec : forall x y : ref, {x = y} + {x <> y}.
Proof. decide equality; apply Nat.eq_dec. Defined.

Lemma edit_effect : forall l h pv, (pv = [] \/ forall b, ~ In (RL b) l) ->
  exists h', edit_positions h pv l = (h', Ok tt) /\ lines h' = lines h /\ List.length (elems h') = List.length (elems h) /\
    forall e el, nth_error (elems h) e = Some el -> exists el', nth_error (elems h') e = Some el' /\
      (In (RE e) l -> edited pv el el') /\ (~ In (RE e) l -> el' = el).
Proof.
  induction l as [|[e0|b0] l IH]; intros h pv H; cbn [edit_positions].
  - exists h. repeat split; auto. intros e el E. exists el. split; [exact E|]. split; [intros []|reflexivity].
  - destruct (IH (upd_elem h e0 (set_params pv)) pv) as (h' & E & L & Len & X).
    { destruct H as [H|H]; [left; exact H|right]. intros b I. apply (H b). right; exact I. }
    exists h'. split; [exact E|]. split; [exact L|]. split; [rewrite Len; unfold upd_elem; cbn; apply upd_length|].
    intros e el He. destruct (Nat.eq_dec e0 e) as [->|N].
    + destruct (X e (set_params pv el)) as (el' & A & B & C).
      { unfold upd_elem. cbn [elems]. apply upd_same. exact He. }
      exists el'. split; [exact A|]. split; [intros _|intros I; exfalso; apply I; left; reflexivity].
      destruct (in_dec ref_dec (RE e) l) as [I|I].
      * eapply edited_twice; [apply edited_once|apply B; exact I].
      * rewrite (C I). apply edited_once.
    + destruct (X e el) as (el' & A & B & C).
      { unfold upd_elem. cbn [elems]. rewrite upd_other; assumption. }
      exists el'. split; [exact A|]. split; [intros [I|I]; [congruence|auto]|intros I; apply C; intros J; apply I; right; exact J].
  - destruct H as [->|H]; [|exfalso; apply (H b0); left; reflexivity].
    destruct (IH h [] (or_introl eq_refl)) as (h' & E & L & Len & X). exists h'. repeat split; auto.
    intros e el He. destruct (X e el He) as (el' & A & B & C). exists el'. split; [exact A|].
    split; [intros [I|I]; [discriminate|auto]|intros I; apply C; intros J; apply I; right; exact J].
Qed.
Lemma edit_fails : forall l h pv, pv <> [] -> (exists b, In (RL b) l) -> exists h', edit_positions h pv l = (h', Err AttributeError).
Proof.
  induction l as [|[e0|b0] l IH]; intros h pv N [b I]; [destruct I| |]; cbn [edit_positions].
  - apply IH; [exact N|]. destruct I as [I|I]; [discriminate|]. exists b; exact I.
  - destruct pv; [congruence|]. exists h. reflexivity.
Qed.

(* ---------------- types are normalised ---------------- *)
Lemma space_lower : forall c, is_space (lower_char c) = is_space c.
Proof.
  intros c. assert (F : forallb (fun c => Bool.eqb (is_space (lower_char c)) (is_space c)) all_chars = true) by (vm_compute; reflexivity).
  rewrite forallb_forall in F. apply eqb_prop. apply F. apply all_chars_in.
Qed.
Lemma lower_lstrip : forall s, lower (lstrip s) = lstrip (lower s).
Proof. induction s as [|c s IH]; cbn; [reflexivity|]. rewrite space_lower. destruct (is_space c); [exact IH|reflexivity]. Qed.
Lemma lower_rstrip : forall s, lower (rstrip s) = rstrip (lower s).
Proof.
  induction s as [|c s IH]; [reflexivity|]. cbn [rstrip lower]. rewrite <- IH, space_lower.
  destruct (rstrip s) as [|d r]; cbn; [destruct (is_space c); reflexivity|reflexivity].
Qed.
Lemma rstrip_rstrip : forall s, rstrip (rstrip s) = rstrip s.
Proof.
  induction s as [|c s IH]; [reflexivity|]. cbn [rstrip]. destruct (rstrip s) as [|d r] eqn:E.
  - destruct (is_space c) eqn:S; cbn; [reflexivity|]. rewrite S. reflexivity.
  - cbn [rstrip] in *. destruct (rstrip r) as [|d' r'] eqn:E'; [|rewrite IH; reflexivity].
    destruct (is_space d); [discriminate|]. injection IH as <-. reflexivity.
Qed.
Lemma lstrip_head : forall s c r, lstrip s = String c r -> is_space c = false.
Proof. induction s as [|d s IH]; intros c r H; [discriminate|]. cbn in H. destruct (is_space d) eqn:E; [eapply IH; exact H|congruence]. Qed.
Lemma lstrip_rstrip_lstrip : forall s, lstrip (rstrip (lstrip s)) = rstrip (lstrip s).
Proof.
  intros s. destruct (lstrip s) as [|c r] eqn:E; [reflexivity|]. apply lstrip_head in E. cbn [rstrip].
  destruct (rstrip r) as [|d r']; [rewrite E|]; cbn; rewrite E; reflexivity.
Qed.
Lemma interpret_idem : forall t, interpret_element (interpret_element t) = interpret_element t.
Proof.
  intros t. unfold interpret_element, strip.
  rewrite lower_rstrip, lower_lstrip, lower_lower. rewrite lstrip_rstrip_lstrip, rstrip_rstrip. reflexivity.
Qed.

Definition types_ok (h : heap) : Prop := forall e el, nth_error (elems h) e = Some el -> interpret_element (e_type el) = e_type el.
Lemma types_upd_elem : forall h a f, (forall el, e_type (f el) = e_type el) -> types_ok h -> types_ok (upd_elem h a f).
Proof.
  intros h a f H T e el He. unfold upd_elem in He. cbn [elems] in He. rewrite upd_nth in He. destruct (a =? e)%nat.
  - destruct (nth_error (elems h) e) eqn:E; [|discriminate]. injection He as <-. rewrite H. eapply T; exact E.
  - eapply T; exact He.
Qed.
Lemma types_add_element : forall h a name ty ps s, types_ok h -> types_ok (fst (add_element h a name ty ps s)).
Proof.
  intros h a name ty ps s T. unfold add_element. destruct (nth_error (lines h) a) as [l|]; [|exact T].
  assert (T1 : types_ok (fst (the_element h a l name ty ps))).
  { unfold the_element. destruct (dget string_dec (l_elements l) name); [exact T|]. unfold new_element.
    destruct (existsb _ ps); [exact T|]. cbn [fst]. intros e el He. cbn [upd_line elems] in He.
    destruct (Nat.lt_ge_cases e (List.length (elems h))) as [L|G].
    - rewrite nth_error_app1 in He by exact L. eapply T; exact He.
    - rewrite nth_error_app2 in He by exact G. destruct (e - List.length (elems h))%nat as [|n]; cbn in He; [|destruct n; discriminate].
      injection He as <-. cbn. apply interpret_idem. }
  destruct (the_element h a l name ty ps) as [h1 [e|x|]]; cbn [fst] in *; try exact T1.
  assert (T2 : types_ok (upd_elem h1 e (fun el => with_e_line el (l_top l)))) by (apply types_upd_elem; auto).
  destruct s; [|exact T2]. destruct (last_ref l) as [[e'|b]|]; exact T2.
Qed.
Lemma types_add_beamline : forall h a name, types_ok h -> types_ok (fst (add_beamline h a name)).
Proof.
  intros h a name T. unfold add_beamline. destruct (nth_error (lines h) a) as [l|]; [|exact T].
  destruct (dget name_dec (l_lines l) name); exact T.
Qed.
Lemma types_create : forall n h self b, types_ok h -> types_ok (fst (create_node h self b n)).
Proof.
  induction n as [d|l IH] using node_ind2; intros h self b W; cbn [create_node].
  - destruct (text_of (dget string_dec d "name"%string) KeyError); [|exact W|exact W].
    destruct (text_of (dget string_dec d "type"%string) KeyError); [|exact W|exact W].
    apply types_add_element. exact W.
  - pose proof (types_add_beamline h self None W) as W1.
    destruct (add_beamline h self None) as [h1 [u|e|]]; [|exact W1|exact W1]. cbn [fst] in W1.
    destruct (nth_error (lines h1) self) as [ls|]; [|exact W1].
    destruct (last_ref ls) as [[e|b']|]; [exact W1| |exact W1].
    rewrite create_list_eq. clear - IH W1. revert h1 W1. induction IH as [|n ns Hn Hns IH2]; intros h1 W1; cbn [create_nodes]; [exact W1|].
    pose proof (Hn h1 self b' W1) as W2. destruct (create_node h1 self b' n) as [h2 [u|e|]]; cbn [fst] in *; [apply IH2; exact W2|exact W2|exact W2].
Qed.
Lemma types_creates : forall ns h self b, types_ok h -> types_ok (fst (create_nodes h self b ns)).
Proof.
  induction ns as [|n ns IH]; intros h self b W; cbn [create_nodes]; [exact W|].
  pose proof (types_create n h self b W) as W2. destruct (create_node h self b n) as [h2 [u|e|]]; cbn [fst] in *; [apply IH; exact W2|exact W2|exact W2].
Qed.
Lemma types_edit : forall l h pv, types_ok h -> types_ok (fst (edit_positions h pv l)).
Proof.
  induction l as [|[e|b] l IH]; intros h pv W; cbn [edit_positions].
  - exact W.
  - apply IH. apply types_upd_elem; auto.
  - destruct pv; [apply IH; exact W|exact W].
Qed.
Lemma types_history : forall ops, types_ok (history ops).
Proof.
  intros ops. unfold history. assert (E : types_ok empty_heap) by (intros [|n] el H; discriminate). revert E. generalize empty_heap.
  induction ops as [|o ops IH]; intros h W; cbn [fold_left]; [exact W|]. apply IH.
  destruct o; cbn [step].
  - exact W.
  - apply types_add_element; exact W.
  - apply types_add_beamline; exact W.
  - unfold edit_by_name. destruct (nth_error (lines h) a); [apply types_edit; exact W|exact W].
  - unfold edit_by_index. destruct (nth_error (lines h) a); [|exact W].
    destruct (zip ps vs) as [|x y]; [exact W|]. destruct (py_index (l_seq l) i); [apply types_edit; exact W|exact W].
  - unfold load_beamline. destruct (nth_error (lines h) a); [|exact W]. destruct (l_seq l); [apply types_creates; exact W|exact W].
Qed.

(* ---------------- save and load ---------------- *)
Definition plain (el : element) : Prop := forall k v, In (k, v) (e_params el) ->
  ~ In k ["name"; "type"; "self"; "element_name"; "element_type"]%string.

Lemma dset_fold_fresh : forall (ps : params) (d : params), NoDup (dkeys ps) -> (forall k, In k (dkeys ps) -> ~ In k (dkeys d)) ->
  fold_left (fun d kv => dset string_dec d (fst kv) (snd kv)) ps d = d ++ ps.
Proof.
  induction ps as [|[k v] ps IH]; intros d N F; cbn [fold_left]; [rewrite app_nil_r; reflexivity|].
  cbn [fst snd]. rewrite dset_new by (apply dget_none; apply F; left; reflexivity).
  inversion N as [|? ? N1 N2]; subst. rewrite IH; [rewrite <- app_assoc; reflexivity|exact N2|].
  intros k' I. unfold dkeys in *. rewrite map_app. cbn. rewrite in_app_iff. intros [X|[X|[]]].
  - apply (F k'); [right; exact I|exact X].
  - subst k'. contradiction.
Qed.

Lemma saved_plain : forall el, keys_ok (e_params el) -> plain el ->
  saved_element el = ("name"%string, VStr (e_name el)) :: e_params el ++ [("type"%string, VStr (e_type el))].
Proof.
  intros el [N L] P. unfold saved_element.
  assert (Q : forall k, In k (dkeys (e_params el)) -> ~ In k ["name"; "type"; "self"; "element_name"; "element_type"]%string).
  { intros k I. unfold dkeys in I. apply in_map_iff in I. destruct I as ([k' v] & <- & I). eapply P; exact I. }
  rewrite dset_fold_fresh; [|exact N|].
  - rewrite dset_new; [reflexivity|]. apply dget_none. unfold dkeys. rewrite map_app. cbn. intros [X|X]; [discriminate|].
    apply (Q "type"%string X). cbn. tauto.
  - intros k I [X|[]]. cbn in X. subst k. apply (Q _ I). cbn. tauto.
Qed.

Lemma assigns_self : forall ps, keys_ok ps -> assigns [] ps = ps.
Proof.
  intros ps [N L]. unfold assigns.
  assert (E : forall d, fold_left (fun d kv => agn_set d (fst kv) (snd kv)) ps d = fold_left (fun d kv => dset string_dec d (fst kv) (snd kv)) ps d).
  { clear N. induction ps as [|[k v] ps IH]; intros d; cbn [fold_left]; [reflexivity|]. unfold agn_set at 2. cbn [fst snd].
    rewrite (L k v (or_introl eq_refl)). apply IH. intros k' v' I. apply (L k' v'). right; exact I. }
  rewrite E, dset_fold_fresh; auto.
Qed.

Lemma filter_saved : forall el, plain el ->
  filter (fun kv => negb (String.eqb (fst kv) "type") && negb (String.eqb (fst kv) "name"))%bool
   (("name"%string, VStr (e_name el)) :: e_params el ++ [("type"%string, VStr (e_type el))]) = e_params el.
Proof.
  intros el P. cbn [filter fst String.eqb]. cbn -[filter]. rewrite filter_app. cbn [filter fst]. cbn -[filter]. rewrite app_nil_r.
  assert (G : forall ps : params, (forall k v, In (k, v) ps -> ~ In k ["name"; "type"; "self"; "element_name"; "element_type"]%string) ->
    filter (fun kv : string * value => (negb (fst kv =? "type")%string && negb (fst kv =? "name")%string)%bool) ps = ps).
  { induction ps as [|[k v] ps IH]; intros H; cbn; [reflexivity|]. pose proof (H k v (or_introl eq_refl)) as Hk. cbn in Hk.
    destruct (String.eqb_spec k "type"); [exfalso; apply Hk; subst; tauto|]. destruct (String.eqb_spec k "name"); [exfalso; apply Hk; subst; tauto|].
    cbn. f_equal. apply IH. intros k' v' I. apply (H k' v'). right; exact I. }
  apply G. exact P.
Qed.

Lemma plain_no_reserved : forall el, plain el -> existsb (fun kv => reserved (fst kv)) (e_params el) = false.
Proof.
  intros el P. apply not_true_is_false. intros E. apply existsb_exists in E. destruct E as ([k v] & I & R). apply (P _ _ I).
  cbn in R. unfold reserved in R. apply orb_true_iff in R. destruct R as [R|R]; [apply orb_true_iff in R; destruct R as [R|R]|];
  apply String.eqb_eq in R; subst; cbn; tauto.
Qed.

Definition same_content (x y : element) : Prop := e_name x = e_name y /\ e_type x = e_type y /\ e_params x = e_params y.

(** What loading one saved element does. *)
Lemma load_element : forall h self b el, keys_ok (e_params el) -> plain el ->
  create_node h self b (NElem (saved_element el)) = add_element h b (e_name el) (e_type el) (e_params el) false.
Proof.
  intros h self b el K P. rewrite saved_plain by assumption. cbn [create_node].
  assert (D1 : dget string_dec (("name"%string, VStr (e_name el)) :: e_params el ++ [("type"%string, VStr (e_type el))]) "name"%string = Some (VStr (e_name el))) by reflexivity.
  rewrite D1. cbn [text_of].
  assert (D2 : dget string_dec (("name"%string, VStr (e_name el)) :: e_params el ++ [("type"%string, VStr (e_type el))]) "type"%string = Some (VStr (e_type el))).
  { cbn [dget]. destruct (string_dec "type"%string "name"%string) as [X|_]; [discriminate|]. rewrite dget_app.
    replace (dget string_dec (e_params el) "type"%string) with (@None value); [reflexivity|]. symmetry. apply dget_none. intros I. unfold dkeys in I. apply in_map_iff in I.
    destruct I as ([k v] & E & I). cbn in E. subst k. apply (P _ _ I). cbn. tauto. }
  rewrite D2. cbn [text_of]. rewrite filter_saved by exact P. reflexivity.
Qed.

(** The lines except [b] are untouched and [b] gains [rs]; the elements keep their content. *)
Definition extended (h h' : heap) (b : nat) (rs : list ref) : Prop :=
  (forall x, x <> b -> nth_error (lines h') x = nth_error (lines h) x) /\
    (forall l, nth_error (lines h) b = Some l -> exists l', nth_error (lines h') b = Some l' /\ l_seq l' = l_seq l ++ rs /\ l_lines l' = l_lines l) /\
    (forall e el, nth_error (elems h) e = Some el -> exists el', nth_error (elems h') e = Some el' /\ same_content el' el).

Lemma load_flat : forall (All : list element) els h self b l, wf h -> nth_error (lines h) b = Some l -> incl els All ->
  (forall x y, In x All -> In y All -> e_name x = e_name y -> same_content x y) ->
  (forall x, In x All -> keys_ok (e_params x) /\ plain x /\ interpret_element (e_type x) = e_type x) ->
  (forall n e, dget string_dec (l_elements l) n = Some e -> exists el, nth_error (elems h) e = Some el /\ e_name el = n /\ forall x, In x All -> e_name x = n -> same_content el x) ->
  exists h' es l', create_nodes h self b (map (fun el => NElem (saved_element el)) els) = (h', Ok tt) /\ wf h' /\
    extended h h' b (map RE es) /\ Forall2 (fun e x => exists el, nth_error (elems h') e = Some el /\ same_content el x) es els /\
    nth_error (lines h') b = Some l' /\
    (forall n e, dget string_dec (l_elements l') n = Some e -> exists el, nth_error (elems h') e = Some el /\ e_name el = n /\ forall x, In x All -> e_name x = n -> same_content el x).
Proof.
  intros All. induction els as [|x els IH]; intros h self b l W Hb Inc Con Good Reg.
  - exists h, [], l. cbn. split; [reflexivity|]. split; [exact W|]. split; [|split; [constructor|split; [exact Hb|exact Reg]]].
    split; [reflexivity|]. split.
    + intros l0 H0. exists l0. rewrite app_nil_r. auto.
    + intros e el He. exists el. unfold same_content. auto.
  - cbn [map create_nodes]. destruct (Good x (Inc x (or_introl eq_refl))) as (Kx & Px & Tx).
    rewrite load_element by assumption.
    assert (Ok1 : exists h1, add_element h b (e_name x) (e_type x) (e_params x) false = (h1, Ok tt)).
    { unfold add_element, the_element. rewrite Hb. destruct (dget string_dec (l_elements l) (e_name x)); [eexists; reflexivity|].
      unfold new_element. rewrite (plain_no_reserved x Px). eexists; reflexivity. }
    destruct Ok1 as [h1 E1]. rewrite E1.
    pose proof (wf_add_element h b (e_name x) (e_type x) (e_params x) false W) as W1. rewrite E1 in W1. cbn [fst] in W1.
    destruct (add_element_effect h b _ _ _ _ h1 W E1) as (l0 & s & b0 & e & el & Hl0 & Hs & Hb0 & Sq & _ & He & Hn & _ & C).
    rewrite Hb in Hl0. injection Hl0 as <-. destruct Hb0 as [[_ ->]|[X _]]; [|discriminate].
    assert (Cx : same_content el x).
    { destruct C as [(D & Ee & _)|(D & _ & _ & T & P & _)].
      - destruct (Reg _ _ D) as (el' & A & B & C). unfold element_at in He. rewrite Ee in He. rewrite A in He. injection He as <-.
        apply C; [apply Inc; left; reflexivity|reflexivity].
      - split; [exact Hn|]. split; [congruence|]. rewrite P. apply assigns_self. exact Kx. }
    assert (Ext1 : extended h h1 b [RE e]).
    { unfold extended. destruct C as [(D & Ee & Ll)|(D & En & Ee & _ & _ & Ll)].
      - rewrite Ll, Ee. split; [intros y Ny; apply upd_other; congruence|]. split.
        + intros l1 H1. rewrite upd_nth, Nat.eqb_refl, H1. eexists. cbn. split; [reflexivity|]. auto.
        + intros e1 el1 H1. exists el1. unfold same_content. auto.
      - rewrite Ll, Ee. split; [intros y Ny; rewrite !upd_other by congruence; reflexivity|]. split.
        + intros l1 H1. rewrite upd_nth, Nat.eqb_refl, upd_nth, Nat.eqb_refl, H1. eexists. cbn. split; [reflexivity|]. auto.
        + intros e1 el1 H1. exists el1. rewrite nth_error_app1 by (apply nth_error_Some; congruence). unfold same_content. auto. }
    assert (R1 : exists l1, nth_error (lines h1) b = Some l1 /\ forall n e1, dget string_dec (l_elements l1) n = Some e1 ->
        exists el1, nth_error (elems h1) e1 = Some el1 /\ e_name el1 = n /\ forall y, In y All -> e_name y = n -> same_content el1 y).
    { destruct C as [(D & Ee & Ll)|(D & En & Ee & _ & _ & Ll)].
      - rewrite Ll, Ee, upd_nth, Nat.eqb_refl, Hb. eexists. split; [reflexivity|]. cbn. exact Reg.
      - rewrite Ll, Ee, upd_nth, Nat.eqb_refl, upd_nth, Nat.eqb_refl, Hb. eexists. split; [reflexivity|]. cbn.
        intros n e1 D1. destruct (string_dec n (e_name x)) as [->|N].
        + rewrite dget_dset_same in D1. injection D1 as <-. exists el. split; [rewrite En, nth_error_app2, Nat.sub_diag by lia; reflexivity|].
          split; [exact Hn|]. intros y Iy Ey. destruct (Con x y) as (A & B & C'); [apply Inc; left; reflexivity|exact Iy|congruence|].
          destruct Cx as (P & Q & S). unfold same_content. repeat split; congruence.
        + rewrite dget_dset_other in D1 by exact N. destruct (Reg _ _ D1) as (el1 & A & B). exists el1.
          split; [rewrite nth_error_app1 by (apply nth_error_Some; congruence); exact A|exact B]. }
    destruct R1 as (l1 & Hl1 & R1).
    destruct (IH h1 self b l1 W1 Hl1) as (h' & es & l' & E' & W' & (X1 & X2 & X3) & F & Hl' & R'); auto.
    { intros y Iy. apply Inc. right; exact Iy. }
    exists h', (e :: es), l'. split; [exact E'|]. split; [exact W'|]. destruct Ext1 as (Y1 & Y2 & Y3). split; [|split; [|split; [exact Hl'|exact R']]].
    + unfold extended. split; [intros y Ny; rewrite X1, Y1 by exact Ny; reflexivity|]. split.
      * intros l2 H2. destruct (Y2 _ H2) as (l3 & A & B & C'). destruct (X2 _ A) as (l4 & A4 & B4 & C4). exists l4.
        split; [exact A4|]. split; [rewrite B4, B, <- app_assoc; reflexivity|congruence].
      * intros e1 el1 H1. destruct (Y3 _ _ H1) as (el2 & A & (B1 & B2 & B3)). destruct (X3 _ _ A) as (el3 & A3 & (B4 & B5 & B6)).
        exists el3. split; [exact A3|]. unfold same_content. repeat split; congruence.
    + constructor; [|exact F]. destruct (X3 e el) as (el3 & A3 & (B4 & B5 & B6)); [exact He|]. exists el3. split; [exact A3|].
      destruct Cx as (C1 & C2 & C3). unfold same_content. repeat split; congruence.
Qed.

Lemma creates_app : forall xs ys h self b, create_nodes h self b (xs ++ ys) =
  match create_nodes h self b xs with (h1, Ok _) => create_nodes h1 self b ys | (h1, e) => (h1, e) end.
Proof.
  induction xs as [|x xs IH]; intros; cbn [create_nodes app]; [reflexivity|].
  destruct (create_node h self b x) as [h1 [u|e|]]; auto.
Qed.

Definition at_ (h : heap) (e : nat) (el : element) : Prop := element_at h e = Some el.
Definition saved (els : list element) : list node := map (fun el => NElem (saved_element el)) els.

Lemma save_prefix : forall f h es els r, Forall2 (at_ h) es els ->
  return_elements (S f) h (map RE es ++ r) = do l <- return_elements (S f) h r; Ok (saved els ++ l).
Proof.
  intros f h es els r H. induction H as [|e el es els He H IH]; cbn [map app].
  - unfold saved. cbn [map app]. destruct (return_elements (S f) h r); reflexivity.
  - unfold at_, element_at in He.
    transitivity (do l <- return_elements (S f) h (map RE es ++ r); Ok (NElem (saved_element el) :: l)).
    { cbn [return_elements]. rewrite He. reflexivity. }
    rewrite IH. destruct (return_elements (S f) h r); reflexivity.
Qed.
Lemma save_flat : forall f h es els, Forall2 (at_ h) es els -> return_elements (S f) h (map RE es) = Ok (saved els).
Proof.
  intros f h es els H. rewrite <- (app_nil_r (map RE es)). rewrite (save_prefix f h es els [] H). cbn. rewrite app_nil_r. reflexivity.
Qed.
Lemma save_line : forall f h b l r, nth_error (lines h) b = Some l ->
  return_elements (S f) h (RL b :: r) = do l1 <- return_elements f h (l_seq l); do l2 <- return_elements (S f) h r; Ok (NList l1 :: l2).
Proof. intros f h b l r Hb. cbn [return_elements]. rewrite Hb. reflexivity. Qed.

Definition te (el : element) : tree := TE (e_name el) (e_type el) (e_params el).
Lemma looks_prefix : forall h es els r t, Forall2 (fun e x => exists el, nth_error (elems h) e = Some el /\ same_content el x) es els ->
  looks h r t -> looks h (map RE es ++ r) (map te els ++ t).
Proof.
  intros h es els r t H L. induction H as [|e x es els (el & He & (A & B & C)) H IH]; cbn [map app]; [exact L|].
  unfold te at 1. rewrite <- A, <- B, <- C. apply k_elem; [exact He|exact IH].
Qed.
Lemma at_content : forall h es els, Forall2 (at_ h) es els -> Forall2 (fun e x => exists el, nth_error (elems h) e = Some el /\ same_content el x) es els.
Proof. intros h es els H. induction H; constructor; auto. exists y. split; [exact H|]. unfold same_content. auto. Qed.

Lemma content_persists : forall h h' b rs es els, extended h h' b rs ->
  Forall2 (fun e x => exists el, nth_error (elems h) e = Some el /\ same_content el x) es els ->
  Forall2 (fun e x => exists el, nth_error (elems h') e = Some el /\ same_content el x) es els.
Proof.
  intros h h' b rs es els (_ & _ & X) H. induction H as [|e x es els (el & He & (A & B & C)) H IH]; constructor; auto.
  destruct (X _ _ He) as (el' & He' & (A' & B' & C')). exists el'. split; [exact He'|]. unfold same_content. repeat split; congruence.
Qed.

Definition consistent (els : list element) : Prop := forall x y, In x els -> In y els -> e_name x = e_name y ->
  e_type x = e_type y /\ e_params x = e_params y.

Lemma roundtrip : forall h0 a A C subl elsA elsB elsC nm, wf h0 -> types_ok h0 ->
  sequence h0 a = Some (map RE A ++ subl ++ map RE C) ->
  (subl = [] /\ elsB = [] \/ exists b B, subl = [RL b] /\ sequence h0 b = Some (map RE B) /\ Forall2 (at_ h0) B elsB) ->
  Forall2 (at_ h0) A elsA -> Forall2 (at_ h0) C elsC ->
  consistent (elsA ++ elsC) -> consistent elsB -> (forall x, In x (elsA ++ elsB ++ elsC) -> plain x) ->
  let h1 := fst (new_line h0 nm) in let self := snd (new_line h0 nm) in
  exists data h' s t, save_beamline h0 a = Ok data /\ load_beamline h1 self data = (h', Ok tt) /\
    sequence h' self = Some s /\ looks h0 (map RE A ++ subl ++ map RE C) t /\ looks h' s t.
Proof.
  intros h0 a A C subl elsA elsB elsC nm W T Ha Hsub HA HC ConAC ConB Pl h1 self.
  pose proof (wf_new_line h0 nm W) as W1. fold h1 in W1.
  assert (Hself : nth_error (lines h1) self = Some {| l_name := nm; l_elements := []; l_lines := []; l_seq := []; l_top := self |}).
  { unfold h1, self, new_line. cbn. rewrite nth_error_app2, Nat.sub_diag by lia. reflexivity. }
  destruct (seq_line _ _ _ Ha) as (la & Hla & Sla).
  assert (Same : elems h1 = elems h0) by reflexivity.
  assert (Atin : forall es els, Forall2 (at_ h0) es els -> forall x, In x els -> keys_ok (e_params x) /\ interpret_element (e_type x) = e_type x).
  { intros es els H. induction H; intros z I; [destruct I|]. destruct I as [<-|I]; [|auto]. destruct W as [_ K]. split; [eapply K; exact H|eapply T; exact H]. }
  assert (GoodAC : forall x, In x (elsA ++ elsC) -> keys_ok (e_params x) /\ plain x /\ interpret_element (e_type x) = e_type x).
  { intros x I. assert (plain x) by (apply Pl; rewrite !in_app_iff in *; tauto). apply in_app_iff in I.
    destruct I as [I|I]; [destruct (Atin _ _ HA x I)|destruct (Atin _ _ HC x I)]; auto. }
  assert (ConAC' : forall x y, In x (elsA ++ elsC) -> In y (elsA ++ elsC) -> e_name x = e_name y -> same_content x y).
  { intros x y Ix Iy E. destruct (ConAC x y Ix Iy E). unfold same_content. auto. }
  (* first part *)
  destruct (load_flat (elsA ++ elsC) elsA h1 self self _ W1 Hself) as (h2 & esA & l2 & E2 & W2 & X2 & F2 & Hl2 & R2).
  { apply incl_appl, incl_refl. } { exact ConAC'. } { exact GoodAC. } { cbn. intros; discriminate. }
  assert (Q2 : l_seq l2 = map RE esA /\ l_lines l2 = []).
  { destruct X2 as (_ & X2 & _). destruct (X2 _ Hself) as (l' & A' & B' & C'). rewrite Hl2 in A'. injection A' as <-. auto. }
  destruct Q2 as [Q2 Q2'].
  destruct Hsub as [[-> ->]|(b & B & -> & Hb & HB)].
  - (* no subline *)
    destruct (load_flat (elsA ++ elsC) elsC h2 self self _ W2 Hl2) as (h3 & esC & l3 & E3 & W3 & X3 & F3 & Hl3 & R3).
    { apply incl_appr, incl_refl. } { exact ConAC'. } { exact GoodAC. } { exact R2. }
    assert (Q3 : l_seq l3 = map RE esA ++ map RE esC).
    { destruct X3 as (_ & X3 & _). destruct (X3 _ Hl2) as (l' & A' & B' & C'). rewrite Hl3 in A'. injection A' as <-. rewrite B', Q2. reflexivity. }
    exists (saved elsA ++ saved elsC), h3, (map RE esA ++ map RE esC), (map te elsA ++ map te elsC).
    split.
    { unfold save_beamline. rewrite Hla, Sla. cbn [app]. rewrite (save_prefix _ _ _ _ _ HA), (save_flat _ _ _ _ HC). reflexivity. }
    split.
    { unfold load_beamline. rewrite Hself. cbn [l_seq]. rewrite creates_app. unfold saved. rewrite E2, E3. reflexivity. }
    split; [unfold sequence; rewrite Hl3; cbn; congruence|].
    split.
    + cbn [app]. apply looks_prefix; [apply at_content; exact HA|]. rewrite <- (app_nil_r (map RE C)), <- (app_nil_r (map te elsC)).
      apply looks_prefix; [apply at_content; exact HC|constructor].
    + apply looks_prefix; [eapply content_persists; [exact X3|exact F2]|]. rewrite <- (app_nil_r (map RE esC)), <- (app_nil_r (map te elsC)).
      apply looks_prefix; [exact F3|constructor].
  - (* one subline *)
    destruct (seq_line _ _ _ Hb) as (lb & Hlb & Slb).
    assert (D : dget name_dec (l_lines l2) None = None) by (rewrite Q2'; reflexivity).
    pose proof (add_beamline_new h2 self l2 None Hl2 D) as AB. cbn zeta in AB.
    set (n := List.length (lines h2)) in *.
    set (nl := {| l_name := None; l_elements := []; l_lines := []; l_seq := []; l_top := l_top l2 |}) in *.
    set (h3 := {| elems := elems h2; lines := _ |}) in AB.
    pose proof (wf_add_beamline h2 self None W2) as W3. rewrite AB in W3. cbn [fst] in W3.
    assert (Ln : (self < n)%nat) by (apply nth_error_Some; congruence).
    assert (Hl3 : nth_error (lines h3) self = Some (append_ref (RL n) (register_line None n l2))).
    { unfold h3. cbn [lines]. rewrite nth_error_app1 by (rewrite upd_length; exact Ln). rewrite upd_nth, Nat.eqb_refl, Hl2. reflexivity. }
    assert (Hn3 : nth_error (lines h3) n = Some nl).
    { unfold h3, n. cbn [lines]. rewrite nth_error_app2; rewrite upd_length; [rewrite Nat.sub_diag; reflexivity|lia]. }
    assert (LR : last_ref (append_ref (RL n) (register_line None n l2)) = Some (RL n)).
    { unfold last_ref, append_ref. cbn. rewrite rev_app_distr. reflexivity. }
    destruct (load_flat elsB elsB h3 self n _ W3 Hn3) as (h4 & esB & l4 & E4 & W4 & X4 & F4 & Hl4 & R4).
    { apply incl_refl. } { intros x y Ix Iy E. destruct (ConB x y Ix Iy E). unfold same_content; auto. }
    { intros x I. destruct (Atin _ _ HB x I). split; [auto|]. split; [|auto]. apply Pl. rewrite !in_app_iff. tauto. }
    { cbn. intros; discriminate. }
    assert (Q4 : l_seq l4 = map RE esB).
    { destruct X4 as (_ & X4 & _). destruct (X4 _ Hn3) as (l' & A' & B' & C'). rewrite Hl4 in A'. injection A' as <-. auto. }
    assert (Hl4s : nth_error (lines h4) self = Some (append_ref (RL n) (register_line None n l2))).
    { destruct X4 as (X4 & _). rewrite X4 by lia. exact Hl3. }
    destruct (load_flat (elsA ++ elsC) elsC h4 self self _ W4 Hl4s) as (h5 & esC & l5 & E5 & W5 & X5 & F5 & Hl5 & R5).
    { apply incl_appr, incl_refl. } { exact ConAC'. } { exact GoodAC. }
    { cbn. intros nm0 e Hd. destruct (R2 _ _ Hd) as (el & He & Hn & Hx). destruct X4 as (_ & _ & X4). destruct (X4 e el He) as (el' & He' & (S1 & S2 & S3)).
      exists el'. split; [exact He'|]. split; [congruence|]. intros x Ix Ex. destruct (Hx x Ix Ex) as (P1 & P2 & P3). unfold same_content. repeat split; congruence. }
    assert (Q5 : l_seq l5 = map RE esA ++ [RL n] ++ map RE esC).
    { destruct X5 as (_ & X5 & _). destruct (X5 _ Hl4s) as (l' & A' & B' & C'). rewrite Hl5 in A'. injection A' as <-. rewrite B'. cbn. rewrite Q2, <- app_assoc. reflexivity. }
    exists (saved elsA ++ [NList (saved elsB)] ++ saved elsC), h5, (map RE esA ++ [RL n] ++ map RE esC), (map te elsA ++ [TL (map te elsB)] ++ map te elsC).
    split.
    { unfold save_beamline. rewrite Hla, Sla. rewrite (save_prefix _ _ _ _ _ HA). cbn [app]. rewrite (save_line _ _ _ _ _ Hlb), Slb, (save_flat _ _ _ _ HC).
      assert (0 < List.length (lines h0))%nat. { assert (b < List.length (lines h0))%nat by (apply nth_error_Some; congruence). lia. }
      destruct (List.length (lines h0)) as [|f]; [lia|]. rewrite (save_flat _ _ _ _ HB). reflexivity. }
    split.
    { unfold load_beamline. rewrite Hself. cbn [l_seq]. rewrite creates_app. unfold saved. rewrite E2. cbn [app create_nodes create_node].
      rewrite AB. rewrite Hl3, LR, create_list_eq. rewrite E4, E5. reflexivity. }
    split; [unfold sequence; rewrite Hl5; cbn; f_equal; exact Q5|].
    split.
    + apply looks_prefix; [apply at_content; exact HA|]. cbn [app]. eapply k_line; [exact Hb| |].
      * rewrite <- (app_nil_r (map RE B)), <- (app_nil_r (map te elsB)). apply looks_prefix; [apply at_content; exact HB|constructor].
      * rewrite <- (app_nil_r (map RE C)), <- (app_nil_r (map te elsC)). apply looks_prefix; [apply at_content; exact HC|constructor].
    + apply looks_prefix.
      { eapply content_persists; [exact X5|]. eapply content_persists; [exact X4|]. exact F2. }
      cbn [app]. eapply k_line with (s := map RE esB).
      * unfold sequence. destruct X5 as (X5 & _). rewrite X5 by lia. rewrite Hl4. cbn. congruence.
      * rewrite <- (app_nil_r (map RE esB)), <- (app_nil_r (map te elsB)). apply looks_prefix; [eapply content_persists; [exact X5|exact F4]|constructor].
      * rewrite <- (app_nil_r (map RE esC)), <- (app_nil_r (map te elsC)). apply looks_prefix; [exact F5|constructor].
Qed.

(* ---------------- matrices ---------------- *)
Lemma sum4_ext : forall f g, (forall k, (k < 4)%nat -> f k = g k) -> sum4 f = sum4 g.
Proof. intros f g H. unfold sum4. rewrite !H by lia. reflexivity. Qed.

Lemma symplectic_mul : forall A B, symplectic A -> symplectic B -> symplectic (mmul A B).
Proof.
  intros A B HA HB i j Hi Hj.
  transitivity (sum4 (fun p => sum4 (fun q => B p i * (sum4 (fun k => sum4 (fun l => A k p * form k l * A l q))) * B q j))).
  - unfold mmul, sum4. cbn [form]. ring.
  - rewrite <- (HB i j Hi Hj). apply sum4_ext. intros p Hp. apply sum4_ext. intros q Hq. rewrite HA by assumption. ring.
Qed.

Lemma cc_ss : forall k l, cc k l * cc k l + k * (ss k l * ss k l) = 1.
Proof.
  intros k l. unfold cc, ss. destruct (Rlt_dec k 0) as [N|N].
  - assert (P : 0 < sqrt (- k)) by (apply sqrt_lt_R0; lra).
    assert (S : sqrt (-k) * sqrt (-k) = - k) by (apply sqrt_sqrt; lra).
    set (r := sqrt (- k)) in *. rewrite exp_Ropp. pose proof (exp_pos (r * l)) as Pe. set (x := exp (r * l)) in *.
    replace k with (- (r * r)) by lra. field. split; lra.
  - destruct (Req_EM_T k 0) as [->|Z].
    + rewrite sqrt_0, Rmult_0_l, cos_0. ring.
    + assert (P : 0 < sqrt k) by (apply sqrt_lt_R0; lra).
      assert (S : sqrt k * sqrt k = k) by (apply sqrt_sqrt; lra).
      pose proof (sin2_cos2 (sqrt k * l)) as Q. unfold Rsqr in Q. set (r := sqrt k) in *.
      transitivity (cos (r * l) * cos (r * l) + (sin (r * l) * sin (r * l))); [|lra].
      rewrite <- S at 1. field. lra.
Qed.

Lemma quad_symplectic : forall v, symplectic (quad_matrix v).
Proof.
  intros v i j Hi Hj. pose proof (cc_ss (v "K1"%string) (v "L"%string)) as H1. pose proof (cc_ss (- v "K1"%string) (v "L"%string)) as H2.
  do 4 (destruct i as [|i]; [do 4 (destruct j as [|j]; [unfold sum4; cbn [quad_matrix form]; unfold quad_matrix; cbn [form];
     set (c := cc _ _) in *; set (s := ss _ _) in *; set (c' := cc (- _) _) in *; set (s' := ss (- _) _) in *; lra|]); lia|]); lia.
Qed.
Lemma drift_symplectic : forall v, symplectic (drift_matrix v).
Proof.
  intros v i j Hi Hj.
  do 4 (destruct i as [|i]; [do 4 (destruct j as [|j]; [unfold sum4; cbn [drift_matrix form]; ring|]); lia|]); lia.
Qed.

Lemma product_spec : forall ms X i j, (j < 4)%nat -> (i < 4)%nat ->
  fold_left (fun acc m => mmul acc m) (rev ms) X i j = mmul X (product ms) i j.
Proof.
  induction ms as [|m ms IH]; intros X i j Hj Hi.
  - cbn. unfold mmul, sum4. cbn [product]. destruct j as [|[|[|[|j]]]]; try lia; cbn; ring.
  - cbn [rev]. rewrite fold_left_app. cbn [fold_left]. unfold mmul at 1.
    transitivity (sum4 (fun k => mmul X (product ms) i k * m k j)).
    + apply sum4_ext. intros k Hk. rewrite IH by assumption. reflexivity.
    + unfold mmul, sum4. cbn [product]. unfold sum4. ring.
Qed.

Lemma concat_env : forall r m e, fold_left (fun (acc m : smat) => fun e => mmul (acc e) (m e)) r m e =
  fold_left (fun acc m => mmul acc m) (map (fun m => m e) r) (m e).
Proof. induction r as [|x r IH]; intros m e; cbn [fold_left map]; [reflexivity|]. rewrite IH. reflexivity. Qed.

Lemma product_snoc : forall (ps : list mat) (X : mat) i j, (i < 4)%nat -> (j < 4)%nat -> mmul X (product ps) i j = product (ps ++ [X]) i j.
Proof.
  intros ps X i j Hi Hj. revert j Hj. induction ps as [|p ps IH]; intros j Hj; cbn [app product].
  - unfold mmul, sum4. destruct i as [|[|[|[|i]]]]; destruct j as [|[|[|[|j]]]]; try lia; cbn [Nat.eqb]; ring.
  - transitivity (sum4 (fun k => mmul X (product ps) i k * p k j)).
    + unfold mmul, sum4. ring.
    + apply sum4_ext. intros k Hk. rewrite IH by assumption. reflexivity.
Qed.
Lemma concatenate_product : forall ms M, concatenate ms = Ok M -> forall e i j, (i < 4)%nat -> (j < 4)%nat ->
  M e i j = product (map (fun m => m e) ms) i j.
Proof.
  intros ms M H e i j Hi Hj. unfold concatenate in H. destruct (rev ms) as [|m r] eqn:E; [discriminate|]. injection H as <-.
  assert (Ems : ms = rev r ++ [m]) by (rewrite <- (rev_involutive ms), E; reflexivity). rewrite Ems, map_app. cbn [map].
  rewrite concat_env. rewrite map_rev. etransitivity; [|exact (product_snoc _ (m e) i j Hi Hj)].
  rewrite <- product_spec by assumption. rewrite rev_involutive. reflexivity.
Qed.
Lemma product_symplectic : forall ms, (forall m, In m ms -> symplectic m) -> symplectic (product ms).
Proof.
  induction ms as [|m ms IH]; intros H.
  - intros i j Hi Hj. do 4 (destruct i as [|i]; [do 4 (destruct j as [|j]; [unfold sum4; cbn; ring|]); lia|]); lia.
  - cbn [product]. apply (symplectic_mul (product ms) m); [apply IH; intros; apply H; right; assumption|apply H; left; reflexivity].
Qed.

Lemma sub_ignored : forall ps (m : smat), (forall k v, In (k, v) ps -> k <> "L"%string /\ k <> "K1"%string) ->
  (forall e1 e2, e1 "L"%string = e2 "L"%string -> e1 "K1"%string = e2 "K1"%string -> m e1 = m e2) ->
  forall e, fold_left (fun m kv => sub (fst kv) (snd kv) m) ps m e = m e.
Proof.
  assert (One : forall k v (m : smat), k <> "L"%string -> k <> "K1"%string ->
    (forall e1 e2, e1 "L"%string = e2 "L"%string -> e1 "K1"%string = e2 "K1"%string -> m e1 = m e2) -> forall e, sub k v m e = m e).
  { intros k v m N1 N2 D e. unfold sub. apply D.
    - destruct (String.eqb_spec "L" k); congruence.
    - destruct (String.eqb_spec "K1" k); congruence. }
  induction ps as [|[k v] ps IH]; intros m H D e; cbn [fold_left]; [reflexivity|]. cbn [fst snd].
  destruct (H k v (or_introl eq_refl)) as [N1 N2]. rewrite IH.
  - apply One; assumption.
  - intros k' v' I. apply (H k' v'). right; exact I.
  - intros e1 e2 E1 E2. rewrite !One by assumption. apply D; assumption.
Qed.
Lemma matrices_dep : forall ty m, matrices ty = Some m -> forall e1 e2, e1 "L"%string = e2 "L"%string -> e1 "K1"%string = e2 "K1"%string -> m e1 = m e2.
Proof.
  intros ty m H e1 e2 E1 E2. unfold matrices in H. destruct (String.eqb ty "quadrupole"); [injection H as <-|destruct (String.eqb ty "drift"); [injection H as <-|discriminate]].
  - unfold quad_matrix. rewrite E1, E2. reflexivity.
  - unfold drift_matrix. rewrite E1. reflexivity.
Qed.
Lemma element_matrix_ok : forall h r m, wf h -> element_matrix h r = Ok m -> exists e el m0, r = RE e /\ element_at h e = Some el /\
  matrices (e_type el) = Some m0 /\ forall v, m v = m0 v.
Proof.
  intros h [e|b] m [W K] H; [|discriminate]. cbn in H. destruct (nth_error (elems h) e) as [el|] eqn:He; [|discriminate].
  destruct (matrices (e_type el)) as [m0|] eqn:M; [|discriminate]. injection H as <-. exists e, el, m0. repeat split; auto.
  intros v. apply sub_ignored.
  - intros k w I. destruct (K e el He) as [_ L]. pose proof (L _ _ I) as Lk. split; intros ->; discriminate.
  - eapply matrices_dep; exact M.
Qed.
Lemma mapres_ok : forall {A B} (f : A -> res B) l ys, mapres f l = Ok ys -> Forall2 (fun x y => f x = Ok y) l ys.
Proof.
  intros A B f. induction l as [|x l IH]; intros ys H; cbn in H; [injection H as <-; constructor|].
  destruct (f x) as [y|e|] eqn:F; try discriminate. cbn in H. destruct (mapres f l) as [t|e|]; try discriminate. injection H as <-.
  constructor; auto.
Qed.

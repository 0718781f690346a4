(** Lemmas about reading the lines of a file. *)
From Coq Require Import List Reals Bool Arith String Ascii ZArith Lia.
From Verif Require Import PyBase PyDict PyText Line_Model Lte_Model Lte_Spec Line_Proofs Lte_Proofs.
Import ListNotations.

Lemma blank_iff : forall l, blank l = true <-> blank_line l.
Proof. intros l. unfold blank, blank_line. apply forallb_forall. Qed.
Lemma ws_low : forall c, is_ws (low c) = is_ws c.
Proof.
  intros c. apply eqb_prop. revert c. apply (char_check (fun c => Bool.eqb (is_ws (low c)) (is_ws c))). vm_compute. reflexivity.
Qed.
Definition special (c : ascii) : Prop := c = "!"%char \/ c = "&"%char \/ c = "%"%char.
Lemma low_special : forall d c, special d -> low c = d -> c = d.
Proof.
  intros d c H. destruct H as [->|[->| ->]];
  intros E; apply Ascii.eqb_eq;
  [pose proof (char_check (fun c => negb (Ascii.eqb (low c) "!") || Ascii.eqb c "!")%bool eq_refl c) as K
  |pose proof (char_check (fun c => negb (Ascii.eqb (low c) "&") || Ascii.eqb c "&")%bool eq_refl c) as K
  |pose proof (char_check (fun c => negb (Ascii.eqb (low c) "%") || Ascii.eqb c "%")%bool eq_refl c) as K];
  cbn beta in K; rewrite E, Ascii.eqb_refl in K; exact K.
Qed.
Lemma lowert_blank : forall l, blank (lowert l) = blank l.
Proof. induction l as [|c l IH]; cbn; [reflexivity|]. rewrite ws_low. f_equal. exact IH. Qed.
Lemma lowert_drop : forall l, drop_ws (lowert l) = lowert (drop_ws l).
Proof. induction l as [|c l IH]; cbn; [reflexivity|]. rewrite ws_low. destruct (is_ws c); [exact IH|reflexivity]. Qed.

Lemma sanitize_blank : forall A l B, blank_line l -> sanitize (A ++ l :: B) = sanitize (A ++ B).
Proof.
  intros A l B H. induction A as [|a A IH]; cbn [app sanitize]; [|rewrite IH; reflexivity].
  destruct (sanitize B) as [[rest vars]| |]; cbn [rbind]; try reflexivity. unfold sanitize_step.
  apply blank_iff in H. rewrite <- lowert_blank in H. apply drop_ws_blank in H. rewrite H. reflexivity.
Qed.

(** What the lines kept are like. *)
Definition kept (l : text) : Prop := blank l = false /\ ~ In "!"%char l /\ (forall r pad, blank pad = true -> l <> r ++ "&"%char :: pad).
Definition settled (p : list text * variables) : Prop :=
  Forall kept (fst p) /\
  match fst p with
  | [] => True
  | l :: _ => (exists r, drop_ws l = "%"%char :: r) -> read_variable l (snd p) = Ok (snd p)
  end.

Lemma dset_twice : forall {K V} (eqd : forall a b : K, {a = b} + {a <> b}) (d : list (K * V)) k v, dset eqd (dset eqd d k v) k v = dset eqd d k v.
Proof.
  induction d as [|[k' v'] d IH]; intros k v; cbn.
  - destruct (eqd k k); [reflexivity|contradiction].
  - destruct (eqd k k') as [->|N]; cbn.
    + destruct (eqd k' k'); [reflexivity|contradiction].
    + destruct (eqd k k'); [contradiction|]. f_equal. apply IH.
Qed.
Lemma read_twice : forall l vars vars', read_variable l vars = Ok vars' -> read_variable l vars' = Ok vars'.
Proof.
  intros l vars vars' H. unfold read_variable in *. destruct (rev (split_ws l)) as [|k w]; [discriminate|].
  destruct (parse_rpn _) as [v| |]; cbn [rbind] in *; try discriminate. injection H as <-. f_equal. apply dset_twice.
Qed.

Lemma rdrop_last : forall l c r, rev (rdrop_ws l) = c :: r -> exists pad, blank pad = true /\ l = rev r ++ c :: pad.
Proof.
  intros l c r H. destruct (rdrop_ws_split l) as (w & B & E). exists w. split; [exact B|].
  rewrite E at 1. rewrite <- (rev_involutive (rdrop_ws l)), H. cbn [rev]. rewrite <- app_assoc. reflexivity.
Qed.
Lemma rdrop_of_last : forall r c pad, blank pad = true -> is_ws c = false -> rdrop_ws (r ++ c :: pad) = r ++ [c].
Proof.
  intros r c pad B W. replace (r ++ c :: pad) with ((r ++ [c]) ++ pad) by (rewrite <- app_assoc; reflexivity). rewrite rdrop_ws_app by exact B. apply rdrop_ws_last. exact W.
Qed.
Lemma rdrop_nonws : forall l c r, rev (rdrop_ws l) = c :: r -> is_ws c = false.
Proof.
  intros l c r H. unfold rdrop_ws in H. rewrite rev_involutive in H. pose proof (drop_ws_idem (rev l)) as D. rewrite H in D. cbn in D.
  destruct (is_ws c) eqn:W; [|reflexivity]. exfalso. assert (L : forall u, (List.length (drop_ws u) <= List.length u)%nat).
  { clear. induction u as [|x u IH]; cbn; [lia|]. destruct (is_ws x); cbn; lia. }
  pose proof (L r) as K. rewrite D in K. cbn in K. lia.
Qed.
Lemma in_trim : forall c s, In c (trim s) -> In c s.
Proof.
  intros c s H. unfold trim in H. destruct (drop_ws_split s) as (a & _ & E). destruct (rdrop_ws_split (drop_ws s)) as (w & _ & F).
  rewrite E. apply in_app_iff. right. rewrite F. apply in_app_iff. left. exact H.
Qed.
Lemma trim_nil : forall s, trim s = [] <-> blank s = true.
Proof.
  intros s. unfold trim. rewrite rdrop_ws_blank. split; intros H.
  - destruct (drop_ws_split s) as (a & B & E). rewrite E, blank_app, B. exact H.
  - apply drop_ws_blank in H. rewrite H. reflexivity.
Qed.
Lemma snoc_cases : forall {A} (l : list A), l = [] \/ exists r x, l = r ++ [x].
Proof. intros A l. destruct l as [|x r _] using rev_ind; [left; reflexivity|right; eauto]. Qed.
Lemma kept_trim_last : forall l, kept l -> exists r c, trim l = r ++ [c] /\ is_ws c = false /\ c <> "&"%char.
Proof.
  intros l (B & _ & A). destruct (snoc_cases (trim l)) as [E|(r & c & E)].
  - apply trim_nil in E. congruence.
  - exists r, c. pose proof (trim_tight' l) as [_ T2]. split; [exact E|]. split; [exact (T2 _ _ E)|]. intros ->.
    unfold trim in E. destruct (drop_ws_split l) as (a & _ & F). destruct (rdrop_ws_split (drop_ws l)) as (w & Bw & G). rewrite E in G.
    apply (A (a ++ r) w Bw). rewrite F, G. rewrite <- !app_assoc. reflexivity.
Qed.

Lemma cut_comment : forall l, ~ In "!"%char l -> match find1 "!" l with Some n => firstn n l | None => l end = l.
Proof. intros l H. rewrite find1_none by exact H. reflexivity. Qed.
Lemma cut_clean : forall l, ~ In "!"%char (match find1 "!" l with Some n => firstn n l | None => l end).
Proof.
  induction l as [|c l IH]; cbn [find1]; [intros []|]. destruct (Ascii.eqb_spec c "!") as [->|N]; [intros []|].
  destruct (find1 "!" l) as [n|]; cbn [option_map firstn]; intros [E|I]; auto.
Qed.

Lemma settled_line : forall l rest vars rest' vars', Forall kept rest ->
  sanitize_line l rest vars = Ok (rest', vars') -> settled (rest', vars') /\ rest' <> [].
Proof.
  intros l rest vars rest' vars' K H. unfold sanitize_line in H.
  set (m := match find1 "!" l with Some n => firstn n l | None => l end) in *.
  assert (Nm : ~ In "!"%char m) by apply cut_clean.
  destruct (rev (rdrop_ws m)) as [|c r] eqn:E; [discriminate|].
  assert (G : forall m' rest0, Forall kept (m' :: rest0) ->
    match drop_ws m' with [] => Err IndexError | c :: _ => if Ascii.eqb c "%" then do vars <- read_variable m' vars; Ok (m' :: rest0, vars) else Ok (m' :: rest0, vars) end = Ok (rest', vars') ->
    settled (rest', vars') /\ rest' <> []).
  { intros m' rest0 F X. destruct (drop_ws m') as [|d s] eqn:D; [discriminate|]. destruct (Ascii.eqb_spec d "%") as [->|Nd].
    - destruct (read_variable m' vars) as [v'| |] eqn:V; cbn [rbind] in X; try discriminate. injection X as <- <-.
      split; [|discriminate]. split; cbn [fst snd]; [exact F|]. intros _. eapply read_twice; exact V.
    - injection X as <- <-. split; [|discriminate]. split; cbn [fst snd]; [exact F|]. intros [q Q]. congruence. }
  destruct (Ascii.eqb_spec c ampersand) as [->|Nc].
  - destruct rest as [|next rest0]; [discriminate|]. cbn [rbind] in H. inversion K as [|? ? K1 K2]; subst.
    apply (G (rev r ++ trim next) rest0); [|exact H]. constructor; [|exact K2].
    destruct (kept_trim_last next K1) as (q & d & Q & W & Nd). destruct K1 as (B & N & _).
    split; [|split].
    + rewrite blank_app, Q, blank_app. cbn. rewrite W. rewrite !andb_false_r. reflexivity.
    + intros I. apply in_app_iff in I. destruct I as [I|I].
      * apply Nm. destruct (rdrop_last _ _ _ E) as (pad & _ & ->). apply in_app_iff. left; exact I.
      * apply N. apply in_trim; exact I.
    + intros s pad Bp X. rewrite Q in X.
      assert (Y : rdrop_ws (rev r ++ q ++ [d]) = rev r ++ q ++ [d]) by (rewrite app_assoc; apply rdrop_ws_last; exact W).
      rewrite X in Y. rewrite rdrop_of_last in Y by (try exact Bp; reflexivity).
      rewrite <- X in Y. rewrite app_assoc in Y. apply app_inj_tail in Y. destruct Y as [_ Y]. congruence.
  - cbn [rbind] in H. apply (G m rest); [|exact H]. constructor; [|exact K]. split; [|split].
    + destruct (blank m) eqn:B; [|reflexivity]. apply rdrop_ws_blank in B. rewrite B in E. discriminate.
    + exact Nm.
    + intros s pad Bp X. rewrite X, rdrop_of_last in E by (try exact Bp; reflexivity). rewrite rev_app_distr in E. cbn in E. injection E as E _. apply Nc. symmetry; exact E.
Qed.

Lemma settled_again : forall l rest vars, settled (l :: rest, vars) -> sanitize_line l rest vars = Ok (l :: rest, vars).
Proof.
  intros l rest vars [K V]. cbn [fst snd] in *. inversion K as [|? ? (B & N & A) K2]; subst. unfold sanitize_line. rewrite cut_comment by exact N.
  destruct (rev (rdrop_ws l)) as [|c r] eqn:E.
  - exfalso. assert (rdrop_ws l = []) by (rewrite <- (rev_involutive (rdrop_ws l)), E; reflexivity). apply rdrop_ws_blank in H. congruence.
  - destruct (Ascii.eqb_spec c ampersand) as [->|Nc].
    + exfalso. destruct (rdrop_last _ _ _ E) as (pad & Bp & X). exact (A _ _ Bp X).
    + cbn [rbind]. destruct (drop_ws l) as [|d s] eqn:D; [exfalso; apply drop_ws_blank in D; congruence|].
      destruct (Ascii.eqb_spec d "%") as [->|Nd]; [|reflexivity]. rewrite V by (exists s; reflexivity). reflexivity.
Qed.

Lemma comment_drop : forall l, comment_line l <-> exists r, drop_ws l = "!"%char :: r.
Proof.
  intros l. split.
  - intros (pad & r & B & ->). exists r. rewrite drop_ws_app by (apply blank_iff; exact B). reflexivity.
  - intros [r E]. destruct (drop_ws_split l) as (a & B & F). exists a, r. split; [apply blank_iff; exact B|]. congruence.
Qed.
Lemma comment_low : forall l, comment_line l <-> exists r, drop_ws (lowert l) = "!"%char :: r.
Proof.
  intros l. rewrite comment_drop, lowert_drop. destruct (drop_ws l) as [|c s]; cbn [lowert map].
  - split; intros [r E]; discriminate.
  - split; intros [r E]; injection E as E1 E2.
    + subst c. eexists. reflexivity.
    + apply low_special in E1; [|left; reflexivity]. subst c. eexists. reflexivity.
Qed.

Lemma sanitize_settled : forall file p, sanitize file = Ok p -> settled p /\ (fst p = [] <-> ~ has_content file).
Proof.
  induction file as [|raw file IH]; intros p H; cbn [sanitize] in H.
  - injection H as <-. split; [split; [constructor|exact I]|]. cbn. split; [|reflexivity]. intros _ (l & [] & _).
  - destruct (sanitize file) as [[rest vars]| |] eqn:S; cbn [rbind] in H; try discriminate.
    destruct (IH _ eq_refl) as [Se Ct]. cbn [fst] in Ct. unfold sanitize_step in H.
    assert (Hc : has_content (raw :: file) <-> (~ blank_line raw /\ ~ comment_line raw) \/ has_content file).
    { split.
      - intros (l & [->|I] & X); [left; exact X|right; exists l; split; assumption].
      - intros [X|(l & I & X)]; [exists raw|exists l]; (split; [|exact X]); [left; reflexivity|right; exact I]. }
    destruct (drop_ws (lowert raw)) as [|c s] eqn:D.
    + injection H as <-. split; [exact Se|]. cbn [fst]. rewrite Ct, Hc.
      apply drop_ws_blank in D. rewrite lowert_blank in D. apply blank_iff in D. tauto.
    + destruct (Ascii.eqb_spec c "!") as [->|Nc].
      * destruct rest as [|next rest0]; [discriminate|]. rewrite (settled_again _ _ _ Se) in H. injection H as <-.
        split; [exact Se|]. cbn [fst] in *. rewrite Ct, Hc. assert (comment_line raw) by (apply comment_low; exists s; exact D). tauto.
      * destruct p as [rest' vars']. destruct Se as [K _]. destruct (settled_line _ _ _ _ _ K H) as [S1 S2]. split; [exact S1|]. cbn [fst]. split; [intros; contradiction|].
        intros X. exfalso. apply X. apply Hc. left. split.
        -- intros B. apply blank_iff in B. rewrite <- lowert_blank in B. apply drop_ws_blank in B. congruence.
        -- intros C. apply comment_low in C. destruct C as [r C]. congruence.
Qed.

Lemma sanitize_comment : forall A l B, comment_line l -> has_content B -> sanitize (A ++ l :: B) = sanitize (A ++ B).
Proof.
  intros A l B C H. induction A as [|a A IH]; cbn [app sanitize]; [|rewrite IH; reflexivity].
  destruct (sanitize B) as [[rest vars]| |] eqn:S; cbn [rbind]; try reflexivity.
  destruct (sanitize_settled _ _ S) as [Se Ct]. cbn [fst] in Ct. unfold sanitize_step.
  apply comment_low in C. destruct C as [r ->]. rewrite Ascii.eqb_refl.
  destruct rest as [|next rest]; [exfalso; apply Ct; [reflexivity|exact H]|]. apply settled_again. exact Se.
Qed.
Lemma no_content_ok : forall B, ~ has_content B -> sanitize B = Ok ([], []) \/ sanitize B = Err IndexError.
Proof.
  induction B as [|b B IH]; intros H; [left; reflexivity|]. cbn [sanitize].
  destruct IH as [->| ->]; [intros (l & I & X); apply H; exists l; split; [right; exact I|exact X]| |right; reflexivity].
  cbn [rbind]. unfold sanitize_step. destruct (drop_ws (lowert b)) as [|c s] eqn:D; [left; reflexivity|].
  destruct (Ascii.eqb_spec c "!") as [->|N]; [right; reflexivity|]. exfalso. apply H. exists b. split; [left; reflexivity|]. split.
  - intros X. apply blank_iff in X. rewrite <- lowert_blank in X. apply drop_ws_blank in X. congruence.
  - intros X. apply comment_low in X. destruct X as [r X]. congruence.
Qed.
Lemma sanitize_comment_end : forall A l B, comment_line l -> ~ has_content B -> sanitize (A ++ l :: B) = Err IndexError.
Proof.
  intros A l B C H. induction A as [|a A IH]; cbn [app sanitize]; [|rewrite IH; reflexivity].
  destruct (no_content_ok B H) as [->| ->]; [|reflexivity]. cbn [rbind]. unfold sanitize_step.
  apply comment_low in C. destruct C as [r ->]. rewrite Ascii.eqb_refl. reflexivity.
Qed.

Lemma sanitize_ordinary : forall file, Forall ordinary file -> sanitize file = Ok (map lowert file, []).
Proof.
  induction file as [|l file IH]; intros H; [reflexivity|]. inversion H as [|? ? (B & N & A & P) H2]; subst. cbn [sanitize]. rewrite (IH H2). cbn [rbind map].
  assert (Bl : blank (lowert l) = false).
  { rewrite lowert_blank. apply not_true_is_false. intros X. apply B. apply blank_iff; exact X. }
  assert (Nl : ~ In "!"%char (lowert l)).
  { intros I. apply in_map_iff in I. destruct I as (c & E & I). apply low_special in E; [|left; reflexivity]. subst c. contradiction. }
  assert (Al : forall r pad, blank pad = true -> lowert l <> r ++ "&"%char :: pad).
  { intros r pad Bp E. unfold lowert in E. apply map_eq_app in E. destruct E as (l1 & l2 & -> & E1 & E2). destruct l2 as [|c l2]; [discriminate|].
    cbn in E2. injection E2 as E2 E3. apply low_special in E2; [|right; left; reflexivity]. subst c.
    apply (A l1 l2); [|reflexivity]. apply blank_iff. rewrite <- lowert_blank. unfold lowert. rewrite E3. exact Bp. }
  assert (Pl : forall r, drop_ws (lowert l) <> "%"%char :: r).
  { intros r E. rewrite lowert_drop in E. destruct (drop_ws_split l) as (a & Ba & F). destruct (drop_ws l) as [|c s]; [discriminate|]. cbn in E. injection E as E _.
    apply low_special in E; [|right; right; reflexivity]. subst c. apply (P s a); [apply blank_iff; exact Ba|exact F]. }
  unfold sanitize_step. destruct (drop_ws (lowert l)) as [|c s] eqn:D; [apply drop_ws_blank in D; congruence|].
  destruct (Ascii.eqb_spec c "!") as [->|Nc].
  - exfalso. apply Nl. destruct (drop_ws_split (lowert l)) as (a & _ & F). rewrite F, D. apply in_app_iff. right; left; reflexivity.
  - apply settled_again. split; cbn [fst snd].
    + constructor; [split; [exact Bl|split; [exact Nl|exact Al]]|]. clear - H2 IH. specialize (IH H2).
      apply sanitize_settled in IH. destruct IH as [[K _] _]. exact K.
    + intros [r E]. exfalso. rewrite D in E. exact (Pl _ E).
Qed.

(** Splitting a line. *)
Lemma drop_ws_app2 : forall s p, blank s = false -> drop_ws (s ++ p) = drop_ws s ++ p.
Proof. induction s as [|c s IH]; intros p H; [discriminate|]. cbn in *. destruct (is_ws c); [apply IH; exact H|reflexivity]. Qed.
Lemma trim_app_blank : forall s p, blank p = true -> trim (s ++ p) = trim s.
Proof.
  intros s p H. destruct (blank s) eqn:B.
  - rewrite (proj2 (trim_nil s) B). apply trim_nil. rewrite blank_app, B, H. reflexivity.
  - unfold trim. rewrite drop_ws_app2 by exact B. apply rdrop_ws_app. exact H.
Qed.
Lemma split_ws_blank : forall p, blank p = true -> forall cur, split_ws_aux cur p = match cur with [] => [] | _ => [rev cur] end.
Proof.
  induction p as [|c p IH]; intros H cur; [reflexivity|]. cbn in *. apply andb_true_iff in H. destruct H as [H1 H2]. rewrite H1. rewrite (IH H2). destruct cur; reflexivity.
Qed.
Lemma split_ws_app : forall s p, blank p = true -> forall cur, split_ws_aux cur (s ++ p) = split_ws_aux cur s.
Proof.
  induction s as [|c s IH]; intros p H cur; [apply split_ws_blank; exact H|]. cbn. destruct (is_ws c); [destruct cur|]; rewrite IH by exact H; reflexivity.
Qed.
Lemma read_variable_end : forall s p vars, blank p = true -> read_variable (s ++ p) vars = read_variable s vars.
Proof. intros s p vars H. unfold read_variable, split_ws. rewrite split_ws_app by exact H. reflexivity. Qed.
Lemma parse_no_div : forall s, parse_rpn s <> Diverges.
Proof.
    intros s. unfold parse_rpn. rewrite rpn_tok. set (ts := map _ _). clearbody ts. revert ts.
    assert (L : forall ts st, tok_loop st ts <> Diverges).
    { induction ts as [|t ts IH]; intros st; cbn [tok_loop]; [discriminate|].
      assert (tok_step st t <> Diverges).
      { destruct t; cbn; try discriminate.
        - destruct st as [|a [|b st]]; try discriminate. destruct o; cbn; try discriminate. destruct b, a; try discriminate. destruct (Req_EM_T r0 0); discriminate.
        - destruct st; discriminate. }
      destruct (tok_step st t); cbn; [apply IH|discriminate|contradiction]. }
    intros ts. specialize (L ts []). destruct (tok_loop [] ts) as [[|a st]| |]; cbn; try discriminate. contradiction.
Qed.
Lemma sanitize_no_div : forall file, sanitize file <> Diverges.
Proof.
  pose proof parse_no_div as P.
  assert (V : forall l vars, read_variable l vars <> Diverges).
  { intros l vars. unfold read_variable. destruct (rev (split_ws l)); [discriminate|]. match goal with |- context [parse_rpn ?e] => specialize (P e); destruct (parse_rpn e) end; cbn; try discriminate. contradiction. }
  assert (L : forall l rest vars, sanitize_line l rest vars <> Diverges).
  { intros l rest vars. unfold sanitize_line. set (m := match find1 "!" l with Some n => firstn n l | None => l end). destruct (rev (rdrop_ws m)) as [|c r]; [discriminate|].
    assert (G : forall m' rest0, match drop_ws m' with [] => Err IndexError | c :: _ => if Ascii.eqb c "%" then do vars <- read_variable m' vars; Ok (m' :: rest0, vars) else Ok (m' :: rest0, vars) end <> Diverges).
    { intros m' rest0. destruct (drop_ws m'); [discriminate|]. destruct (Ascii.eqb a "%"); [|discriminate]. specialize (V m' vars). destruct (read_variable m' vars); cbn; try discriminate. contradiction. }
    destruct (Ascii.eqb c ampersand); [destruct rest; [discriminate|]|]; cbn [rbind]; apply G. }
  induction file as [|raw file IH]; cbn [sanitize]; [discriminate|]. destruct (sanitize file) as [[rest vars]| |]; cbn [rbind]; [|discriminate|contradiction].
  unfold sanitize_step. destruct (drop_ws (lowert raw)); [discriminate|]. destruct (Ascii.eqb a "!"); [destruct rest; [discriminate|]|]; apply L.
Qed.
Definition cut (l : text) : text := match find1 "!" l with Some n => firstn n l | None => l end.
Lemma cut_app : forall u v, ~ In "!"%char u -> cut (u ++ v) = u ++ cut v.
Proof.
  unfold cut. induction u as [|c u IH]; intros v H; [reflexivity|]. cbn [app find1].
  destruct (Ascii.eqb_spec c "!") as [->|N]; [exfalso; apply H; left; reflexivity|].
  specialize (IH v). destruct (find1 "!" (u ++ v)) as [n|]; cbn [option_map firstn]; rewrite IH; try reflexivity; intros I; apply H; right; exact I.
Qed.
Lemma cut_cons : forall c r, c <> "!"%char -> exists r', cut (c :: r) = c :: r'.
Proof.
  intros c r N. unfold cut. cbn [find1]. destruct (Ascii.eqb_spec c "!"); [contradiction|]. destruct (find1 "!" r); cbn [option_map firstn]; eauto.
Qed.
Definition finish (m : text) (rest : list text) (vars : variables) : res (list text * variables) :=
  match drop_ws m with
  | [] => Err IndexError
  | c :: _ => if Ascii.eqb c "%" then do vars <- read_variable m vars; Ok (m :: rest, vars) else Ok (m :: rest, vars)
  end.
Lemma line_eq : forall l rest vars, sanitize_line l rest vars =
  match rev (rdrop_ws (cut l)) with
  | [] => Err IndexError
  | c :: r => if Ascii.eqb c ampersand then match rest with [] => Err IndexError | next :: rest' => finish (rev r ++ trim next) rest' vars end
              else finish (cut l) rest vars
  end.
Proof.
  intros l rest vars. unfold sanitize_line, finish. cbv zeta. change (match find1 "!" l with Some n => firstn n l | None => l end) with (cut l). destruct (rev (rdrop_ws (cut l))) as [|c r]; [reflexivity|].
  destruct (Ascii.eqb c ampersand); [destruct rest; reflexivity|reflexivity].
Qed.
Lemma rdrop_app : forall u m, blank m = false -> rdrop_ws (u ++ m) = u ++ rdrop_ws m.
Proof.
  intros u m H. destruct (rdrop_ws_split m) as (w & B & E). destruct (snoc_cases (rdrop_ws m)) as [Z|(r & c & Z)].
  - apply rdrop_ws_blank in Z. congruence.
  - assert (W : is_ws c = false). { apply (rdrop_nonws m c (rev r)). rewrite Z, rev_app_distr. reflexivity. }
    rewrite E at 1. rewrite Z. rewrite app_assoc, rdrop_ws_app by exact B. rewrite app_assoc. apply rdrop_ws_last. exact W.
Qed.

Lemma lowert_rdrop : forall s, rdrop_ws (lowert s) = lowert (rdrop_ws s).
Proof. intros s. unfold rdrop_ws, lowert. rewrite <- map_rev. change (map low (rev s)) with (lowert (rev s)). rewrite lowert_drop. unfold lowert. rewrite map_rev. reflexivity. Qed.
Lemma no_bang_low : forall s, ~ In "!"%char s -> ~ In "!"%char (lowert s).
Proof. intros s N I. apply in_map_iff in I. destruct I as (x & E & I). apply low_special in E; [|left; reflexivity]. subst x. contradiction. Qed.
Lemma head_not_bang : forall s c r, ~ In "!"%char s -> drop_ws s = c :: r -> Ascii.eqb c "!" = false.
Proof.
  intros s c r N E. apply Ascii.eqb_neq. intros ->. apply N. destruct (drop_ws_split s) as (a & _ & F). rewrite F, E. apply in_app_iff; right; left; reflexivity.
Qed.
Lemma plain_step : forall l rest vars r c, ~ In "!"%char l -> rdrop_ws l = r ++ [c] -> c <> "&"%char ->
  sanitize_step l rest vars = finish (lowert l) rest vars.
Proof.
  intros l rest vars r c N E Na. unfold sanitize_step. destruct (drop_ws (lowert l)) as [|d t] eqn:D.
  - apply drop_ws_blank in D. rewrite lowert_blank in D. apply rdrop_ws_blank in D. rewrite D in E. destruct r; discriminate.
  - rewrite (head_not_bang (lowert l) d t (no_bang_low l N) D). rewrite line_eq. unfold cut. rewrite find1_none by (apply no_bang_low; exact N).
    rewrite lowert_rdrop, E. unfold lowert. rewrite map_app, rev_app_distr. cbn [map rev app].
    destruct (Ascii.eqb_spec (low c) ampersand) as [Q|_]; [|reflexivity]. exfalso. apply Na. apply low_special; [right; left; reflexivity|exact Q].
Qed.
Lemma split_exact : forall u v w c t pad B, ~ In "!"%char (u ++ v) -> blank pad = true -> blank t = true -> plain_start v ->
  v = w ++ [c] -> is_ws c = false -> c <> "&"%char ->
  sanitize ((u ++ "&"%char :: pad) :: (v ++ t) :: B) = sanitize ((u ++ v) :: B).
Proof.
  intros u v w c t pad B N Bp Bt (c0 & r0 & Ev0 & W0 & _ & N2 & _) Ev W Na. cbn [sanitize].
  destruct (sanitize B) as [[rest vars]|e|]; cbn [rbind]; [|reflexivity|reflexivity].
  assert (Nu : ~ In "!"%char u) by (intros I; apply N; apply in_app_iff; left; exact I).
  assert (Nv : ~ In "!"%char v) by (intros I; apply N; apply in_app_iff; right; exact I).
  assert (Nt : ~ In "!"%char t) by (intros I; apply blank_iff in Bt; apply Bt in I; discriminate).
  assert (Rv : rdrop_ws (v ++ t) = w ++ [c]) by (rewrite rdrop_ws_app by exact Bt; rewrite Ev; apply rdrop_ws_last; exact W).
  assert (Ru : rdrop_ws (u ++ v) = (u ++ w) ++ [c]) by (rewrite Ev, app_assoc; apply rdrop_ws_last; exact W).
  rewrite (plain_step (v ++ t) rest vars w c); [|rewrite in_app_iff; tauto|exact Rv|exact Na].
  rewrite (plain_step (u ++ v) rest vars (u ++ w) c); [|exact N|exact Ru|exact Na].
  assert (F1 : finish (lowert (v ++ t)) rest vars = Ok (lowert (v ++ t) :: rest, vars)).
  { unfold finish. rewrite lowert_drop, Ev0. cbn [app]. rewrite drop_ws_id by exact W0. cbn [lowert map].
    destruct (Ascii.eqb_spec (low c0) "%") as [Q|_]; [|reflexivity]. apply low_special in Q; [contradiction|right; right; reflexivity]. }
  rewrite F1. cbn [rbind].
  unfold sanitize_step.
  assert (Na2 : ~ In "!"%char (u ++ "&"%char :: pad)).
  { intros I. apply in_app_iff in I. destruct I as [I|[I|I]]; [contradiction|discriminate|]. apply blank_iff in Bp. apply Bp in I. discriminate. }
  destruct (drop_ws (lowert (u ++ "&"%char :: pad))) as [|d q] eqn:D.
  - exfalso. apply drop_ws_blank in D. rewrite lowert_blank, blank_app in D. cbn in D. rewrite andb_false_r in D. discriminate.
  - rewrite (head_not_bang _ d q (no_bang_low _ Na2) D). rewrite line_eq. unfold cut. rewrite find1_none by (apply no_bang_low; exact Na2).
    rewrite lowert_rdrop, rdrop_of_last by (try exact Bp; reflexivity). unfold lowert. rewrite !map_app, rev_app_distr. cbn [map rev app].
    change (Ascii.eqb (low "&") ampersand) with true. cbv iota. rewrite rev_involutive.
    fold (lowert u). fold (lowert v). fold (lowert t). f_equal. f_equal.
    unfold trim. assert (Dv : drop_ws (lowert v ++ lowert t) = lowert v ++ lowert t).
    { rewrite Ev0. cbn [lowert map app]. apply drop_ws_id. rewrite ws_low. exact W0. }
    rewrite Dv, rdrop_ws_app by (rewrite lowert_blank; exact Bt). rewrite lowert_rdrop, Ev, rdrop_ws_last by exact W. reflexivity.
Qed.
Lemma split_line : forall A u v w c t pad B, ~ In "!"%char (u ++ v) -> blank pad = true -> blank t = true -> plain_start v ->
  v = w ++ [c] -> is_ws c = false -> c <> "&"%char ->
  sanitize (A ++ (u ++ "&"%char :: pad) :: (v ++ t) :: B) = sanitize (A ++ (u ++ v) :: B).
Proof.
  intros A u v w c t pad B N Bp Bt P Ev W Na. induction A as [|a A IH]; cbn [app sanitize]; [|rewrite IH; reflexivity].
  apply (split_exact u v w c); assumption.
Qed.

(** Lemmas about element definitions. *)
From Coq Require Import List Reals Bool Arith String Ascii ZArith Lia.
From Verif Require Import PyBase PyDict PyText Line_Model Lte_Model Lte_Spec Line_Proofs Lte_Proofs Lte_Proofs2.
Import ListNotations.

(** Characters that no number contains. *)
Definition foreign (c : ascii) : bool :=
  negb (is_ws c) && negb (Ascii.eqb c "+") && negb (Ascii.eqb c "-") && Ascii.eqb (low c) c && negb (Ascii.eqb c "e") && negb (Ascii.eqb c ".") && negb (is_digit c).
Lemma foreign_facts : forall c, foreign c = true -> is_ws c = false /\ c <> "+"%char /\ c <> "-"%char /\ low c = c /\ c <> "e"%char /\ c <> "."%char /\ is_digit c = false.
Proof.
  intros c H. unfold foreign in H. repeat (apply andb_true_iff in H; destruct H as [H ?]).
  repeat match goal with X : negb _ = true |- _ => apply negb_true_iff in X end.
  repeat match goal with X : Ascii.eqb _ _ = false |- _ => apply Ascii.eqb_neq in X end.
  match goal with X : Ascii.eqb _ _ = true |- _ => apply Ascii.eqb_eq in X end. repeat split; assumption.
Qed.
Lemma in_trim_back : forall c s, is_ws c = false -> In c s -> In c (trim s).
Proof.
  intros c s W I. unfold trim. destruct (drop_ws_split s) as (a & Ba & E). destruct (rdrop_ws_split (drop_ws s)) as (w & Bw & F).
  rewrite E in I. apply in_app_iff in I. destruct I as [I|I]; [apply blank_iff in Ba; apply Ba in I; congruence|].
  rewrite F in I. apply in_app_iff in I. destruct I as [I|I]; [exact I|apply blank_iff in Bw; apply Bw in I; congruence].
Qed.
Lemma partition_in : forall c d s a f b, partition1 d s = (a, f, b) -> c <> d -> In c s -> In c a \/ (f = true /\ In c b).
Proof.
  induction s as [|x s IH]; intros a f b E N I; cbn in E; [destruct I|]. destruct (Ascii.eqb_spec x d) as [->|Nx].
  - injection E as <- <- <-. destruct I as [I|I]; [congruence|right; split; [reflexivity|exact I]].
  - destruct (partition1 d s) as [[a0 f0] b0]. injection E as <- <- <-. destruct I as [->|I]; [left; left; reflexivity|].
    destruct (IH _ _ _ eq_refl N I) as [H|H]; [left; right; exact H|right; exact H].
Qed.
Lemma sign_of_in : forall c s, c <> "+"%char -> c <> "-"%char -> In c s -> In c (snd (sign_of s)).
Proof.
  intros c [|x s] N1 N2 I; [destruct I|]. unfold sign_of. destruct (Ascii.eqb_spec x "-") as [->|]; [destruct I as [I|I]; [congruence|exact I]|].
  destruct (Ascii.eqb_spec x "+") as [->|]; [destruct I as [I|I]; [congruence|exact I]|exact I].
Qed.
Lemma all_digit_false : forall c s, is_digit c = false -> In c s -> forallb is_digit s = false.
Proof. intros c s H I. apply not_true_is_false. intros F. rewrite forallb_forall in F. rewrite (F _ I) in H. discriminate. Qed.
Lemma py_float_foreign : forall c s, foreign c = true -> In c s -> py_float s = None.
Proof.
  intros c s H I. destruct (foreign_facts c H) as (W & N1 & N2 & L & N3 & N4 & D). unfold py_float.
  apply (in_trim_back _ _ W) in I. apply (sign_of_in _ _ N1 N2) in I. destruct (sign_of (trim s)) as [sg u]. cbn [snd] in I.
  apply (in_map low) in I. rewrite L in I. fold (lowert u) in I. destruct (partition1 "e" (lowert u)) as [[m f] e] eqn:P.
  destruct (partition_in _ _ _ _ _ _ P N3 I) as [J|[-> J]].
  - unfold mantissa_of. destruct (partition1 "." m) as [[a fd] b] eqn:Q. destruct (partition_in _ _ _ _ _ _ Q N4 J) as [J1|[_ J1]].
    + rewrite (all_digit_false c a D J1). reflexivity.
    + rewrite (all_digit_false c b D J1). rewrite andb_false_r. reflexivity.
  - destruct (mantissa_of m); [|reflexivity]. unfold exponent_of. apply (sign_of_in _ _ N1 N2) in J. destruct (sign_of e) as [sg' d]. cbn [snd] in J.
    unfold int_of. destruct d as [|x d]; [destruct J|]. rewrite (all_digit_false c _ D J). reflexivity.
Qed.
Lemma clean_keeps : forall c v, is_ws c = false -> c <> quote -> c <> apostrophe -> ~ In c (T "pi") -> In c v -> In c (clean v).
Proof.
  intros c v W N1 N2 N3 I. unfold clean. apply in_trim_back; [exact W|]. apply replace_keeps; [discriminate|exact N3|].
  apply remove1_in; [exact N2|]. apply remove1_in; [exact N1|exact I].
Qed.
Lemma classify_foreign : forall c v, foreign c = true -> In c v -> ~ In c (T "multsqrt*/") -> classify v = TBad.
Proof.
  intros c v H I N. unfold classify. destruct (foreign_facts c H) as (W & N1 & N2 & L & N3 & N4 & D).
  repeat match goal with |- context [if teqb v ?w then _ else _] =>
    let E := fresh in destruct (teqb v w) eqn:E; [apply teqb_eq in E; subst v; exfalso; cbn in I, N; intuition congruence|clear E] end.
  destruct v as [|x v]; [destruct I|]. rewrite (py_float_foreign c) by assumption. reflexivity.
Qed.

Lemma rpn_loop_app : forall a b st, rpn_loop st (a ++ b) = do s <- rpn_loop st a; rpn_loop s b.
Proof. induction a as [|t a IH]; intros b st; [reflexivity|]. cbn [app rpn_loop]. destruct (rpn_step st t); cbn; auto. Qed.
Lemma first_attempt : forall v rest, (exists x, parse_rpn v = Ok x) \/ parse_rpn v = Err ValueError ->
  parse_rpn (v ++ comma :: rest) = Err ValueError.
Proof.
  intros v rest H. unfold parse_rpn in *. destruct (split1_app space v (comma :: rest)) as (ws & w & u & us & A & B & C).
  rewrite C. rewrite A in H. rewrite rpn_loop_app in *. cbn [rpn_loop] in *.
  assert (J : In comma u).
  { cbn [split1] in B. pose proof (split1_nonempty space rest). destruct (split1 space rest); [contradiction|]. change (Ascii.eqb comma space) with false in B. injection B as <- _. left; reflexivity. }
  destruct (rpn_loop [] ws) as [st|e|]; cbn [rbind] in *.
  - unfold rpn_step. rewrite (classify_foreign comma); [reflexivity|reflexivity| |cbn; intuition discriminate].
    apply clean_keeps; try discriminate; [reflexivity|cbn; intuition discriminate|]. apply in_app_iff; right; exact J.
  - destruct H as [[x H]|H]; [discriminate|exact H].
  - destruct H as [[x H]|H]; discriminate.
Qed.

(** What a value text says. *)
Definition represents (v : pval) (m : meaning) : Prop :=
  match m with Number r => exists x, v = PNum x /\ real_of x = Some r | Word w => v = PText w end.

Lemma letter_range : forall c, letter c -> is_ws c = false /\ is_digit c = false /\ low c = c /\ c <> "+"%char /\ c <> "-"%char /\ c <> "."%char /\ c <> quote /\ c <> apostrophe /\ c <> comma /\ c <> equals /\ c <> colon /\ c <> space.
Proof.
  intros c [H1 H2].
  assert (G : (negb ((97 <=? nat_of_ascii c) && (nat_of_ascii c <=? 122)) || (negb (is_ws c) && negb (is_digit c) && Ascii.eqb (low c) c && negb (Ascii.eqb c "+") && negb (Ascii.eqb c "-") && negb (Ascii.eqb c ".") && negb (Ascii.eqb c quote) && negb (Ascii.eqb c apostrophe) && negb (Ascii.eqb c comma) && negb (Ascii.eqb c equals) && negb (Ascii.eqb c colon) && negb (Ascii.eqb c space)))%bool = true).
  { apply (char_check (fun c => (negb ((97 <=? nat_of_ascii c) && (nat_of_ascii c <=? 122)) || (negb (is_ws c) && negb (is_digit c) && Ascii.eqb (low c) c && negb (Ascii.eqb c "+") && negb (Ascii.eqb c "-") && negb (Ascii.eqb c ".") && negb (Ascii.eqb c quote) && negb (Ascii.eqb c apostrophe) && negb (Ascii.eqb c comma) && negb (Ascii.eqb c equals) && negb (Ascii.eqb c colon) && negb (Ascii.eqb c space)))%bool)). vm_compute. reflexivity. }
  apply Nat.leb_le in H1, H2. rewrite H1, H2 in G. cbn [andb negb orb] in G.
  repeat (apply andb_true_iff in G; destruct G as [G ?]).
  repeat match goal with X : negb _ = true |- _ => apply negb_true_iff in X end.
  repeat match goal with X : Ascii.eqb _ _ = false |- _ => apply Ascii.eqb_neq in X end.
  match goal with X : Ascii.eqb _ _ = true |- _ => apply Ascii.eqb_eq in X end. repeat split; assumption.
Qed.
Lemma not_separator : forall c, ~ separator c -> is_ws c = false /\ c <> comma /\ c <> equals /\ c <> colon /\ c <> "("%char /\ c <> close /\ c <> quote /\ c <> apostrophe /\ c <> "!"%char /\ c <> ampersand /\ c <> "%"%char.
Proof.
  intros c H. unfold separator in H. split; [destruct (is_ws c); [exfalso; apply H; left; reflexivity|reflexivity]|].
  repeat split; intros ->; apply H; cbn; tauto.
Qed.
Lemma remove_both : forall s, ~ In quote s -> ~ In apostrophe s -> remove1 apostrophe (remove1 quote s) = s.
Proof. intros s A B. rewrite (remove1_id quote) by exact A. apply remove1_id. exact B. Qed.
Lemma replace_head : forall p r c s, (forall t, c :: s <> p ++ t) -> exists t, replace p r (c :: s) = c :: t.
Proof.
  intros p r c s H. unfold replace. cbn [replace_aux]. destruct (prefixb p (c :: s)) eqn:E.
  - apply prefixb_split in E. destruct E as [t E]. exfalso. exact (H t E).
  - eauto.
Qed.
Lemma trim_head : forall c s, is_ws c = false -> exists t, trim (c :: s) = c :: t.
Proof.
  intros c s W. unfold trim. rewrite drop_ws_id by exact W. destruct (rdrop_ws_split (c :: s)) as (w & B & E).
  destruct (rdrop_ws (c :: s)) as [|x t] eqn:R; [|cbn in E; injection E as <- _; eauto].
  apply rdrop_ws_blank in R. cbn in R. rewrite W in R. discriminate.
Qed.
Lemma replace_inserts : forall p r c s, occurs p s = true -> p <> [] -> In c r -> In c (replace p r s).
Proof.
  intros p r c s H N I. unfold replace. induction s as [|x s IH].
  - destruct p; [contradiction|discriminate H].
  - change (prefixb p (x :: s) || occurs p s = true)%bool in H. cbn [replace_aux]. destruct (prefixb p (x :: s)).
    + apply in_app_iff. left; exact I.
    + right. apply IH. exact H.
Qed.
Lemma word_clean : forall w, plain_word w -> exists c t, clean w = c :: t /\ letter c /\ ~ In (clean w) [T "mult"; T "sqrt"].
Proof.
  intros w ((c & r & -> & L) & S & M & P). exists c.
  assert (E : remove1 apostrophe (remove1 quote (c :: r)) = c :: r) by (apply remove_both; intros I; apply S in I; apply I; right; right; [left|right]; reflexivity).
  unfold clean. rewrite E. destruct (letter_range c L) as (W & _). destruct (occurs (T "pi") (c :: r)) eqn:O.
  - destruct (replace_head (T "pi") pi_text c r P) as [t Et]. pose proof (replace_inserts (T "pi") pi_text "3"%char _ O ltac:(discriminate) ltac:(left; reflexivity)) as I3.
    apply (in_trim_back "3"%char) in I3; [|reflexivity]. rewrite Et in *. destruct (trim_head c t W) as [t' Et']. exists t'. split; [exact Et'|]. split; [exact L|].
    intros [X|[X|[]]]; rewrite <- X in I3; cbn in I3; intuition discriminate.
  - rewrite replace_none by exact O.
    assert (Tt : trim (c :: r) = c :: r).
    { apply trim_tight, tight_all. intros x I. apply S in I. destruct (is_ws x) eqn:Wx; [|reflexivity]. exfalso. apply I. left; exact Wx. }
    rewrite Tt. exists r. split; [reflexivity|]. split; [exact L|]. intros [X|[X|[]]]; apply M; [left|right; left]; exact X.
Qed.
Lemma py_float_letter : forall c t, letter c -> is_ws c = false -> py_float (c :: t) = None.
Proof.
  intros c t L W. destruct (letter_range c L) as (_ & D & Lo & N1 & N2 & N3 & _).
  destruct (Ascii.eqb_spec c "e") as [->|Ne].
  - unfold py_float. destruct (trim_head "e" t W) as [t' ->]. reflexivity.
  - apply (py_float_foreign c); [|left; reflexivity]. unfold foreign. rewrite W, D, Lo, Ascii.eqb_refl.
    destruct (Ascii.eqb_spec c "+"); [contradiction|]. destruct (Ascii.eqb_spec c "-"); [contradiction|]. destruct (Ascii.eqb_spec c "e"); [contradiction|]. destruct (Ascii.eqb_spec c "."); [contradiction|]. reflexivity.
Qed.

Lemma classify_word_text : forall w, plain_word w -> classify (clean w) = TBad.
Proof.
  intros w H. destruct (word_clean w H) as (c & t & E & L & M). rewrite E in *. destruct (letter_range c L) as (W & D & Lo & N1 & N2 & _). unfold classify.
  repeat match goal with |- context [if teqb (c :: t) ?w then _ else _] =>
    let F := fresh in destruct (teqb (c :: t) w) eqn:F; [apply teqb_eq in F; exfalso;
      first [injection F as F _; subst c; first [contradiction N1; reflexivity | contradiction N2; reflexivity | destruct L as [L1 L2]; vm_compute in L1, L2; lia]
            | apply M; rewrite F; cbn; tauto]|clear F] end.
  rewrite (py_float_letter c t L W). reflexivity.
Qed.
Lemma word_no_space : forall w, plain_word w -> ~ In space w.
Proof. intros w (_ & S & _) I. apply S in I. apply I. left. reflexivity. Qed.
Lemma parse_word : forall w, plain_word w -> parse_rpn w = Err ValueError.
Proof.
  intros w H. unfold parse_rpn. rewrite split1_none by (apply word_no_space; exact H). cbn [rpn_loop]. unfold rpn_step. rewrite (classify_word_text w H). reflexivity.
Qed.
Lemma parse_number : forall e v r, expr_ok e -> written (words e) v -> expr_value e = Some r -> exists x, parse_rpn v = Ok x /\ real_of x = Some r.
Proof.
  intros e v r H W V. rewrite (written_toks _ _ (wordlist e) W (words_wordlist e) (wordlist_ok e H)). rewrite tok_expr.
  destruct (computed_value e) as [(x & -> & X)|[_ X]]; [|congruence]. exists x. split; [reflexivity|congruence].
Qed.

(** The characters of a value. *)
Definition value_char (c : ascii) : bool := negb (Ascii.eqb c comma) && negb (Ascii.eqb c equals) && negb (Ascii.eqb c colon) && negb (Ascii.eqb c apostrophe) && negb (Ascii.eqb c "(") && negb (Ascii.eqb c "!") && negb (Ascii.eqb c "&") && negb (Ascii.eqb c "%").
Lemma value_char_facts : forall c, value_char c = true -> c <> comma /\ c <> equals /\ c <> colon /\ c <> apostrophe /\ c <> "("%char /\ c <> "!"%char /\ c <> "&"%char /\ c <> "%"%char.
Proof.
  intros c H. unfold value_char in H. repeat (apply andb_true_iff in H; destruct H as [H ?]).
  repeat match goal with X : negb _ = true |- _ => apply negb_true_iff in X end.
  repeat match goal with X : Ascii.eqb _ _ = false |- _ => apply Ascii.eqb_neq in X end. repeat split; assumption.
Qed.
Lemma lit_value_char : forall c, lit_char c = true -> value_char c = true.
Proof.
  intros c H. assert (G : (negb (lit_char c) || value_char c)%bool = true) by (revert c H; intros c _; revert c; apply char_check; vm_compute; reflexivity).
  rewrite H in G. exact G.
Qed.
Lemma word_value_chars : forall w, word_ok w -> forallb value_char (word_text w) = true.
Proof.
  intros [l| |o|] H; cbn [word_text]; try reflexivity.
  - pose proof (lit_text l H) as L. rewrite forallb_forall in *. intros c I. apply lit_value_char. apply L; exact I.
  - destruct o; reflexivity.
Qed.
Lemma blanks_value_chars : forall n, forallb value_char (blanks n) = true.
Proof. induction n; [reflexivity|exact IHn]. Qed.
Lemma spaced_value_chars : forall ws, (forall w, In w ws -> forallb value_char (fst w) = true) -> forallb value_char (spaced ws) = true.
Proof.
  induction ws as [|[w n] ws IH]; intros H; [reflexivity|]. cbn [spaced]. rewrite !forallb_app, blanks_value_chars, IH by (intros x I; apply H; right; exact I).
  rewrite (H (w, n) (or_introl eq_refl) : forallb value_char w = true). reflexivity.
Qed.
Lemma written_chars : forall ws v, written ws v -> (forall w, In w ws -> forallb value_char w = true) -> forallb value_char v = true.
Proof.
  intros ws v H C. destruct H as [n ws w m nl Hn|n ws w m nl Hn].
  all: assert (C1 : forallb value_char (spaced ws) = true) by (apply spaced_value_chars; intros x I; apply C; apply in_app_iff; left; apply in_map; exact I).
  all: assert (C2 : forallb value_char w = true) by (apply C; apply in_app_iff; right; left; reflexivity).
  all: assert (C3 : forallb value_char nl = true) by (destruct Hn as [->| ->]; reflexivity).
  all: rewrite !forallb_app, !blanks_value_chars, C1, C2, C3; reflexivity.
Qed.
Lemma word_chars_ok : forall w, plain_word w -> forallb value_char w = true.
Proof.
  intros w (_ & S & _). apply forallb_forall. intros c I. apply S in I. destruct (not_separator c I) as (_ & A & B & C & D & _ & _ & E & X1 & X2 & X3). unfold value_char.
  destruct (Ascii.eqb_spec c comma); [contradiction|]. destruct (Ascii.eqb_spec c equals); [contradiction|]. destruct (Ascii.eqb_spec c colon); [contradiction|].
  destruct (Ascii.eqb_spec c apostrophe); [contradiction|]. destruct (Ascii.eqb_spec c "("); [contradiction|].
  destruct (Ascii.eqb_spec c "!"); [contradiction|]. destruct (Ascii.eqb_spec c "&"); [contradiction|]. destruct (Ascii.eqb_spec c "%"); [contradiction|]. reflexivity.
Qed.
Lemma says_chars : forall v m, says v m -> forallb value_char v = true.
Proof.
  intros v m H. destruct H as [e v r H W V|w H|w H].
  - apply (written_chars _ _ W). intros w I. rewrite words_wordlist in I. apply in_map_iff in I. destruct I as (x & <- & I). apply word_value_chars.
    pose proof (wordlist_ok e H) as F. rewrite Forall_forall in F. apply F; exact I.
  - apply word_chars_ok. exact H.
  - rewrite !forallb_app, (word_chars_ok w H). reflexivity.
Qed.
(** Removing the quotation marks of a value. *)
Definition unquote (s : text) : text := remove1 apostrophe (remove1 quote s).
Lemma says_unquoted : forall v m, says v m ->
  (exists x, parse_rpn (unquote v) = Ok x /\ represents (PNum x) m) \/ (parse_rpn (unquote v) = Err ValueError /\ represents (PText (unquote v)) m).
Proof.
  intros v m H. pose proof (says_chars v m H) as C.
  assert (U : unquote v = remove1 quote v).
  { unfold unquote. apply remove1_id. intros I. apply filter_In in I. destruct I as [I _]. rewrite forallb_forall in C. apply C in I. discriminate. }
  rewrite U, parse_rpn_unquoted.
  assert (Q : forall w, plain_word w -> remove1 quote w = w).
  { intros w (_ & S & _). apply remove1_id. intros I. apply S in I. apply I. right; right; left; reflexivity. }
  destruct H as [e v r H W V|w H|w H].
  - left. destruct (parse_number e v r H W V) as (x & E & X). exists x. split; [exact E|]. exists x. split; [reflexivity|exact X].
  - right. split; [apply parse_word; exact H|]. cbn. f_equal. apply Q. exact H.
  - right. rewrite <- parse_rpn_unquoted. rewrite !remove1_app, (Q w H). change (remove1 quote dquote) with (@nil ascii). cbn [app]. rewrite app_nil_r.
    split; [apply parse_word; exact H|]. reflexivity.
Qed.

(** The loop over the parameters. *)
Definition reads (V : text) (pv : pval) : Prop :=
  ~ In comma V /\ ~ In equals V /\ ((exists x, parse_rpn V = Ok x /\ pv = PNum x) \/ (parse_rpn V = Err ValueError /\ pv = PText V)).
Definition raw := (text * text * pval)%type.
Definition tail_text (r : list raw) : text := List.concat (map (fun x => comma :: fst (fst x) ++ equals :: snd (fst x)) r).
Lemma param_loop_ok : forall r K V pv acc fuel, ~ In equals K -> reads V pv ->
  Forall (fun x => ~ In equals (fst (fst x)) /\ reads (snd (fst x)) (snd x)) r -> (S (List.length r) < fuel)%nat ->
  param_loop fuel acc (K ++ equals :: V ++ tail_text r) =
  Ok (fold_left (fun d x => dset text_dec d (trim (fst (fst x))) (snd x)) ((K, V, pv) :: r) acc).
Proof.
  induction r as [|[[K2 V2] pv2] r IH]; intros K V pv acc fuel HK (C & E & P) F L; (destruct fuel as [|fuel]; [lia|]); cbn [param_loop].
  - change (tail_text []) with (@nil ascii). rewrite app_nil_r. rewrite partition1_app by exact HK. cbn [fold_left fst snd].
    destruct fuel as [|fuel]; [cbn in L; lia|].
    destruct P as [(x & Pv & ->)|[Pv ->]]; rewrite Pv.
    + cbn [param_loop]. rewrite partition1_none by exact E. reflexivity.
    + rewrite (partition1_none comma) by exact C. rewrite Pv. reflexivity.
  - rewrite partition1_app by exact HK. change (tail_text ((K2, V2, pv2) :: r)) with (comma :: (K2 ++ equals :: V2) ++ tail_text r). rewrite <- app_assoc.
    change ((equals :: V2) ++ tail_text r) with (equals :: V2 ++ tail_text r).
    rewrite first_attempt by (destruct P as [(x & -> & _)|[-> _]]; [left; eauto|right; reflexivity]).
    rewrite (partition1_app comma) by exact C. inversion F as [|? ? [F1 F2] F3]; subst. cbn [fst snd] in F1, F2.
    assert (L' : (S (List.length r) < fuel)%nat) by (cbn in L; lia).
    destruct P as [(x & Pv & ->)|[Pv ->]]; rewrite Pv; rewrite (IH K2 V2 pv2) by assumption; reflexivity.
Qed.

Lemma unquote_app : forall a b, unquote (a ++ b) = unquote a ++ unquote b.
Proof. intros. unfold unquote. rewrite !remove1_app. reflexivity. Qed.
Lemma unquote_id : forall s, ~ In quote s -> ~ In apostrophe s -> unquote s = s.
Proof. exact remove_both. Qed.
Lemma blank_plain : forall s c, blank_line s -> is_ws c = false -> ~ In c s.
Proof. intros s c H W I. apply H in I. congruence. Qed.
Lemma unquote_blank : forall s, blank_line s -> unquote s = s.
Proof. intros s H. apply unquote_id; apply blank_plain; try exact H; reflexivity. Qed.
Lemma identifier_no : forall s c, identifier s -> separator c -> ~ In c s.
Proof. intros s c (_ & S & _) H I. exact (S c I H). Qed.
Lemma sep_quote : separator quote. Proof. right; right; left; reflexivity. Qed.
Lemma sep_apostrophe : separator apostrophe. Proof. right; right; right; reflexivity. Qed.
Lemma sep_in : forall c, In c (T ",=:()!&%") -> separator c. Proof. intros c H. right; left; exact H. Qed.
Lemma unquote_identifier : forall s, identifier s -> unquote s = s.
Proof. intros s H. apply unquote_id; apply identifier_no; try exact H; [exact sep_quote|exact sep_apostrophe]. Qed.
Lemma identifier_tight : forall s, identifier s -> tight s.
Proof. intros s (_ & S & _). apply tight_all. intros c I. apply S in I. destruct (is_ws c) eqn:W; [|reflexivity]. exfalso. apply I. left; exact W. Qed.
Lemma in_unquote : forall c s, In c (unquote s) -> In c s.
Proof. intros c s H. unfold unquote in H. apply filter_In in H. destruct H as [H _]. apply filter_In in H. tauto. Qed.

Definition raw_of (p : parameter) (pv : pval) : raw := (p_before p ++ p_key p ++ p_after p, unquote (p_value p), pv).
Lemma parameter_unquoted : forall p, parameter_ok p -> unquote (parameter_text p) = (p_before p ++ p_key p ++ p_after p) ++ equals :: unquote (p_value p).
Proof.
  intros p (B & A & K & S). unfold parameter_text. rewrite !unquote_app, unquote_blank, unquote_identifier, (unquote_blank (p_after p)) by assumption. rewrite <- !app_assoc. reflexivity.
Qed.
Lemma parameter_reads : forall p, parameter_ok p -> exists pv, represents pv (p_meaning p) /\ reads (unquote (p_value p)) pv /\ ~ In equals (p_before p ++ p_key p ++ p_after p) /\ trim (p_before p ++ p_key p ++ p_after p) = p_key p.
Proof.
  intros p (B & A & K & S). pose proof (says_chars _ _ S) as C. rewrite forallb_forall in C.
  assert (N1 : ~ In comma (unquote (p_value p))) by (intros I; apply in_unquote in I; apply C in I; discriminate).
  assert (N2 : ~ In equals (unquote (p_value p))) by (intros I; apply in_unquote in I; apply C in I; discriminate).
  assert (N3 : ~ In equals (p_before p ++ p_key p ++ p_after p)).
  { intros I. apply in_app_iff in I. destruct I as [I|I]; [revert I; apply blank_plain; [exact B|reflexivity]|]. apply in_app_iff in I. destruct I as [I|I].
    - revert I. apply identifier_no; [exact K|]. apply sep_in. cbn; tauto.
    - revert I. apply blank_plain; [exact A|reflexivity]. }
  assert (T1 : trim (p_before p ++ p_key p ++ p_after p) = p_key p) by (apply trim_pad; [apply blank_iff; exact B|apply blank_iff; exact A|apply identifier_tight; exact K]).
  destruct (says_unquoted _ _ S) as [(x & E & R)|[E R]]; [exists (PNum x)|exists (PText (unquote (p_value p)))]; (split; [exact R|split; [|split; [exact N3|exact T1]]]); split; try exact N1; split; try exact N2; [left; eauto|right; eauto].
Qed.
Lemma dset_distinct : forall (l : list (text * pval)) acc, NoDup (map fst (acc ++ l)) ->
  fold_left (fun d x => dset text_dec d (fst x) (snd x)) l acc = acc ++ l.
Proof.
  induction l as [|[k v] l IH]; intros acc H; [rewrite app_nil_r; reflexivity|]. cbn [fold_left fst snd]. rewrite dset_new.
  - rewrite IH; rewrite <- app_assoc; [reflexivity|exact H].
  - apply dget_none. intros I. rewrite map_app in H. cbn in H. apply NoDup_remove in H. destruct H as [_ H]. apply H. apply in_app_iff. left. exact I.
Qed.
Lemma choose_raws : forall ps, Forall parameter_ok ps -> exists pvs, Forall2 (fun pv p => represents pv (p_meaning p) /\ reads (unquote (p_value p)) pv /\ ~ In equals (p_before p ++ p_key p ++ p_after p) /\ trim (p_before p ++ p_key p ++ p_after p) = p_key p) pvs ps.
Proof.
  induction ps as [|p ps IH]; intros H; [exists []; constructor|]. inversion H as [|? ? H1 H2]; subst. destruct (IH H2) as [pvs F]. destruct (parameter_reads p H1) as (pv & P). exists (pv :: pvs). constructor; assumption.
Qed.

Definition held (kv : text * pval) (p : parameter) : Prop := fst kv = p_key p /\ represents (snd kv) (p_meaning p).
Lemma tail_unquoted : forall ps pvs, Forall parameter_ok ps -> Forall2 (fun (_ : pval) (_ : parameter) => True) pvs ps ->
  unquote (List.concat (map (fun p => T "," ++ parameter_text p) ps)) = tail_text (map (fun x => raw_of (snd x) (fst x)) (combine pvs ps)).
Proof.
  intros ps pvs H F. induction F as [|pv p pvs ps _ F IH]; [reflexivity|]. inversion H as [|? ? H1 H2]; subst. cbn [map List.concat combine].
  rewrite !unquote_app, parameter_unquoted, IH by assumption. reflexivity.
Qed.
Lemma fold_raws : forall pvs ps acc, Forall2 (fun pv p => trim (p_before p ++ p_key p ++ p_after p) = p_key p) pvs ps ->
  fold_left (fun d (x : raw) => dset text_dec d (trim (fst (fst x))) (snd x)) (map (fun x => raw_of (snd x) (fst x)) (combine pvs ps)) acc =
  fold_left (fun d x => dset text_dec d (fst x) (snd x)) (map (fun x => (p_key (snd x), fst x)) (combine pvs ps)) acc.
Proof. intros pvs ps acc F. revert acc. induction F as [|pv p pvs ps E F IH]; intros acc; [reflexivity|]. cbn [combine map fold_left raw_of fst snd]. rewrite E. apply IH. Qed.
Lemma keys_combine : forall (pvs : list pval) ps, Forall2 (fun _ _ => True) pvs ps -> map fst (map (fun x => (p_key (snd x), fst x)) (combine pvs ps)) = map p_key ps.
Proof. intros pvs ps F. induction F; [reflexivity|]. cbn. f_equal. exact IHF. Qed.

Lemma forall2_true : forall {A B} (P : A -> B -> Prop) l m, Forall2 P l m -> Forall2 (fun _ _ => True) l m.
Proof. intros A B P l m F. induction F; constructor; auto. Qed.
Lemma forall2_weaken : forall {A B} (P Q : A -> B -> Prop) l m, (forall a b, P a b -> Q a b) -> Forall2 P l m -> Forall2 Q l m.
Proof. intros A B P Q l m H F. induction F; constructor; auto. Qed.

Lemma find1_rev : forall c a b, ~ In c b -> find1 c (rev (a ++ c :: b)) = Some (List.length b).
Proof. intros c a b H. rewrite rev_app_distr. cbn [rev]. rewrite <- app_assoc. cbn [app]. rewrite find1_app by (intros I; apply in_rev in I; contradiction). rewrite rev_length. reflexivity. Qed.

(** name ":" before type after, then the parameters *)
Lemma bare_remove : forall s, bare s = remove1 quote s. Proof. reflexivity. Qed.
Lemma bare_app : forall a b, bare (a ++ b) = bare a ++ bare b.
Proof. intros a b. rewrite !bare_remove. apply remove1_app. Qed.
Lemma spelled_chars : forall s c, plain_or_quoted s -> In c s -> In c (bare s) \/ c = quote.
Proof.
  intros s c [E|E] I.
  - left. rewrite <- E. exact I.
  - rewrite E, !in_app_iff in I. destruct I as [[I|[]]|[I|[I|[]]]]; [right; symmetry; exact I|left; exact I|right; symmetry; exact I].
Qed.
Lemma unquote_written : forall s, plain_or_quoted s -> identifier (bare s) -> unquote s = bare s.
Proof.
  intros s [E|E] I; rewrite E at 1; [apply unquote_identifier; exact I|].
  rewrite !unquote_app, (unquote_identifier (bare s)) by exact I. change (unquote dquote) with (@nil ascii). apply app_nil_r.
Qed.
Lemma written_tight : forall s, plain_or_quoted s -> identifier (bare s) -> tight s.
Proof.
  intros s P I. apply tight_all. intros c J. destruct (spelled_chars s c P J) as [K| ->]; [|reflexivity].
  destruct I as (_ & S & _). apply S in K. destruct (is_ws c) eqn:W; [|reflexivity]. exfalso. apply K. left; exact W.
Qed.
Lemma written_no : forall s c, plain_or_quoted s -> identifier (bare s) -> separator c -> c <> quote -> ~ In c s.
Proof. intros s c P I S N J. destruct (spelled_chars s c P J) as [K|K]; [|contradiction]. revert K. apply identifier_no; assumption. Qed.
Definition head_text (d : definition) : text := d_name d ++ colon :: d_before d ++ d_type d ++ d_after d.
Lemma definition_unquoted : forall d, definition_ok d -> unquote (definition_text d) = head_text d ++ unquote (List.concat (map (fun p => T "," ++ parameter_text p) (d_params d))).
Proof.
  intros d (N & B & A & Ty & _ & _ & Q). unfold definition_text, head_text. rewrite !unquote_app, (unquote_written (d_written d) Q N), (unquote_blank (d_before d)), (unquote_identifier (d_type d)), (unquote_blank (d_after d)) by assumption.
  change (unquote (T ":")) with [colon]. rewrite <- !app_assoc. cbn [app]. rewrite <- !app_assoc. reflexivity.
Qed.
Lemma head_chars : forall d c, definition_ok d -> separator c -> is_ws c = false -> ~ In c (d_before d ++ d_type d ++ d_after d).
Proof.
  intros d c (N & B & A & Ty & _) S W I. apply in_app_iff in I. destruct I as [I|I]; [revert I; apply blank_plain; assumption|]. apply in_app_iff in I. destruct I as [I|I].
  - revert I. apply identifier_no; assumption.
  - revert I. apply blank_plain; assumption.
Qed.
Lemma params_no_colon : forall ps, Forall parameter_ok ps -> ~ In colon (unquote (List.concat (map (fun p => T "," ++ parameter_text p) ps))).
Proof.
  intros ps H I. apply in_unquote in I. apply in_concat in I. destruct I as (x & J & I). apply in_map_iff in J. destruct J as (p & <- & J).
  rewrite Forall_forall in H. destruct (H p J) as (B & A & K & S). destruct I as [I|I]; [discriminate|]. change (In colon (parameter_text p)) in I. unfold parameter_text in I.
  repeat (apply in_app_iff in I; destruct I as [I|I]).
  - revert I. apply blank_plain; [exact B|reflexivity].
  - revert I. apply identifier_no; [exact K|]. apply sep_in; cbn; tauto.
  - revert I. apply blank_plain; [exact A|reflexivity].
  - destruct I as [I|[]]; discriminate.
  - pose proof (says_chars _ _ S) as C. rewrite forallb_forall in C. apply C in I. discriminate.
Qed.
Lemma skipn_exact : forall {A} (a b : list A), skipn (List.length a) (a ++ b) = b.
Proof. intros. rewrite skipn_app, Nat.sub_diag, skipn_all. reflexivity. Qed.
Lemma firstn_exact : forall {A} (a b : list A), firstn (List.length a) (a ++ b) = a.
Proof. intros. rewrite firstn_app, Nat.sub_diag, firstn_all, firstn_O, app_nil_r. reflexivity. Qed.
Lemma type_trim : forall d, definition_ok d -> trim (d_before d ++ d_type d ++ d_after d) = d_type d.
Proof. intros d (N & B & A & Ty & _). apply trim_pad; [apply blank_iff; exact B|apply blank_iff; exact A|apply identifier_tight; exact Ty]. Qed.

Lemma find_parameters_some : forall d, definition_ok d -> d_params d <> [] ->
  exists ps, find_parameters (Some (unquote (definition_text d))) = Ok (d_type d, ps) /\ Forall2 held ps (d_params d).
Proof.
  intros d H N. rewrite (definition_unquoted d H). pose proof H as (_ & _ & _ & _ & P & ND & _).
  destruct (choose_raws _ P) as [pvs F]. pose proof (forall2_true _ _ _ F) as F0. rewrite (tail_unquoted _ pvs P F0).
  remember (d_params d) as qs eqn:Eqs. clear Eqs. destruct F as [|pv p pvs ps Fp F]; [contradiction|]. cbn [combine map]. clear N.
  set (r := map (fun x => raw_of (snd x) (fst x)) (combine pvs ps)) in *.
  set (hd := d_before d ++ d_type d ++ d_after d).
  set (body := (p_before p ++ p_key p ++ p_after p) ++ equals :: unquote (p_value p) ++ tail_text r).
  assert (Es : head_text d ++ tail_text (raw_of p pv :: r) = d_name d ++ colon :: hd ++ comma :: body).
  { unfold head_text, tail_text, raw_of, body. cbn [map List.concat fst snd]. fold hd. rewrite <- !app_assoc. cbn [app]. rewrite <- !app_assoc. reflexivity. }
  change (raw_of (snd (pv, p)) (fst (pv, p))) with (raw_of p pv). rewrite Es. unfold find_parameters.
  assert (Eb : tail_text (raw_of p pv :: r) = comma :: body).
  { unfold body, tail_text, raw_of. cbn [map List.concat fst snd]. rewrite <- !app_assoc. cbn [app]. rewrite <- ?app_assoc. reflexivity. }
  assert (Nc : ~ In colon (hd ++ comma :: body)).
  { intros I. apply in_app_iff in I. destruct I as [I|I].
    - revert I. apply head_chars; [exact H|apply sep_in; cbn; tauto|reflexivity].
    - apply (params_no_colon (p :: ps)); [assumption|]. rewrite (tail_unquoted _ (pv :: pvs) P F0).
      change (map (fun x => raw_of (snd x) (fst x)) (combine (pv :: pvs) (p :: ps))) with (raw_of p pv :: r). rewrite Eb. exact I. }
  rewrite find1_rev by exact Nc. assert (Nn : ~ In comma (d_name d ++ colon :: hd)).
  { intros I. apply in_app_iff in I. destruct I as [I|[I|I]]; [|discriminate|].
    - revert I. destruct H as (Hn & _). apply identifier_no; [exact Hn|apply sep_in; cbn; tauto].
    - revert I. apply head_chars; [exact H|apply sep_in; cbn; tauto|reflexivity]. }
  replace (find1 comma (d_name d ++ colon :: hd ++ comma :: body)) with (Some (List.length (d_name d ++ colon :: hd))).
  2:{ symmetry. rewrite <- (find1_app comma (d_name d ++ colon :: hd) body Nn). rewrite <- app_assoc. reflexivity. }
  cbn [upto after].
  replace (firstn (List.length (d_name d ++ colon :: hd)) (d_name d ++ colon :: hd ++ comma :: body)) with (d_name d ++ colon :: hd).
  2:{ symmetry. replace (d_name d ++ colon :: hd ++ comma :: body) with ((d_name d ++ colon :: hd) ++ comma :: body) by (rewrite <- app_assoc; reflexivity). apply firstn_exact. }
  replace (skipn (List.length (d_name d ++ colon :: hd) + 1) (d_name d ++ colon :: hd ++ comma :: body)) with body.
  2:{ symmetry. replace (d_name d ++ colon :: hd ++ comma :: body) with ((d_name d ++ colon :: hd ++ [comma]) ++ body) by (rewrite <- app_assoc; cbn [app]; rewrite <- app_assoc; reflexivity).
      replace (List.length (d_name d ++ colon :: hd) + 1)%nat with (List.length (d_name d ++ colon :: hd ++ [comma])) by (rewrite !app_length; cbn [List.length]; rewrite app_length; cbn; lia). apply skipn_exact. }
  replace (skipn _ (d_name d ++ colon :: hd)) with hd.
  2:{ symmetry. replace (d_name d ++ colon :: hd) with ((d_name d ++ [colon]) ++ hd) at 1 by (rewrite <- app_assoc; reflexivity).
      replace (List.length (d_name d ++ colon :: hd ++ comma :: body) - (List.length (hd ++ comma :: body) + 1) + 1)%nat with (List.length (d_name d ++ [colon])) by (rewrite !app_length; cbn [List.length]; rewrite !app_length; cbn; lia). apply skipn_exact. }
  replace (trim hd) with (d_type d) by (symmetry; apply type_trim; exact H). destruct Fp as (Rp & Rv & Ke & Kt).
  rewrite (param_loop_ok r _ _ pv [] _ Ke Rv).
  - cbn [rbind]. eexists. split; [reflexivity|].
    change ((p_before p ++ p_key p ++ p_after p, unquote (p_value p), pv) :: r) with (map (fun x => raw_of (snd x) (fst x)) (combine (pv :: pvs) (p :: ps))).
    rewrite fold_raws.
    + rewrite dset_distinct; [|cbn [app]; rewrite keys_combine by exact F0; exact ND]. cbn [app].
      assert (F' : Forall2 (fun pv p => represents pv (p_meaning p)) (pv :: pvs) (p :: ps)) by (constructor; [exact Rp|apply (forall2_weaken _ _ _ _ (fun a b X => proj1 X) F)]).
      clear - F'. induction F'; cbn [combine map]; constructor; [split; [reflexivity|assumption]|assumption].
    + constructor; [exact Kt|]. revert F. apply forall2_weaken. tauto.
  - unfold r. apply Forall_forall. intros x I. apply in_map_iff in I. destruct I as ([pv' p'] & <- & I). cbn [raw_of fst snd].
    assert (X : forall l m, Forall2 (fun pv p => represents pv (p_meaning p) /\ reads (unquote (p_value p)) pv /\ ~ In equals (p_before p ++ p_key p ++ p_after p) /\ trim (p_before p ++ p_key p ++ p_after p) = p_key p) l m -> In (pv', p') (combine l m) -> ~ In equals (p_before p' ++ p_key p' ++ p_after p') /\ reads (unquote (p_value p')) pv').
    { clear. intros l m G. induction G as [|a b l m Gab G IH]; intros J; [destruct J|]. destruct J as [J|J]; [injection J as -> ->; tauto|apply IH; exact J]. }
    exact (X _ _ F I).
  - assert (Lr : (List.length r <= List.length (tail_text r))%nat).
    { clear. induction r as [|x r IH]; [cbn; lia|]. change (tail_text (x :: r)) with ((comma :: fst (fst x) ++ equals :: snd (fst x)) ++ tail_text r). rewrite app_length. cbn [List.length]. lia. }
    assert (Lb : (List.length (tail_text r) < List.length body)%nat) by (unfold body; rewrite app_length; cbn [List.length]; rewrite !app_length; lia).
    clearbody body hd r. rewrite app_length. cbn [List.length]. rewrite app_length. cbn [List.length]. unfold raw, text in *. lia.
Qed.

Lemma find_parameters_none : forall d c, definition_ok d -> d_params d = [] -> is_ws c = true ->
  find_parameters (Some (unquote (definition_text d ++ [c]))) = Ok (d_type d, []).
Proof.
  intros d c H E W. rewrite unquote_app, (definition_unquoted d H), E. change (unquote (List.concat (map (fun p => T "," ++ parameter_text p) []))) with (@nil ascii). rewrite app_nil_r.
  assert (Uc : unquote [c] = [c]).
  { apply unquote_id; intros [I|[]]; subst c; discriminate. } rewrite Uc.
  set (hd := d_before d ++ d_type d ++ d_after d). replace (head_text d ++ [c]) with (d_name d ++ colon :: hd ++ [c]) by (unfold head_text; fold hd; rewrite <- app_assoc; reflexivity).
  assert (Nx : forall x, separator x -> is_ws x = false -> ~ In x (hd ++ [c])).
  { intros x S Wx I. apply in_app_iff in I. destruct I as [I|[I|[]]]; [revert I; apply head_chars; assumption|congruence]. }
  assert (Nn : forall x, separator x -> is_ws x = false -> x <> colon -> ~ In x (d_name d ++ colon :: hd ++ [c])).
  { intros x S Wx Nc I. apply in_app_iff in I. destruct I as [I|[I|I]]; [|congruence|exact (Nx x S Wx I)]. revert I. destruct H as (Hn & _). apply identifier_no; assumption. }
  unfold find_parameters. rewrite find1_rev by (apply Nx; [apply sep_in; cbn; tauto|reflexivity]).
  rewrite (find1_none comma) by (apply Nn; [apply sep_in; cbn; tauto|reflexivity|discriminate]). cbn [upto after].
  replace (removelast (d_name d ++ colon :: hd ++ [c])) with (d_name d ++ colon :: hd).
  2:{ replace (d_name d ++ colon :: hd ++ [c]) with ((d_name d ++ colon :: hd) ++ [c]) by (rewrite <- app_assoc; reflexivity). symmetry. apply removelast_last. }
  replace (skipn _ (d_name d ++ colon :: hd)) with hd.
  2:{ symmetry. replace (d_name d ++ colon :: hd) with ((d_name d ++ [colon]) ++ hd) at 1 by (rewrite <- app_assoc; reflexivity).
      replace (List.length (d_name d ++ colon :: hd ++ [c]) - (List.length (hd ++ [c]) + 1) + 1)%nat with (List.length (d_name d ++ [colon])) by (rewrite !app_length; cbn [List.length]; rewrite !app_length; cbn; lia). apply skipn_exact. }
  replace (trim hd) with (d_type d) by (symmetry; apply type_trim; exact H). cbn [Nat.sub skipn].
  assert (L : forall fuel s, ~ In equals s -> param_loop (S fuel) [] s = Ok []) by (intros fuel s Ns; cbn [param_loop]; rewrite partition1_none by exact Ns; reflexivity).
  rewrite L by (apply Nn; [apply sep_in; cbn; tauto|reflexivity|discriminate]). reflexivity.
Qed.

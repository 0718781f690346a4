From Coq Require Import List Reals Bool Arith String Ascii ZArith Lia Lra DecimalString DecimalNat.
From Verif Require Import PyBase PyDict PyText Line_Model Line_Spec Line_Proofs Lte_Model Lte_Spec Lte_Proofs Lte_Proofs2 Trace_Model Trace_Spec.
Import ListNotations.
Open Scope R_scope.

(* ---------------- numbers in a line ---------------- *)
Lemma span_digits_app : forall d s, forallb is_digit d = true -> (forall c r, s = c :: r -> is_digit c = false) -> span_digits (d ++ s) = (d, s).
Proof.
  induction d as [|c d IH]; intros s F N; cbn [app].
  - destruct s as [|c s]; [reflexivity|]. cbn. rewrite (N c s eq_refl). reflexivity.
  - cbn in F. apply andb_true_iff in F. destruct F as [F1 F2]. cbn. rewrite F1. rewrite (IH s F2 N). reflexivity.
Qed.
(** a character at which no number starts *)
Definition dull (c : ascii) : bool := negb (is_digit c) && negb (is_sign c) && negb (Ascii.eqb c ".").
Lemma match_dull : forall c s, dull c = true -> number_match (c :: s) = None.
Proof.
  intros c s D. unfold dull in D. apply andb_true_iff in D. destruct D as [D D3]. apply andb_true_iff in D. destruct D as [D1 D2].
  apply negb_true_iff in D1, D2, D3. unfold number_match, fraction_match. rewrite D2. cbn. rewrite D1. rewrite D3. reflexivity.
Qed.
Lemma findall_dull : forall s r, forallb dull s = true -> findall 0 (s ++ r) = findall 0 r.
Proof.
  induction s as [|c s IH]; intros r D; [reflexivity|]. cbn in D. apply andb_true_iff in D. destruct D as [D1 D2].
  change ((c :: s) ++ r) with (c :: s ++ r). cbn [findall]. rewrite match_dull by exact D1. apply IH. exact D2.
Qed.
Lemma findall_skip : forall m r, findall (List.length m) (m ++ r) = findall 0 r.
Proof. induction m as [|c m IH]; intros r; [reflexivity|]. cbn. apply IH. Qed.
Lemma findall_match : forall m r, m <> [] -> number_match (m ++ r) = Some m -> findall 0 (m ++ r) = m :: findall 0 r.
Proof.
  intros [|c m] r N H; [contradiction|]. change ((c :: m) ++ r) with (c :: m ++ r) in *. cbn [findall]. rewrite H. cbn [List.length].
  replace (S (List.length m) - 1)%nat with (List.length m) by lia. rewrite findall_skip. reflexivity.
Qed.
Lemma ws_dull : forall c, is_ws c = true -> dull c = true.
Proof.
  intros c H. assert (G : (negb (is_ws c) || dull c)%bool = true) by (revert c H; intros c _; revert c; apply char_check; vm_compute; reflexivity).
  rewrite H in G. exact G.
Qed.
Lemma blank_dull : forall s, blank s = true -> forallb dull s = true.
Proof. intros s H. unfold blank in H. rewrite forallb_forall in *. intros c I. apply ws_dull. apply H. exact I. Qed.

(** The number that the code takes a literal for *)
Definition seen (l : literal) : literal :=
  match frac_digits l with
  | [] => {| l_sign := None; l_int := l_int l; l_frac := None; l_exp := None |}
  | f => {| l_sign := l_sign l; l_int := l_int l; l_frac := Some f; l_exp := None |}
  end.
Lemma seen_ok : forall l, fixed_point l -> literal_ok (seen l).
Proof.
  intros l [(A & B & C & _) E]. unfold seen, literal_ok, frac_digits in *. destruct (l_frac l) as [[|k f]|]; cbn in *.
  - refine (conj A (conj _ (conj C I))). intros k [].
  - exact (conj A (conj B (conj C I))).
  - refine (conj A (conj _ (conj C I))). intros k [].
Qed.
Lemma seen_value : forall l, plain_number l -> literal_value (seen l) = literal_value l.
Proof.
  intros l [[_ E] S]. unfold seen, literal_value. destruct (frac_digits l) as [|k f] eqn:F.
  - rewrite E. cbn. unfold frac_digits. cbn. destruct (l_sign l) as [[|]|]; [exfalso; apply S; reflexivity| |]; cbn; reflexivity.
  - rewrite E. reflexivity.
Qed.
(** behind a number: the end, or a character that does not go on with it *)
Definition ends (s : text) : Prop := forall c r, s = c :: r -> dull c = true.
Lemma ends_digit : forall s, ends s -> forall c r, s = c :: r -> is_digit c = false.
Proof. intros s H c r E. apply H in E. unfold dull in E. destruct (is_digit c); [discriminate|reflexivity]. Qed.
Lemma digit_not_sign : forall c, is_digit c = true -> is_sign c = false.
Proof. intros c H. destruct (digit_not c H) as (_ & _ & A & B). unfold is_sign. apply orb_false_iff. split; apply Ascii.eqb_neq; assumption. Qed.
Definition no_sign (s : text) : Prop := forall c r, s = c :: r -> is_sign c = false.
Lemma fraction_sign : forall sg s, no_sign s -> fraction_match (sign_text sg ++ s) =
  (let (i, r) := span_digits s in
   match r with c :: r => if Ascii.eqb c "." then match fst (span_digits r) with [] => None | f => Some (sign_text sg ++ i ++ c :: f) end else None | [] => None end).
Proof.
  intros sg s N. unfold fraction_match. destruct sg as [[|]|]; cbn [sign_text app T list_ascii_of_string]; [reflexivity|reflexivity|].
  destruct s as [|c s]; [reflexivity|]. rewrite (N c s eq_refl). reflexivity.
Qed.
Lemma digits_no_sign : forall i s, digits_ok i -> no_sign s -> no_sign (map digit_char i ++ s).
Proof.
  intros [|k i] s D N c r E; [exact (N c r E)|]. injection E as <- _. apply digit_not_sign. apply digit_char_facts. apply D. left; reflexivity.
Qed.
Lemma dot_no_sign : forall s, no_sign ("."%char :: s).
Proof. intros s c r E. injection E as <- _. reflexivity. Qed.
Lemma ends_no_sign : forall s, ends s -> no_sign s.
Proof. intros s H c r E. apply H in E. unfold dull in E. destruct (is_sign c); [|reflexivity]. rewrite andb_false_r in E. discriminate. Qed.

Lemma fraction_here : forall sg i k f r, digits_ok i -> digits_ok (k :: f) -> ends r ->
  let m := sign_text sg ++ map digit_char i ++ "."%char :: map digit_char (k :: f) in
  number_match (m ++ r) = Some m.
Proof.
  intros sg i k f r Di Df E m. unfold m, number_match. rewrite <- !app_assoc. cbn [app].
  rewrite fraction_sign by (apply digits_no_sign; [exact Di|apply dot_no_sign]).
  rewrite span_digits_app; [|apply digits_chars; exact Di|intros c s X; injection X as <- _; reflexivity].
  cbn [Ascii.eqb]. rewrite span_digits_app; [|apply digits_chars; exact Df|apply ends_digit; exact E].
  reflexivity.
Qed.
Lemma integer_here : forall k i r, digits_ok (k :: i) -> (ends r \/ exists r', r = "."%char :: r' /\ ends r') ->
  number_match (map digit_char (k :: i) ++ r) = Some (map digit_char (k :: i)).
Proof.
  intros k i r D E.
  assert (Nd : forall c s, r = c :: s -> is_digit c = false).
  { destruct E as [E|(r' & -> & _)]; [apply ends_digit; exact E|intros c s X; injection X as <- _; reflexivity]. }
  assert (Ns : no_sign r) by (destruct E as [E|(r' & -> & _)]; [apply ends_no_sign; exact E|apply dot_no_sign]).
  unfold number_match. change (map digit_char (k :: i) ++ r) with (sign_text None ++ (map digit_char (k :: i) ++ r)) at 1.
  rewrite fraction_sign by (apply digits_no_sign; assumption).
  rewrite span_digits_app by (try apply digits_chars; assumption).
  cbn [fst]. destruct E as [E|(r' & -> & E')].
  - destruct r as [|c r]; [reflexivity|]. destruct (Ascii.eqb_spec c ".") as [->|N]; [|reflexivity]. specialize (E _ _ eq_refl). discriminate E.
  - cbn [Ascii.eqb]. pose proof (span_digits_app [] r' eq_refl (ends_digit _ E')) as Z; cbn [app] in Z; rewrite Z. reflexivity.
Qed.
Lemma sign_nothing : forall sg k i r, digits_ok (k :: i) -> (ends r \/ exists r', r = "."%char :: r' /\ ends r') ->
  findall 0 (sign_text sg ++ map digit_char (k :: i) ++ r) = map digit_char (k :: i) :: findall 0 r.
Proof.
  intros sg k i r D E. pose proof (integer_here k i r D E) as M.
  assert (X : findall 0 (map digit_char (k :: i) ++ r) = map digit_char (k :: i) :: findall 0 r) by (apply findall_match; [discriminate|exact M]).
  destruct sg as [b|]; [|exact X].
  assert (Y : number_match (sign_text (Some b) ++ map digit_char (k :: i) ++ r) = None).
  { unfold number_match.
    assert (Ns : no_sign r) by (destruct E as [E|(r' & -> & _)]; [apply ends_no_sign; exact E|apply dot_no_sign]).
    rewrite fraction_sign by (apply digits_no_sign; assumption).
    assert (Nd : forall c s, r = c :: s -> is_digit c = false).
    { destruct E as [E|(r' & -> & _)]; [apply ends_digit; exact E|intros c s Z; injection Z as <- _; reflexivity]. }
    rewrite span_digits_app by (try apply digits_chars; assumption).
    assert (S0 : fst (span_digits (sign_text (Some b) ++ map digit_char (k :: i) ++ r)) = []) by (destruct b; reflexivity).
    rewrite S0. destruct E as [E|(r' & -> & E')].
    - destruct r as [|c r]; [reflexivity|]. destruct (Ascii.eqb_spec c ".") as [->|N]; [|reflexivity]. specialize (E _ _ eq_refl). discriminate E.
    - cbn [Ascii.eqb]. pose proof (span_digits_app [] r' eq_refl (ends_digit _ E')) as Z; cbn [app] in Z; rewrite Z. reflexivity. }
  destruct b; cbn [sign_text T list_ascii_of_string app] in *; cbn [findall]; rewrite Y; exact X.
Qed.

Lemma dot_nothing : forall r, ends r -> findall 0 ("."%char :: r) = findall 0 r.
Proof.
  intros r E. cbn [findall].
  assert (X : number_match ("."%char :: r) = None).
  { unfold number_match. change ("."%char :: r) with (sign_text None ++ "."%char :: r) at 1. rewrite fraction_sign by apply dot_no_sign.
    change (span_digits ("."%char :: r)) with (@nil ascii, "."%char :: r). cbn [Ascii.eqb].
    pose proof (span_digits_app [] r eq_refl (ends_digit _ E)) as Z; cbn [app] in Z; rewrite Z. reflexivity. }
  rewrite X. reflexivity.
Qed.

Lemma findall_literal : forall l r, fixed_point l -> ends r -> findall 0 (literal_text l ++ r) = literal_text (seen l) :: findall 0 r.
Proof.
  intros l r [(A & B & C & _) E] N. unfold literal_text at 1. rewrite E. unfold seen, frac_digits in *.
  destruct (l_frac l) as [[|k f]|]; cbn [l_sign l_int l_frac l_exp].
  - destruct (l_int l) as [|k i]; [exfalso; apply C; reflexivity|]. rewrite <- !app_assoc.
    rewrite sign_nothing; [|exact A|right; exists r; split; [reflexivity|exact N]].
    unfold literal_text. cbn [l_sign l_int l_frac l_exp sign_text app]. rewrite !app_nil_r. f_equal.
    apply dot_nothing. exact N.
  - unfold literal_text. cbn [l_sign l_int l_frac l_exp]. rewrite app_nil_r. apply findall_match.
    + destruct (l_sign l) as [[|]|]; try discriminate. destruct (l_int l); discriminate.
    + apply fraction_here; assumption.
  - destruct (l_int l) as [|k i]; [exfalso; apply C; reflexivity|]. cbn [app]. rewrite !app_nil_r. rewrite <- app_assoc.
    rewrite sign_nothing; [|exact A|left; exact N].
    unfold literal_text. cbn [l_sign l_int l_frac l_exp sign_text app]. rewrite !app_nil_r. reflexivity.
Qed.

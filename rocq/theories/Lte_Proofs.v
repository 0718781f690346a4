(** Lemmas about parse_rpn. *)
From Coq Require Import List Reals Bool Arith String Ascii ZArith Lia Lra Psatz.
From Verif Require Import PyBase PyDict PyText Line_Model Lte_Model Lte_Spec Line_Proofs.
Import ListNotations.
Open Scope R_scope.

Lemma char_check : forall (P : ascii -> bool), forallb P all_chars = true -> forall c, P c = true.
Proof. intros P H c. rewrite forallb_forall in H. apply H. apply all_chars_in. Qed.

Lemma digit_char_facts : forall k, (k < 10)%nat -> is_digit (digit_char k) = true /\ digit_value (digit_char k) = Z.of_nat k.
Proof. intros k H. do 10 (destruct k as [|k]; [split; reflexivity|]). lia. Qed.

(** the characters of a number *)
Definition lit_char (c : ascii) : bool :=
  is_digit c || Ascii.eqb c "." || Ascii.eqb c "e" || Ascii.eqb c "+" || Ascii.eqb c "-".
Lemma lit_char_facts : forall c, lit_char c = true ->
  is_ws c = false /\ low c = c /\ c <> quote /\ c <> apostrophe /\ c <> "p"%char /\ c <> space.
Proof.
  intros c H.
  assert (G : (negb (lit_char c) || (negb (is_ws c) && Ascii.eqb (low c) c && negb (Ascii.eqb c quote) && negb (Ascii.eqb c apostrophe) && negb (Ascii.eqb c "p") && negb (Ascii.eqb c space)))%bool = true).
  { revert c H. intros c _. revert c. apply char_check. vm_compute. reflexivity. }
  rewrite H in G. cbn in G. repeat (apply andb_true_iff in G; destruct G as [G ?]).
  repeat match goal with X : negb _ = true |- _ => apply negb_true_iff in X end.
  repeat match goal with X : Ascii.eqb _ _ = false |- _ => apply Ascii.eqb_neq in X end.
  match goal with X : Ascii.eqb _ _ = true |- _ => apply Ascii.eqb_eq in X end.
  repeat split; assumption.
Qed.
Lemma digit_is_lit : forall c, is_digit c = true -> lit_char c = true.
Proof. intros c H. unfold lit_char. rewrite H. reflexivity. Qed.
Lemma digit_not : forall c, is_digit c = true -> c <> "e"%char /\ c <> "."%char /\ c <> "+"%char /\ c <> "-"%char.
Proof. intros c H. repeat split; intros ->; discriminate H. Qed.

Lemma digits_chars : forall d, digits_ok d -> forallb is_digit (map digit_char d) = true.
Proof.
  intros d H. apply forallb_forall. intros c I. apply in_map_iff in I. destruct I as (k & <- & I). apply digit_char_facts. apply H; exact I.
Qed.
Lemma digits_value_decimal : forall d acc, digits_ok d -> IZR (digits_value acc (map digit_char d)) = IZR acc * 10 ^ List.length d + decimal d.
Proof.
  induction d as [|k d IH]; intros acc H; cbn [map digits_value decimal List.length]; [cbn; lra|].
  rewrite IH by (intros x I; apply H; right; exact I).
  destruct (digit_char_facts k) as [_ ->]; [apply H; left; reflexivity|].
  rewrite plus_IZR, mult_IZR, <- INR_IZR_INZ. cbn [pow]. ring.
Qed.
Lemma ten_pow : forall n, IZR (10 ^ Z.of_nat n) = 10 ^ n.
Proof. intros n. rewrite pow_IZR. reflexivity. Qed.
Lemma ten_pos : forall n, 0 < 10 ^ n.
Proof. intros n. apply pow_lt. lra. Qed.

Lemma all_not_in : forall (P : ascii -> bool) s c, forallb P s = true -> P c = false -> ~ In c s.
Proof. intros P s c H N I. rewrite forallb_forall in H. rewrite (H _ I) in N. discriminate. Qed.

Lemma mantissa_ok : forall i f, digits_ok i -> digits_ok (match f with Some x => x | None => [] end) ->
  (i ++ match f with Some x => x | None => [] end) <> [] ->
  mantissa_of (map digit_char i ++ match f with Some x => T "." ++ map digit_char x | None => [] end) =
  Some (decimal i + decimal (match f with Some x => x | None => [] end) / 10 ^ List.length (match f with Some x => x | None => [] end)).
Proof.
  intros i f Hi Hf N. unfold mantissa_of.
  assert (Ni : ~ In "."%char (map digit_char i)) by (apply (all_not_in is_digit); [apply digits_chars; exact Hi|reflexivity]).
  destruct f as [x|].
  - change (T "." ++ map digit_char x) with ("."%char :: map digit_char x). rewrite partition1_app by exact Ni.
    rewrite !digits_chars by assumption. cbn [andb].
    replace (negb match map digit_char i with [] => match map digit_char x with [] => true | _ :: _ => false end | _ :: _ => false end) with true
      by (destruct i, x; cbn; try reflexivity; exfalso; apply N; reflexivity).
    f_equal. rewrite !digits_value_decimal by assumption. rewrite ten_pow, map_length. pose proof (ten_pos (List.length x)).
    rewrite Rmult_0_l. field. lra.
  - rewrite app_nil_r. rewrite app_nil_r in N. rewrite partition1_none by exact Ni. rewrite digits_chars by assumption. cbn [andb forallb].
    destruct i as [|k i]; [contradiction|]. cbn [map negb]. cbn [digits_value List.length]. f_equal.
    change (digits_value (10 * 0 + digit_value (digit_char k)) (map digit_char i)) with (digits_value 0 (map digit_char (k :: i))).
    rewrite digits_value_decimal by assumption. cbn [decimal pow]. rewrite ten_pow. cbn [pow]. field.
Qed.

Lemma sign_of_digits : forall s, (forall c r, s = c :: r -> c <> "-"%char /\ c <> "+"%char) -> sign_of s = (1%Z, s).
Proof.
  intros [|c r] H; [reflexivity|]. destruct (H c r eq_refl) as [A B]. unfold sign_of.
  destruct (Ascii.eqb_spec c "-"); [contradiction|]. destruct (Ascii.eqb_spec c "+"); [contradiction|]. reflexivity.
Qed.
Lemma sign_of_sign : forall sg s, (forall c r, s = c :: r -> c <> "-"%char /\ c <> "+"%char) ->
  sign_of (sign_text sg ++ s) = (match sg with Some true => (-1)%Z | _ => 1%Z end, s).
Proof. intros [[|]|] s H; cbn [sign_text app]; [reflexivity|reflexivity|]. apply sign_of_digits. exact H. Qed.

Lemma exponent_ok : forall sg d, digits_ok d -> d <> [] ->
  exponent_of (sign_text sg ++ map digit_char d) true =
  Some ((match sg with Some true => (-1) | _ => 1 end) * digits_value 0 (map digit_char d))%Z.
Proof.
  intros sg d H N. unfold exponent_of. rewrite sign_of_sign.
  - unfold int_of. destruct d as [|k d]; [contradiction|]. cbn [map]. change (digit_char k :: map digit_char d) with (map digit_char (k :: d)).
    rewrite digits_chars by exact H. reflexivity.
  - intros c r E. assert (D : is_digit c = true).
    { pose proof (digits_chars d H) as F. rewrite E in F. cbn in F. apply andb_true_iff in F. tauto. }
    apply digit_not in D. tauto.
Qed.

Definition mant_text (l : literal) : text := map digit_char (l_int l) ++ match l_frac l with Some f => T "." ++ map digit_char f | None => [] end.
Definition exp_text (l : literal) : text := match l_exp l with Some (s, d) => T "e" ++ sign_text s ++ map digit_char d | None => [] end.
Lemma literal_text_eq : forall l, literal_text l = sign_text (l_sign l) ++ mant_text l ++ exp_text l.
Proof. intros l. unfold literal_text, mant_text, exp_text. rewrite app_assoc. rewrite <- !app_assoc. reflexivity. Qed.

Lemma lit_sign : forall s, forallb lit_char (sign_text s) = true.
Proof. intros [[|]|]; reflexivity. Qed.
Lemma lit_digits : forall d, digits_ok d -> forallb lit_char (map digit_char d) = true.
Proof. intros d H. pose proof (digits_chars d H) as F. rewrite forallb_forall in *. intros c I. apply digit_is_lit. apply F; exact I. Qed.
Lemma lit_text : forall l, literal_ok l -> forallb lit_char (literal_text l) = true.
Proof.
  intros l (A & B & _ & C). unfold literal_text, frac_digits in *. rewrite !forallb_app, lit_sign. rewrite lit_digits by exact A. cbn [andb].
  apply andb_true_iff. split.
  - destruct (l_frac l); [|reflexivity]. rewrite forallb_app, lit_digits by exact B. reflexivity.
  - destruct (l_exp l) as [[s d]|]; [|reflexivity]. rewrite !forallb_app, lit_sign, lit_digits by tauto. reflexivity.
Qed.

Lemma tight_all : forall s, (forall c, In c s -> is_ws c = false) -> tight s.
Proof.
  intros s H. split.
  - intros c r ->. apply H. left; reflexivity.
  - intros r c ->. apply H. apply in_app_iff. right; left; reflexivity.
Qed.

Lemma lowert_lit : forall s, forallb lit_char s = true -> lowert s = s.
Proof.
  intros s H. unfold lowert. rewrite <- (map_id s) at 2. apply map_ext_in. intros c I. rewrite forallb_forall in H. apply lit_char_facts. apply H; exact I.
Qed.

Lemma mant_chars : forall l, literal_ok l -> ~ In "e"%char (mant_text l).
Proof.
  intros l (A & B & _ & _) I. unfold mant_text, frac_digits in *. apply in_app_iff in I. destruct I as [I|I].
  - revert I. apply (all_not_in is_digit); [apply digits_chars; exact A|reflexivity].
  - destruct (l_frac l) as [f|]; [|exact I]. apply in_app_iff in I. destruct I as [I|I]; [destruct I as [I|[]]; discriminate|].
    revert I. apply (all_not_in is_digit); [apply digits_chars; exact B|reflexivity].
Qed.

Lemma py_float_literal : forall l, literal_ok l -> py_float (literal_text l) = Some (literal_value l).
Proof.
  intros l H. pose proof (lit_text l H) as L.
  assert (Tt : trim (literal_text l) = literal_text l).
  { apply trim_tight, tight_all. intros c I. rewrite forallb_forall in L. apply lit_char_facts. apply L; exact I. }
  unfold py_float. rewrite Tt, literal_text_eq.
  assert (M : forallb lit_char (mant_text l ++ exp_text l) = true).
  { rewrite literal_text_eq, forallb_app in L. apply andb_true_iff in L. tauto. }
  pose proof (mant_chars l H) as Nm. destruct H as (A & B & C & D).
  rewrite sign_of_sign.
  2:{ intros c r E. unfold mant_text in E. destruct (l_int l) as [|k i].
      - destruct (l_frac l) as [f|] eqn:F; [|exfalso; apply C; unfold frac_digits; rewrite F; reflexivity].
        cbn [map app T list_ascii_of_string] in E. injection E as <- _. split; discriminate.
      - cbn [map app] in E. injection E as <- _. destruct (digit_char_facts k) as [X _]; [apply A; left; reflexivity|]. apply digit_not in X. tauto. }
  rewrite lowert_lit by exact M.
  assert (P : partition1 "e" (mant_text l ++ exp_text l) =
    match l_exp l with Some (s, d) => (mant_text l, true, sign_text s ++ map digit_char d) | None => (mant_text l, false, []) end).
  { unfold exp_text. destruct (l_exp l) as [[s d]|].
    - change (T "e" ++ sign_text s ++ map digit_char d) with ("e"%char :: sign_text s ++ map digit_char d). apply partition1_app. exact Nm.
    - rewrite app_nil_r. apply partition1_none. exact Nm. }
  rewrite P. clear P.
  assert (Q : mantissa_of (mant_text l) = Some (decimal (l_int l) + decimal (frac_digits l) / 10 ^ List.length (frac_digits l))).
  { unfold mant_text. unfold frac_digits in *. apply mantissa_ok; assumption. }
  unfold literal_value.
  set (m := decimal (l_int l) + decimal (frac_digits l) / 10 ^ List.length (frac_digits l)) in *.
  assert (Sg : IZR (match l_sign l with Some true => (-1)%Z | _ => 1%Z end) * m = signed (l_sign l) m).
  { unfold signed. destruct (l_sign l) as [[|]|]; lra. }
  destruct (l_exp l) as [[s d]|]; rewrite Q.
  - destruct D as [D1 D2]. rewrite exponent_ok by assumption. rewrite <- Sg. f_equal. f_equal.
    rewrite powerRZ_Rpower by lra. rewrite mult_IZR, digits_value_decimal by exact D1. rewrite Rmult_0_l, Rplus_0_l.
    unfold scale. destruct s as [[|]|]; f_equal; lra.
  - cbn [exponent_of]. rewrite <- Sg. reflexivity.
Qed.

Lemma occurs_head : forall c p s, ~ In c s -> occurs (c :: p) s = false.
Proof.
  induction s as [|d s IH]; intros H; [reflexivity|]. change (occurs (c :: p) (d :: s)) with (prefixb (c :: p) (d :: s) || occurs (c :: p) s)%bool.
  rewrite IH by (intros I; apply H; right; exact I). cbn. destruct (Ascii.eqb_spec c d) as [->|N]; [exfalso; apply H; left; reflexivity|reflexivity].
Qed.
Lemma clean_lit : forall s, forallb lit_char s = true -> clean s = s.
Proof.
  intros s H. rewrite forallb_forall in H. unfold clean.
  rewrite (remove1_id quote) by (intros I; apply H in I; apply lit_char_facts in I; tauto).
  rewrite (remove1_id apostrophe) by (intros I; apply H in I; apply lit_char_facts in I; tauto).
  rewrite replace_none.
  - apply trim_tight, tight_all. intros c I. apply lit_char_facts. apply H; exact I.
  - apply occurs_head. intros I; apply H in I; apply lit_char_facts in I; tauto.
Qed.

Lemma classify_digit : forall v, existsb is_digit v = true ->
  classify v = match py_float v with Some r => TNum r | None => TBad end.
Proof.
  intros v H. unfold classify.
  repeat match goal with |- context [if teqb v ?w then _ else _] =>
    let E := fresh in destruct (teqb v w) eqn:E; [apply teqb_eq in E; subst v; discriminate H|clear E] end.
  destruct v; [discriminate H|reflexivity].
Qed.
Lemma literal_digit : forall l, literal_ok l -> existsb is_digit (literal_text l) = true.
Proof.
  intros l (A & B & C & _). apply existsb_exists. unfold literal_text, frac_digits in *.
  destruct (l_int l) as [|k i].
  - destruct (l_frac l) as [[|k f]|]; try (exfalso; apply C; reflexivity). exists (digit_char k). split.
    + apply in_app_iff. right. right. left. reflexivity.
    + apply digit_char_facts. apply B. left; reflexivity.
  - exists (digit_char k). split.
    + apply in_app_iff. right. left. reflexivity.
    + apply digit_char_facts. apply A. left; reflexivity.
Qed.

(** The words of a text. *)
Definition token_of (w : word) : token :=
  match w with
  | WConst l => TNum (literal_value l)
  | WPi => TNum pi_value
  | WBinary Minus => TOp Sub | WBinary Plus => TOp Add | WBinary Times => TOp Mul | WBinary TimesWord => TOp Mul | WBinary Over => TOp Div
  | WRoot => TSqrt
  end.
Definition pi_literal : literal :=
  {| l_sign := None; l_int := [3%nat]; l_frac := Some [1;4;1;5;9;2;6;5;3;5;8;9;7;9;3]%nat; l_exp := None |}.
Lemma pi_text_value : py_float pi_text = Some pi_value.
Proof.
  change pi_text with (literal_text pi_literal). rewrite py_float_literal.
  - f_equal. unfold literal_value, pi_literal, pi_value. cbn -[IZR pow INR Rmult Rplus Rdiv].
    cbn [INR pow]. lra.
  - assert (D : forall d, forallb (fun k => k <? 10)%nat d = true -> digits_ok d).
    { intros d F k I. rewrite forallb_forall in F. apply Nat.ltb_lt. apply F; exact I. }
    split; [apply D; reflexivity|split; [apply D; reflexivity|split; [discriminate|exact I]]].
Qed.
Lemma clean_word : forall w, word_ok w -> clean (word_text w) = match w with WPi => pi_text | _ => word_text w end.
Proof.
  intros [l| |o|] H; cbn [word_text].
  - apply clean_lit. apply lit_text. exact H.
  - reflexivity.
  - destruct o; reflexivity.
  - reflexivity.
Qed.
Lemma classify_word : forall w, word_ok w -> classify (clean (word_text w)) = token_of w.
Proof.
  intros w H. rewrite clean_word by exact H. destruct w as [l| |o|]; cbn [word_text token_of].
  - rewrite classify_digit by (apply literal_digit; exact H). rewrite py_float_literal by exact H. reflexivity.
  - rewrite classify_digit by reflexivity. rewrite pi_text_value. reflexivity.
  - destruct o; reflexivity.
  - reflexivity.
Qed.

Fixpoint wordlist (e : expr) : list word :=
  match e with
  | Const l => [WConst l] | ConstPi => [WPi]
  | Binary o a b => wordlist a ++ wordlist b ++ [WBinary o]
  | Root a => wordlist a ++ [WRoot]
  end.
Lemma words_wordlist : forall e, words e = map word_text (wordlist e).
Proof. induction e; cbn; rewrite ?map_app; cbn; try reflexivity; congruence. Qed.
Lemma wordlist_ok : forall e, expr_ok e -> Forall word_ok (wordlist e).
Proof.
  induction e; cbn; intros H.
  - constructor; [exact H|constructor].
  - constructor; [exact I|constructor].
  - destruct H as [H1 H2]. apply Forall_app; split; [auto|]. apply Forall_app; split; [auto|]. constructor; [exact I|constructor].
  - apply Forall_app; split; [auto|]. constructor; [exact I|constructor].
Qed.

(** The machine on words. *)
Definition tok_step (stack : list num) (t : token) : res (list num) :=
  match t with
  | TOp o => match stack with a :: b :: st => do r <- arith o b a; Ok (r :: st) | _ => Err IndexError end
  | TSqrt => match stack with a :: st => Ok (NF (match real_of a with Some x => nsqrt x | None => None end) :: st) | [] => Err IndexError end
  | TNum r => Ok (PF r :: stack)
  | TSkip => Ok stack
  | TBad => Err ValueError
  end.
Fixpoint tok_loop (stack : list num) (ts : list token) : res (list num) :=
  match ts with [] => Ok stack | t :: r => do st <- tok_step stack t; tok_loop st r end.
Lemma rpn_tok : forall vs st, rpn_loop st vs = tok_loop st (map (fun v => classify (clean v)) vs).
Proof. induction vs as [|v vs IH]; intros st; [reflexivity|]. cbn [rpn_loop map tok_loop]. change (rpn_step st v) with (tok_step st (classify (clean v))). destruct (tok_step st (classify (clean v))); cbn; auto. Qed.
Lemma tok_loop_app : forall a b st, tok_loop st (a ++ b) = do s <- tok_loop st a; tok_loop s b.
Proof. induction a as [|t a IH]; intros b st; [reflexivity|]. cbn [app tok_loop]. destruct (tok_step st t); cbn; auto. Qed.
Lemma tok_skip : forall ts st, tok_loop st (filter (fun t => match t with TSkip => false | _ => true end) ts) = tok_loop st ts.
Proof. induction ts as [|t ts IH]; intros st; [reflexivity|]. destruct t; cbn [filter tok_loop tok_step rbind]; try (destruct (tok_step st _); cbn; auto); auto.
  - destruct st as [|a [|b st]]; cbn; auto. destruct (arith o b a); cbn; auto.
  - destruct st as [|a st]; cbn; auto.
Qed.

(** The value of an expression as the code computes it. *)
Definition op_of (o : binary) : op := match o with Minus => Sub | Plus => Add | Times | TimesWord => Mul | Over => Div end.
Fixpoint computed (e : expr) : res num :=
  match e with
  | Const l => Ok (PF (literal_value l))
  | ConstPi => Ok (PF pi_value)
  | Binary o a b => do x <- computed a; do y <- computed b; arith (op_of o) x y
  | Root a => do x <- computed a; Ok (NF (match real_of x with Some r => nsqrt r | None => None end))
  end.
Lemma token_op : forall o, token_of (WBinary o) = TOp (op_of o).
Proof. destruct o; reflexivity. Qed.
Lemma tok_expr : forall e st, tok_loop st (map token_of (wordlist e)) = do x <- computed e; Ok (x :: st).
Proof.
  induction e; intros st; cbn [wordlist map computed]; try reflexivity.
  - rewrite !map_app, !tok_loop_app. rewrite IHe1. destruct (computed e1) as [x| |]; cbn [rbind]; try reflexivity.
    rewrite tok_loop_app, IHe2. destruct (computed e2) as [y| |]; cbn [rbind]; try reflexivity.
    cbn [map]. rewrite token_op. cbn [tok_loop tok_step]. destruct (arith (op_of o) x y); reflexivity.
  - rewrite map_app, tok_loop_app, IHe. destruct (computed e) as [x| |]; cbn [rbind]; reflexivity.
Qed.
Lemma arith_value : forall o x y,
  (exists z, arith (op_of o) x y = Ok z /\ real_of z = match real_of x, real_of y with Some a, Some b => binary_value o a b | _, _ => None end) \/
  (arith (op_of o) x y = Err ZeroDivisionError /\ match real_of x, real_of y with Some a, Some b => binary_value o a b | _, _ => None end = None).
Proof.
  intros o x y. destruct o; cbn [op_of arith binary_value].
  1-4: left; eexists; split; [reflexivity|]; destruct x as [r|[r|]], y as [q|[q|]]; reflexivity.
  destruct x as [r|f], y as [q|g]; cbn [real_of].
  - destruct (Req_EM_T q 0); [right|left; eexists]; split; reflexivity.
  - left; eexists; split; [reflexivity|]. destruct g; reflexivity.
  - left; eexists; split; [reflexivity|]. destruct f; reflexivity.
  - left; eexists; split; [reflexivity|]. destruct f, g; reflexivity.
Qed.
Lemma computed_value : forall e,
  (exists x, computed e = Ok x /\ real_of x = expr_value e) \/ (computed e = Err ZeroDivisionError /\ expr_value e = None).
Proof.
  induction e as [l| |o a IHa b IHb|a IHa]; cbn [computed expr_value].
  - left. eexists. split; reflexivity.
  - left. eexists. split; reflexivity.
  - destruct IHa as [(x & -> & Hx)|[-> Hx]]; cbn [rbind]; [|right; split; [reflexivity|rewrite Hx; reflexivity]].
    destruct IHb as [(y & -> & Hy)|[-> Hy]]; cbn [rbind]; [|right; split; [reflexivity|rewrite Hy; destruct (expr_value a); reflexivity]].
    rewrite <- Hx, <- Hy. apply arith_value.
  - destruct IHa as [(x & -> & Hx)|[-> Hx]]; cbn [rbind]; [left|right; split; [reflexivity|rewrite Hx; reflexivity]].
    eexists. split; [reflexivity|]. rewrite <- Hx. cbn [real_of]. destruct (real_of x); reflexivity.
Qed.

(** From texts to words. *)
Lemma map_remove_split : forall c q s, c <> q -> split1 c (remove1 q s) = map (remove1 q) (split1 c s).
Proof.
  intros c q s N. induction s as [|d s IH]; [reflexivity|]. cbn [split1]. pose proof (split1_nonempty c s) as NE.
  destruct (split1 c s) as [|w ws] eqn:E; [contradiction|].
  destruct (Ascii.eqb_spec d c) as [->|Nd].
  - cbn [remove1 filter map]. destruct (Ascii.eqb_spec c q); [contradiction|]. cbn [negb]. cbn [split1]. fold (remove1 q s). rewrite IH. cbn [map]. rewrite Ascii.eqb_refl. reflexivity.
  - cbn [map]. unfold remove1 at 1. cbn [filter]. fold (remove1 q s). destruct (Ascii.eqb_spec d q) as [->|Nq]; cbn [negb].
    + rewrite IH. cbn [map]. f_equal. unfold remove1. cbn [filter]. rewrite Ascii.eqb_refl. reflexivity.
    + cbn [split1]. rewrite IH. cbn [map]. destruct (Ascii.eqb_spec d c); [contradiction|]. f_equal. unfold remove1. cbn [filter].
      destruct (Ascii.eqb_spec d q); [contradiction|]. reflexivity.
Qed.
Lemma remove1_idem : forall c s, remove1 c (remove1 c s) = remove1 c s.
Proof. intros c s. apply remove1_id. apply remove1_not_in. Qed.
Lemma parse_rpn_unquoted : forall s, parse_rpn (remove1 quote s) = parse_rpn s.
Proof.
  intros s. unfold parse_rpn. rewrite map_remove_split by discriminate. rewrite !rpn_tok, map_map.
  replace (map (fun x => classify (clean (remove1 quote x))) (split1 space s)) with (map (fun v => classify (clean v)) (split1 space s)); [reflexivity|].
  apply map_ext. intros v. unfold clean. rewrite remove1_idem. reflexivity.
Qed.

Definition toks (s : text) : list token := filter (fun t => match t with TSkip => false | _ => true end) (map (fun v => classify (clean v)) (split1 space s)).
Lemma parse_rpn_toks : forall s, parse_rpn s = do st <- tok_loop [] (toks s); match st with [] => Err IndexError | a :: _ => Ok a end.
Proof. intros s. unfold parse_rpn, toks. rewrite rpn_tok, tok_skip. reflexivity. Qed.
Lemma split_blanks : forall n s, split1 space (blanks n ++ s) = List.repeat [] n ++ split1 space s.
Proof. induction n as [|n IH]; intros s; [reflexivity|]. cbn [blanks List.repeat app]. change (space :: List.repeat space n ++ s) with ([] ++ space :: (blanks n ++ s)). rewrite split1_cons by (intros []). rewrite IH. reflexivity. Qed.
Lemma toks_blanks : forall n s, toks (blanks n ++ s) = toks s.
Proof. intros n s. unfold toks. rewrite split_blanks, map_app, filter_app. induction n; [reflexivity|exact IHn]. Qed.
Lemma toks_word : forall w n s, ~ In space w -> toks (w ++ blanks (S n) ++ s) = toks w ++ toks s.
Proof.
  intros w n s H. rewrite <- (toks_blanks n s). change (w ++ blanks (S n) ++ s) with (w ++ space :: (blanks n ++ s)).
  unfold toks. rewrite split1_cons by exact H. rewrite (split1_none space w H). cbn [map filter].
  destruct (classify (clean w)); reflexivity.
Qed.

Lemma word_chars : forall w, word_ok w -> ~ In space (word_text w) /\ ~ In quote (word_text w).
Proof.
  intros w H. destruct w as [l| |o|]; cbn [word_text].
  - pose proof (lit_text l H) as L. rewrite forallb_forall in L. split; intros I; apply L in I; discriminate I.
  - split; intros I; cbn in I; intuition discriminate.
  - destruct o; split; intros I; cbn in I; intuition discriminate.
  - split; intros I; cbn in I; intuition discriminate.
Qed.
Lemma toks_one : forall w, word_ok w -> toks (word_text w) = [token_of w].
Proof.
  intros w H. unfold toks. rewrite split1_none by (apply word_chars; exact H). cbn [map]. rewrite classify_word by exact H.
  destruct w as [l| |[]|]; reflexivity.
Qed.
Lemma clean_newline : forall w, word_ok w -> clean (word_text w ++ [newline]) = clean (word_text w).
Proof.
  intros w H. destruct w as [l| |[]|]; try reflexivity. cbn [word_text]. pose proof (lit_text l H) as L.
  rewrite (clean_lit _ L). rewrite forallb_forall in L. unfold clean.
  assert (N : forall c, lit_char c = false -> c <> newline -> ~ In c (literal_text l ++ [newline])).
  { intros c F D I. apply in_app_iff in I. destruct I as [I|[I|[]]]; [rewrite (L _ I) in F; discriminate|congruence]. }
  rewrite (remove1_id quote) by (apply N; [reflexivity|discriminate]). rewrite (remove1_id apostrophe) by (apply N; [reflexivity|discriminate]).
  rewrite replace_none by (apply occurs_head; apply N; [reflexivity|discriminate]).
  change (literal_text l ++ [newline]) with ([] ++ literal_text l ++ [newline]). apply trim_pad; try reflexivity.
  apply tight_all. intros c I. apply lit_char_facts. apply L; exact I.
Qed.
Lemma toks_last : forall w m nl, word_ok w -> nl = [] \/ nl = [newline] -> toks (word_text w ++ blanks m ++ nl) = [token_of w].
Proof.
  intros w m nl H Hn. destruct m as [|m].
  - cbn [blanks List.repeat app]. destruct Hn as [->| ->]; [rewrite app_nil_r; apply toks_one; exact H|].
    unfold toks. rewrite split1_none.
    + cbn [map]. rewrite clean_newline by exact H. rewrite classify_word by exact H. destruct w as [l| |[]|]; reflexivity.
    + intros I. apply in_app_iff in I. destruct I as [I|[I|[]]]; [apply word_chars in I; auto|discriminate].
  - rewrite toks_word by (apply word_chars; exact H). rewrite toks_one by exact H. destruct Hn as [->| ->]; reflexivity.
Qed.
Lemma toks_spaced : forall ws s, Forall (fun w => exists v, word_ok v /\ fst w = word_text v) ws ->
  forall vs, map fst ws = map word_text vs -> Forall word_ok vs -> toks (spaced ws ++ s) = map token_of vs ++ toks s.
Proof.
  induction ws as [|[w n] ws IH]; intros s H vs E V; destruct vs as [|v vs]; try discriminate E; [reflexivity|].
  cbn [spaced map fst app] in *. injection E as -> E. inversion H as [|? ? H1 H2]; subst. inversion V as [|? ? V1 V2]; subst.
  rewrite <- !app_assoc. rewrite toks_word by (apply word_chars; exact V1). rewrite toks_one by exact V1. cbn [app]. f_equal. apply IH; assumption.
Qed.
Lemma plain_toks : forall n ws w m nl vs, nl = [] \/ nl = [newline] -> map fst ws ++ [w] = map word_text vs -> Forall word_ok vs ->
  toks (blanks n ++ spaced ws ++ w ++ blanks m ++ nl) = map token_of vs.
Proof.
  intros n ws w m nl vs Hn E V. rewrite toks_blanks.
  destruct vs as [|v0 vs0] using rev_ind; [destruct ws; discriminate E|]. clear IHvs0.
  rewrite map_app in E. cbn [map] in E. apply app_inj_tail in E. destruct E as [E ->]. apply Forall_app in V. destruct V as [V1 V2]. inversion V2; subst.
  rewrite (toks_spaced ws _) with (vs := vs0); try assumption.
  - rewrite toks_last by assumption. rewrite map_app. reflexivity.
  - apply Forall_forall. intros [u k] I. assert (J : In u (map word_text vs0)) by (rewrite <- E; apply in_map_iff; exists (u, k); split; auto).
    apply in_map_iff in J. destruct J as (v & <- & J). exists v. split; [|reflexivity]. rewrite Forall_forall in V1. apply V1; exact J.
Qed.
Lemma remove_clean : forall c s, ~ In c s -> remove1 c s = s.
Proof. intros; apply remove1_id; assumption. Qed.
Lemma spaced_chars : forall c ws, c <> space -> (forall w, In w ws -> ~ In c (fst w)) -> ~ In c (spaced ws).
Proof.
  induction ws as [|[w n] ws IH]; intros N H I; [exact I|]. cbn [spaced] in I. apply in_app_iff in I. destruct I as [I|I].
  - exact (H (w, n) (or_introl eq_refl) I).
  - apply in_app_iff in I. destruct I as [I|I]; [apply List.repeat_spec in I; congruence|]. apply IH; [exact N| |exact I]. intros x J. apply H. right; exact J.
Qed.
Lemma written_toks : forall ws s vs, written ws s -> ws = map word_text vs -> Forall word_ok vs ->
  parse_rpn s = do st <- tok_loop [] (map token_of vs); match st with [] => Err IndexError | a :: _ => Ok a end.
Proof.
  intros ws s vs H E V. destruct H as [n ws w m nl Hn|n ws w m nl Hn].
  - rewrite parse_rpn_toks. rewrite (plain_toks n ws w m nl vs Hn E V). reflexivity.
  - rewrite <- parse_rpn_unquoted.
    assert (Q : forall x, In x (map fst ws ++ [w]) -> ~ In quote x).
    { intros x I. rewrite E in I. apply in_map_iff in I. destruct I as (v & <- & I). apply word_chars. rewrite Forall_forall in V. apply V; exact I. }
    assert (B : forall k, ~ In quote (blanks k)) by (intros k I; apply List.repeat_spec in I; discriminate).
    rewrite !remove1_app. rewrite (remove_clean quote (blanks n)), (remove_clean quote (blanks m)) by apply B.
    rewrite (remove_clean quote w) by (apply Q; apply in_app_iff; right; left; reflexivity).
    rewrite (remove_clean quote (spaced ws)) by (apply spaced_chars; [discriminate|intros x I; apply Q; apply in_app_iff; left; apply in_map; exact I]).
    rewrite (remove_clean quote nl) by (destruct Hn as [->| ->]; intros I; cbn in I; intuition discriminate).
    change (remove1 quote dquote) with (@nil ascii). cbn [app].
    rewrite parse_rpn_toks. rewrite (plain_toks n ws w m nl vs Hn E V). reflexivity.
Qed.

Lemma tok_exprs : forall es st, Forall (fun e => expr_value e <> None) es ->
  exists st', tok_loop st (map token_of (flat_map wordlist es)) = Ok st'.
Proof.
  induction es as [|e es IH]; intros st H; [exists st; reflexivity|]. inversion H as [|? ? H1 H2]; subst. cbn [flat_map]. rewrite map_app, tok_loop_app, tok_expr.
  destruct (computed_value e) as [(x & -> & _)|[_ X]]; [|contradiction]. cbn [rbind]. apply IH. exact H2.
Qed.

(** Too few operands. *)
Lemma tok_depth : forall ws st, match depth (List.length st) ws with
  | None => exists x, tok_loop st (map token_of ws) = Err x
  | Some n => (exists st', tok_loop st (map token_of ws) = Ok st' /\ List.length st' = n) \/ tok_loop st (map token_of ws) = Err ZeroDivisionError
  end.
Proof.
  induction ws as [|w ws IH]; intros st; cbn [depth map tok_loop].
  - left. exists st. split; reflexivity.
  - destruct w as [l| |o|]; cbn [depth_step].
    + cbn [token_of tok_step rbind]. apply (IH (PF (literal_value l) :: st)).
    + cbn [token_of tok_step rbind]. apply (IH (PF pi_value :: st)).
    + rewrite token_op. destruct st as [|a [|b st]]; cbn [List.length tok_step rbind]; try (eexists; reflexivity).
      destruct (arith_value o b a) as [(z & -> & _)|[-> _]]; cbn [rbind].
      * apply (IH (z :: st)).
      * destruct (depth (S (List.length st)) ws); [right; reflexivity|exists ZeroDivisionError; reflexivity].
    + cbn [token_of]. destruct st as [|a st]; cbn [List.length tok_step rbind]; [eexists; reflexivity|]. apply (IH (_ :: st)).
Qed.

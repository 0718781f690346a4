(** C142: the name, the type and the parameters that are read from an element line of a Trace3D deck. *)
From Coq Require Import List Reals Bool Arith String Ascii ZArith Lia Lra.
From Verif Require Import PyBase PyDict PyText Line_Model Line_Spec Lte_Model Lte_Spec Lte_Proofs Trace_Model Trace_Spec Trace_Proofs T3_Model.
Import ListNotations.
Open Scope R_scope.

(* ---------------- specification ---------------- *)
(** An element line is   cmt(i)=name nt(j)=type ... a(k)=number, number, ...   where the name is
    everything up to nt. *)
Definition equals : ascii := "="%char.
Definition opening (i name j : text) : text := T "cmt(" ++ i ++ T ")=" ++ name ++ T "nt(" ++ j ++ T ")".
(** blanks and commas stand between the numbers *)
Definition between (s : text) : Prop := forall c, In c s -> is_ws c = true \/ c = ","%char.
Record values := { v_before : text; v_first : literal; v_more : list (text * literal); v_after : text }.
Definition values_ok (v : values) : Prop := between (v_before v) /\ plain_number (v_first v) /\
  Forall (fun sl => fst sl <> [] /\ between (fst sl) /\ plain_number (snd sl)) (v_more v) /\ between (v_after v).
Definition values_text (v : values) : text :=
  v_before v ++ literal_text (v_first v) ++ List.concat (map (fun sl => fst sl ++ literal_text (snd sl)) (v_more v)) ++ v_after v.
Definition values_of (v : values) : list R := literal_value (v_first v) :: map (fun sl => literal_value (snd sl)) (v_more v).
(** the names of the values of each type *)
Inductive stands_for : Z -> list string -> Prop :=
| S_drift : stands_for 1 ["L"]%string
| S_quad : stands_for 3 ["K1"; "L"; "DX"; "DY"; "OF"]%string
| S_bend : stands_for 8 ["ANGLE"; "R"; "INDEX"; "VF"]%string
| S_edge : stands_for 9 ["BETA"; "R"; "G"; "K1"; "K2"]%string
| S_cavity : stands_for 10 ["VOLT"; "PHASE"; "EGF"; "CHANGE_P0"; "H"]%string.
Definition index (i : text) : Prop := forall c, In c i -> is_digit c = true \/ c = ","%char.
Definition inside (p s : text) : Prop := exists a b, s = a ++ p ++ b.

(* ---------------- finding a word and the equals sign behind it ---------------- *)
Lemma prefixb_app : forall p t, prefixb p (p ++ t) = true.
Proof. induction p as [|c p IH]; intros t; [reflexivity|]. cbn. rewrite Ascii.eqb_refl. apply IH. Qed.
Lemma prefixb_split : forall p s, prefixb p s = true -> exists t, s = p ++ t.
Proof.
  induction p as [|c p IH]; intros s H; [exists s; reflexivity|]. destruct s as [|d s]; [discriminate|]. cbn in H. apply andb_true_iff in H. destruct H as [H1 H2].
  apply Ascii.eqb_eq in H1. subst d. destruct (IH s H2) as (t & ->). exists t. reflexivity.
Qed.
Lemma find_word : forall p x y, exists v t, find p (x ++ p ++ y) = Some (List.length v) /\ x ++ p ++ y = v ++ p ++ t /\ (List.length v <= List.length x)%nat.
Proof.
  intros p. induction x as [|c x IH]; intros y.
  - exists [], y. cbn [app]. split; [|split; [reflexivity|cbn; lia]]. pose proof (prefixb_app p y) as P. destruct (p ++ y) as [|d r]; cbn [find]; rewrite P; reflexivity.
  - change ((c :: x) ++ p ++ y) with (c :: x ++ p ++ y). cbn [find]. destruct (prefixb p (c :: x ++ p ++ y)) eqn:P.
    + apply prefixb_split in P. destruct P as (t & P). exists [], t. split; [reflexivity|]. split; [exact P|cbn; lia].
    + destruct (IH y) as (v & t & F & E & L). exists (c :: v), t. rewrite F. split; [reflexivity|]. split; [cbn [app]; f_equal; exact E|cbn; lia].
Qed.
Lemma find_equals : forall u w, ~ In equals u -> find (T "=") (u ++ equals :: w) = Some (List.length u).
Proof.
  induction u as [|c u IH]; intros w N.
  - reflexivity.
  - cbn [app find]. assert (X : prefixb (T "=") (c :: u ++ equals :: w) = false).
    { cbn [T list_ascii_of_string prefixb]. destruct (Ascii.eqb "=" c) eqn:Q; [|reflexivity]. apply Ascii.eqb_eq in Q. exfalso. apply N. left. symmetry. exact Q. }
    rewrite X. rewrite IH; [reflexivity|]. intros I. apply N. right. exact I.
Qed.
Lemma skip_exact : forall (u w : text), skipn (List.length u) (u ++ w) = w.
Proof. induction u as [|c u IH]; intros w; [reflexivity|]. cbn. apply IH. Qed.
Lemma slice_exact : forall u w, slice_from (u ++ w) (Z.of_nat (List.length u)) = w.
Proof. intros u w. unfold slice_from. destruct (Z.ltb_spec (Z.of_nat (List.length u)) 0); [lia|]. rewrite Nat2Z.id. apply skip_exact. Qed.
(** the text from the equals sign that follows the word *)
Lemma behind_word : forall x n p i w, p <> [] -> ~ In equals p -> ~ inside p x -> ~ In equals n -> ~ In equals i ->
  let line := x ++ equals :: n ++ p ++ i ++ equals :: w in
  slice_from line (find_at p line + find_at (T "=") (slice_from line (find_at p line))) = equals :: w.
Proof.
  intros x n p i w Np Ep Ix En Ei. cbv zeta.
  replace (x ++ equals :: n ++ p ++ i ++ equals :: w) with ((x ++ equals :: n) ++ p ++ (i ++ equals :: w)) by (rewrite <- app_assoc; reflexivity).
  destruct (find_word p (x ++ equals :: n) (i ++ equals :: w)) as (v & t & F & E & L). unfold find_at at 1 3. rewrite F. rewrite E at 2. rewrite slice_exact.
  assert (G : exists l, v = (x ++ [equals]) ++ l).
  { replace ((x ++ equals :: n) ++ p ++ i ++ equals :: w) with (x ++ (equals :: n ++ p ++ i ++ equals :: w)) in E by (rewrite <- app_assoc; reflexivity).
    apply app_eq_app in E. destruct E as (l & [[E1 E2]|[E1 E2]]).
    - (* x = v ++ l *) apply app_eq_app in E2. destruct E2 as (m & [[E2 E3]|[E2 E3]]).
      + (* p = l ++ m *) destruct m as [|c m].
        * exfalso. apply Ix. exists v, []. rewrite app_nil_r in E2. rewrite app_nil_r. subst. reflexivity.
        * exfalso. cbn [app] in E3. injection E3 as E3 _. apply Ep. rewrite E2. apply in_or_app. right. left. symmetry. exact E3.
      + exfalso. apply Ix. exists v, m. subst. reflexivity.
    - (* v = x ++ l *) destruct l as [|c l].
      + exfalso. cbn [app] in E2. destruct p as [|c p]; [contradiction|]. injection E2 as E2 _. apply Ep. left. symmetry. exact E2.
      + cbn [app] in E2. injection E2 as E2 _. exists l. rewrite E1, <- E2. rewrite <- app_assoc. reflexivity. }
  destruct G as (l & ->).
  assert (Q : l ++ p ++ t = (n ++ p ++ i) ++ equals :: w).
  { apply (app_inv_head (x ++ [equals])). rewrite app_assoc, <- E. rewrite <- !app_assoc. reflexivity. }
  assert (K : exists u, p ++ t = u ++ equals :: w /\ ~ In equals u).
  { assert (A : ~ In equals (n ++ p ++ i)) by (intros I; apply in_app_or in I; destruct I as [I|I]; [exact (En I)|]; apply in_app_or in I; destruct I; [exact (Ep H)|exact (Ei H)]).
    apply app_eq_app in Q. destruct Q as (m & [[Q1 Q2]|[Q1 Q2]]).
    - exfalso. subst l. destruct p; [contradiction|]. repeat (rewrite app_length in L; cbn [List.length] in L). lia.
    - exists m. split; [exact Q2|]. intros I. apply A. rewrite Q1. apply in_or_app. right. exact I. }
  destruct K as (u & K1 & K2). rewrite E, K1. unfold find_at. rewrite find_equals by exact K2. rewrite <- Nat2Z.inj_add, <- app_length.
  rewrite app_assoc. apply slice_exact.
Qed.

(* ---------------- digits and numbers behind it ---------------- *)
Lemma find_digits_pass : forall s r, forallb (fun c => negb (is_digit c)) s = true -> find_digits 0 (s ++ r) = find_digits 0 r.
Proof.
  induction s as [|c s IH]; intros r H; [reflexivity|]. cbn in H. apply andb_true_iff in H. destruct H as [H1 H2]. apply negb_true_iff in H1.
  cbn [app find_digits span_digits]. rewrite H1. cbn [fst]. apply IH. exact H2.
Qed.
Lemma ws_no_digit : forall c, is_ws c = true -> is_digit c = false.
Proof. intros c H. apply ws_dull in H. unfold dull in H. destruct (is_digit c); [discriminate|reflexivity]. Qed.
Lemma first_digits : forall k d r, digits_ok (k :: d) -> (forall c t, r = c :: t -> is_digit c = false) ->
  exists tl, find_digits 0 (map digit_char (k :: d) ++ r) = map digit_char (k :: d) :: tl.
Proof.
  intros k d r D N. assert (F : forallb is_digit (map digit_char (k :: d)) = true) by (apply digits_chars; exact D).
  pose proof (span_digits_app _ r F N) as S. cbn [map app] in *. cbn [find_digits]. rewrite S. cbn [fst]. eexists. reflexivity.
Qed.
Lemma between_dull : forall s, between s -> forallb dull s = true.
Proof. intros s B. rewrite forallb_forall. intros c I. destruct (B c I) as [W | ->]; [apply ws_dull; exact W|reflexivity]. Qed.
Lemma between_ends : forall s r, s <> [] -> between s -> ends (s ++ r).
Proof. intros [|c s] r N B x y E; [contradiction|]. cbn [app] in E. injection E as <- _. pose proof (between_dull _ B) as D. cbn in D. apply andb_true_iff in D. apply D. Qed.
Lemma more_ends : forall ms a, Forall (fun sl : text * literal => fst sl <> [] /\ between (fst sl) /\ plain_number (snd sl)) ms -> between a ->
  ends (List.concat (map (fun sl => fst sl ++ literal_text (snd sl)) ms) ++ a).
Proof.
  intros [|[s l] ms] a F B.
  - cbn. destruct a as [|c a]; [intros x y E; discriminate|]. rewrite <- (app_nil_r (c :: a)). apply between_ends; [discriminate|exact B].
  - inversion F as [|? ? (N & Bs & _) _]; subst. cbn [map List.concat fst snd] in *. rewrite <- !app_assoc. apply between_ends; assumption.
Qed.
Lemma findall_more : forall ms a, Forall (fun sl : text * literal => fst sl <> [] /\ between (fst sl) /\ plain_number (snd sl)) ms -> between a ->
  findall 0 (List.concat (map (fun sl => fst sl ++ literal_text (snd sl)) ms) ++ a) = map (fun sl => literal_text (seen (snd sl))) ms.
Proof.
  induction ms as [|[s l] ms IH]; intros a F B.
  - cbn. rewrite <- (app_nil_r a). rewrite findall_dull by (apply between_dull; exact B). reflexivity.
  - inversion F as [|? ? (N & Bs & P) Fr]; subst. cbn [map List.concat fst snd] in *. rewrite <- !app_assoc.
    rewrite findall_dull by (apply between_dull; exact Bs). rewrite findall_literal; [|apply P|apply more_ends; assumption]. rewrite IH by assumption. reflexivity.
Qed.
Lemma findall_values : forall v, values_ok v -> findall 0 (equals :: values_text v) = map (fun l => literal_text (seen l)) (v_first v :: map snd (v_more v)).
Proof.
  intros v (B & P & F & A). change (equals :: values_text v) with ([equals] ++ values_text v). rewrite findall_dull by reflexivity. unfold values_text.
  rewrite findall_dull by (apply between_dull; exact B). rewrite findall_literal; [|apply P|apply more_ends; assumption]. rewrite findall_more by assumption.
  cbn [map]. rewrite map_map. reflexivity.
Qed.
Lemma read_plain : forall names ls, Forall plain_number ls -> read_values names (map (fun l => literal_text (seen l)) ls) = Ok (combine names (map literal_value ls)).
Proof.
  induction names as [|n names IH]; intros ls F; [reflexivity|]. destruct F as [|l ls P F]; [reflexivity|]. cbn [map read_values combine].
  rewrite py_float_literal by (apply seen_ok; apply P). rewrite IH by exact F. rewrite seen_value by exact P. reflexivity.
Qed.

(* ---------------- the places of the words ---------------- *)
(** a word of two letters that is in neither part is not in both together *)
Lemma word_apart : forall a b u c v, ~ inside [a; b] u -> c <> b -> ~ inside [a; b] (c :: v) -> ~ inside [a; b] (u ++ c :: v).
Proof.
  intros a b u c v Hu Nc Hv (x & y & E). apply app_eq_app in E. destruct E as (l & [[E1 E2]|[E1 E2]]).
  - destruct l as [|p [|q l]]; cbn [app] in E2.
    + apply Hv. exists [], y. symmetry. exact E2.
    + injection E2 as _ E2 _. apply Nc. symmetry. exact E2.
    + injection E2 as -> -> E2. apply Hu. exists x, l. exact E1.
  - apply Hv. exists l, y. exact E2.
Qed.
Lemma index_plain : forall i c, index i -> is_digit c = false -> c <> ","%char -> ~ In c i.
Proof. intros i c X D N I. destruct (X c I) as [H|H]; [congruence|contradiction]. Qed.
Lemma no_letter : forall a b s, ~ In a s -> ~ inside [a; b] s.
Proof. intros a b s N (x & y & ->). apply N. apply in_or_app. right. left. reflexivity. Qed.
Ltac no_in := let I := fresh in intros I; cbn in I; repeat (destruct I as [I|I]; [discriminate I|]); try contradiction.

Lemma cmt_no_nt : forall i, index i -> ~ inside (T "nt") (T "cmt(" ++ i ++ T ")").
Proof.
  intros i X. apply no_letter. intros I. apply in_app_or in I. destruct I as [I|I]; [revert I; no_in|]. apply in_app_or in I. destruct I as [I|I]; [|revert I; no_in].
  revert I. apply index_plain; [exact X|reflexivity|discriminate].
Qed.
Lemma opening_no_a : forall i name j, index i -> index j -> ~ inside (T "a(") name -> ~ inside (T "a(") (opening i name j).
Proof.
  intros i name j X Y N. unfold opening.
  replace (T "cmt(" ++ i ++ T ")=" ++ name ++ T "nt(" ++ j ++ T ")") with ((T "cmt(" ++ i ++ T ")") ++ equals :: (name ++ "n"%char :: (T "t(" ++ j ++ T ")"))) by (rewrite <- !app_assoc; reflexivity).
  apply word_apart.
  - apply no_letter. intros I. apply in_app_or in I. destruct I as [I|I]; [revert I; no_in|]. apply in_app_or in I. destruct I as [I|I]; [|revert I; no_in].
    revert I. apply index_plain; [exact X|reflexivity|discriminate].
  - discriminate.
  - change (equals :: name ++ "n"%char :: T "t(" ++ j ++ T ")") with ((equals :: name) ++ "n"%char :: T "t(" ++ j ++ T ")"). apply word_apart.
    + intros (a & b & E). destruct a as [|c a]; [discriminate E|]. cbn [app] in E. injection E as _ E. apply N. exists a, b. exact E.
    + discriminate.
    + apply no_letter. intros I. cbn [In] in I. destruct I as [I|I]; [discriminate I|]. apply in_app_or in I. destruct I as [I|I]; [revert I; no_in|]. apply in_app_or in I. destruct I as [I|I]; [|revert I; no_in].
      revert I. apply index_plain; [exact Y|reflexivity|discriminate].
Qed.

Ltac flat := unfold T, equals; cbn [list_ascii_of_string app]; repeat (rewrite <- app_assoc; cbn [app]); reflexivity.

(* ---------------- C142 ---------------- *)
(** The type is the number behind nt(j)=, whatever the name and whatever follows. *)
Theorem C142_type : forall i name j pad k d rest ty, index i -> index j -> ~ In equals name -> blank_line pad -> digits_ok (k :: d) ->
  (forall c t, rest = c :: t -> is_digit c = false) -> IZR ty = decimal (k :: d) ->
  t3_type (opening i name j ++ T "=" ++ pad ++ map digit_char (k :: d) ++ rest) = Ok ty.
Proof.
  intros i name j pad k d rest ty X Y N B D Nr V. unfold t3_type, opening.
  pose proof (behind_word (T "cmt(" ++ i ++ T ")") name (T "nt") (T "(" ++ j ++ T ")") (pad ++ map digit_char (k :: d) ++ rest)) as H. cbv zeta in H.
  replace ((T "cmt(" ++ i ++ T ")=" ++ name ++ T "nt(" ++ j ++ T ")") ++ T "=" ++ pad ++ map digit_char (k :: d) ++ rest)
    with ((T "cmt(" ++ i ++ T ")") ++ equals :: name ++ T "nt" ++ (T "(" ++ j ++ T ")") ++ equals :: pad ++ map digit_char (k :: d) ++ rest)
    by flat.
  rewrite H; [|discriminate|no_in|apply cmt_no_nt; exact X|exact N|].
  - change (equals :: pad ++ map digit_char (k :: d) ++ rest) with ((equals :: pad) ++ map digit_char (k :: d) ++ rest). rewrite find_digits_pass.
    + destruct (first_digits k d rest D Nr) as (tl & ->). f_equal. apply eq_IZR. rewrite digits_value_decimal by exact D. rewrite V. lra.
    + cbn [forallb]. change (negb (is_digit equals)) with true. cbn [andb]. apply forallb_forall. intros c I. rewrite ws_no_digit by (apply B; exact I). reflexivity.
  - intros I. apply in_app_or in I. destruct I as [I|I]; [revert I; no_in|]. apply in_app_or in I. destruct I as [I|I]; [|revert I; no_in].
    revert I. apply index_plain; [exact Y|reflexivity|discriminate].
Qed.
Print Assumptions C142_type.

(** Full statement: the numbers behind a(k)= are the values, under the names of the type, for every
    name of the element and all numbers.  Missing: names with a( in them, negative numbers without
    decimals (both refuted below) and numbers with an exponent (as in C48). *)
Theorem C142_values_partial : forall i name j mid k v ty names, index i -> index j -> index k -> ~ In equals mid -> ~ inside (T "a(") name -> values_ok v ->
  stands_for ty names ->
  t3_parameters (opening i name j ++ T "=" ++ mid ++ T "a(" ++ k ++ T ")=" ++ values_text v) ty = Ok (combine names (values_of v)).
Proof.
  intros i name j mid k v ty names X Y Z N Na V St. unfold t3_parameters.
  pose proof (behind_word (opening i name j) mid (T "a(") (k ++ T ")") (values_text v)) as H. cbv zeta in H.
  replace (opening i name j ++ T "=" ++ mid ++ T "a(" ++ k ++ T ")=" ++ values_text v)
    with (opening i name j ++ equals :: mid ++ T "a(" ++ (k ++ T ")") ++ equals :: values_text v) by flat.
  rewrite (Z.add_comm (find_at (T "=") _)). rewrite H; [|discriminate|no_in|apply opening_no_a; assumption|exact N|].
  - rewrite findall_values by exact V. destruct V as (_ & P & F & _).
    assert (R : forall ns, read_values ns (map (fun l => literal_text (seen l)) (v_first v :: map snd (v_more v))) = Ok (combine ns (values_of v))).
    { intros ns. rewrite read_plain.
      - unfold values_of. cbn [map]. rewrite map_map. reflexivity.
      - constructor; [exact P|]. rewrite Forall_forall in *. intros l I. apply in_map_iff in I. destruct I as (sl & <- & I). apply (F sl I). }
    destruct St; apply R.
  - intros I. apply in_app_or in I. destruct I as [I|I]; [|revert I; no_in]. revert I. apply index_plain; [exact Z|reflexivity|discriminate].
Qed.
Print Assumptions C142_values_partial.

Lemma read_one : forall n l tl, literal_ok l -> read_values [n] (literal_text l :: tl) = Ok [(n, literal_value l)].
Proof. intros n l tl O. cbn [read_values]. rewrite py_float_literal by exact O. reflexivity. Qed.
(** A drift whose name has a( in it gets its type as its length. *)
Theorem C142_name_refuted : forall i n1 n2 j rest, index i -> index j -> ~ In equals n1 -> ~ In equals n2 ->
  t3_parameters (opening i (n1 ++ T "a(" ++ n2) j ++ T "=1," ++ rest) 1 = Ok [("L"%string, 1)].
Proof.
  intros i n1 n2 j rest X Y N1 N2. unfold t3_parameters, opening.
  pose proof (behind_word (T "cmt(" ++ i ++ T ")") n1 (T "a(") (n2 ++ T "nt(" ++ j ++ T ")") (T "1," ++ rest)) as H. cbv zeta in H.
  replace ((T "cmt(" ++ i ++ T ")=" ++ (n1 ++ T "a(" ++ n2) ++ T "nt(" ++ j ++ T ")") ++ T "=1," ++ rest)
    with ((T "cmt(" ++ i ++ T ")") ++ equals :: n1 ++ T "a(" ++ (n2 ++ T "nt(" ++ j ++ T ")") ++ equals :: T "1," ++ rest) by flat.
  rewrite (Z.add_comm (find_at (T "=") _)). rewrite H; [|discriminate|no_in| |exact N1|].
  - pose (one := {| l_sign := None; l_int := [1]%nat; l_frac := None; l_exp := None |}).
    assert (P : plain_number one).
    { split; [split; [|reflexivity]|discriminate]. refine (conj _ (conj _ (conj _ I))); [intros d [<-|[]]; lia|intros d []|discriminate]. }
    change (equals :: T "1," ++ rest) with ([equals] ++ literal_text one ++ ("," :: rest)%char). rewrite findall_dull by reflexivity.
    rewrite findall_literal; [|apply P|intros c t E; injection E as <- _; reflexivity].
    refine (eq_trans (read_one _ _ _ (seen_ok _ _)) _); [apply P|]. rewrite seen_value by exact P.
    replace (literal_value one) with 1; [reflexivity|]. unfold literal_value, one. cbn. field.
  - apply no_letter. intros I. apply in_app_or in I. destruct I as [I|I]; [revert I; no_in|]. apply in_app_or in I. destruct I as [I|I]; [|revert I; no_in].
    revert I. apply index_plain; [exact X|reflexivity|discriminate].
  - intros I. apply in_app_or in I. destruct I as [I|I]; [exact (N2 I)|]. apply in_app_or in I. destruct I as [I|I]; [revert I; no_in|]. apply in_app_or in I. destruct I as [I|I]; [|revert I; no_in].
    revert I. apply index_plain; [exact Y|reflexivity|discriminate].
Qed.
Print Assumptions C142_name_refuted.

(** A negative length without decimals loses its sign. *)
Theorem C142_sign_refuted : forall i name j mid k a d, index i -> index j -> index k -> ~ In equals mid -> ~ inside (T "a(") name -> digits_ok (a :: d) ->
  t3_parameters (opening i name j ++ T "=" ++ mid ++ T "a(" ++ k ++ T ")=-" ++ map digit_char (a :: d)) 1 = Ok [("L"%string, decimal (a :: d))].
Proof.
  intros i name j mid k a d X Y Z N Na D. unfold t3_parameters.
  pose (low := {| l_sign := Some true; l_int := a :: d; l_frac := None; l_exp := None |}).
  assert (P : fixed_point low).
  { split; [|reflexivity]. refine (conj D (conj _ (conj _ I))); [intros x []|discriminate]. }
  pose proof (behind_word (opening i name j) mid (T "a(") (k ++ T ")") (literal_text low ++ [])) as H. cbv zeta in H.
  replace (opening i name j ++ T "=" ++ mid ++ T "a(" ++ k ++ T ")=-" ++ map digit_char (a :: d))
    with (opening i name j ++ equals :: mid ++ T "a(" ++ (k ++ T ")") ++ equals :: literal_text low ++ [])
    by (unfold literal_text, low; cbn [l_sign l_int l_frac l_exp sign_text map]; rewrite !app_nil_r; flat).
  rewrite (Z.add_comm (find_at (T "=") _)). rewrite H; [|discriminate|no_in|apply opening_no_a; assumption|exact N|].
  - change (equals :: literal_text low ++ []) with ([equals] ++ literal_text low ++ []). rewrite findall_dull by reflexivity.
    rewrite findall_literal; [|exact P|intros c t E; discriminate E].
    refine (eq_trans (read_one _ _ _ (seen_ok _ _)) _); [exact P|].
    replace (literal_value (seen low)) with (decimal (a :: d)); [reflexivity|]. unfold literal_value, seen, low. cbn [frac_digits l_frac l_sign l_int l_exp signed scale]. cbn [decimal List.length pow]. field.
  - intros I. apply in_app_or in I. destruct I as [I|I]; [|revert I; no_in]. revert I. apply index_plain; [exact Z|reflexivity|discriminate].
Qed.
Print Assumptions C142_sign_refuted.

(** cmt(12)='front', nt(12)= 3, a(1,12)=-1.5, 20 *)
Definition sample_values : values :=
  {| v_before := []; v_first := {| l_sign := Some true; l_int := [1]%nat; l_frac := Some [5]%nat; l_exp := None |};
     v_more := [(T ", ", {| l_sign := None; l_int := [2; 0]%nat; l_frac := None; l_exp := None |})]; v_after := [] |}.
Example C142_applies :
  index (T "12") /\ index (T "1,12") /\ ~ In equals (T "'front', ") /\ ~ inside (T "a(") (T "'front', ") /\ values_ok sample_values /\ opening (T "12") (T "'front', ") (T "12") ++ T "=" ++ T " 3, " ++ T "a(" ++ T "1,12" ++ T ")=" ++ values_text sample_values =
  T "cmt(12)='front', nt(12)= 3, a(1,12)=-1.5, 20".
Proof.
  repeat split.
  - intros c I. cbn in I. repeat (destruct I as [<-|I]; [left; reflexivity|]). destruct I.
  - intros c I. cbn in I. repeat (destruct I as [<-|I]; [first [left; reflexivity|right; reflexivity]|]). destruct I.
  - no_in.
  - apply no_letter. no_in.
  - intros c [].
  - intros x [<-|[]]; lia.
  - intros x [<-|[]]; lia.
  - discriminate.
  - discriminate.
  - constructor; [|constructor]. split; [discriminate|]. split.
    + intros c I. cbn in I. destruct I as [<-|[<-|[]]]; [right; reflexivity|left; reflexivity].
    + split; [split; [|reflexivity]|discriminate]. refine (conj _ (conj _ (conj _ I))); [intros x [<-|[<-|[]]]; lia|intros x []|discriminate].
  - intros c [].
Qed.
Example C142_name_applies : ~ In equals (T "'dat") /\ ~ In equals (T "1)' ") /\ opening (T "1") (T "'dat" ++ T "a(" ++ T "1)' ") (T "1") ++ T "=1," ++ T " a(1,1)=10.5" = T "cmt(1)='data(1)' nt(1)=1, a(1,1)=10.5".
Proof. split; [no_in|]. split; [no_in|reflexivity]. Qed.

(* ---------------- the name ---------------- *)
Lemma drop_none : forall s, (forall c, In c s -> is_ws c = false) -> drop_ws s = s.
Proof. intros [|c s] H; [reflexivity|]. cbn. rewrite (H c) by (left; reflexivity). reflexivity. Qed.
Lemma trim_none : forall s, (forall c, In c s -> is_ws c = false) -> trim s = s.
Proof.
  intros s H. unfold trim, rdrop_ws. rewrite (drop_none s H). rewrite drop_none; [apply rev_involutive|]. intros c I. apply H. apply in_rev. exact I.
Qed.
Lemma find_close : forall u w, ~ In ")"%char u -> find (T ")") (u ++ ")"%char :: w) = Some (List.length u).
Proof.
  induction u as [|c u IH]; intros w N; [reflexivity|]. cbn [app find]. assert (X : prefixb (T ")") (c :: u ++ ")"%char :: w) = false).
  { cbn [T list_ascii_of_string prefixb]. destruct (Ascii.eqb ")" c) eqn:Q; [|reflexivity]. apply Ascii.eqb_eq in Q. exfalso. apply N. left. symmetry. exact Q. }
  rewrite X. rewrite IH; [reflexivity|]. intros I. apply N. right. exact I.
Qed.
(** The name of every element is its index, and what is written behind cmt(i)= is never used. *)
Theorem C142_label_refuted : forall i rest, index i -> t3_name (T "cmt(" ++ i ++ T ")" ++ rest) = i.
Proof.
  intros i rest X. unfold t3_name.
  assert (A : find_at (T "cmt(") (T "cmt(" ++ i ++ T ")" ++ rest) = 0%Z) by reflexivity. rewrite A.
  assert (B : find_at (T ")") (T "cmt(" ++ i ++ T ")" ++ rest) = Z.of_nat (4 + List.length i)).
  { unfold find_at. replace (T "cmt(" ++ i ++ T ")" ++ rest) with ((T "cmt(" ++ i) ++ ")"%char :: rest) by flat. rewrite find_close; [rewrite app_length; reflexivity|].
    intros I. apply in_app_or in I. destruct I as [I|I]; [revert I; no_in|]. revert I. apply index_plain; [exact X|reflexivity|discriminate]. }
  rewrite B. unfold slice, place. destruct (Z.ltb_spec (Z.of_nat (4 + List.length i)) 0); [lia|]. rewrite Nat2Z.id.
  change (skipn 4 (firstn (4 + List.length i) (T "cmt(" ++ i ++ T ")" ++ rest)) ) with (firstn (List.length i) (i ++ T ")" ++ rest)).
  change (trim (firstn (List.length i) (i ++ T ")" ++ rest)) = i).
  rewrite firstn_app, Nat.sub_diag, firstn_all. cbn [firstn]. rewrite app_nil_r. apply trim_none.
  intros c I. destruct (X c I) as [D| ->]; [|reflexivity]. destruct (is_ws c) eqn:W; [|reflexivity]. apply ws_no_digit in W. congruence.
Qed.
Print Assumptions C142_label_refuted.
Lemma find_no_close : forall u, ~ In ")"%char u -> find (T ")") u = None.
Proof.
  induction u as [|c u IH]; intros N; [reflexivity|]. cbn [find]. assert (X : prefixb (T ")") (c :: u) = false).
  { cbn [T list_ascii_of_string prefixb]. destruct (Ascii.eqb ")" c) eqn:Q; [|reflexivity]. apply Ascii.eqb_eq in Q. exfalso. apply N. left. symmetry. exact Q. }
  rewrite X. rewrite IH; [reflexivity|]. intros I. apply N. right. exact I.
Qed.
(** If the closing bracket is missing there is no error; the last character of the line is lost. *)
Theorem C142_open_refuted : forall i c, index (i ++ [c]) -> t3_name (T "cmt(" ++ i ++ [c]) = i.
Proof.
  intros i c X. unfold t3_name.
  assert (A : find_at (T "cmt(") (T "cmt(" ++ i ++ [c]) = 0%Z) by reflexivity. rewrite A.
  assert (B : find_at (T ")") (T "cmt(" ++ i ++ [c]) = (-1)%Z).
  { unfold find_at. rewrite find_no_close; [reflexivity|]. intros I. apply in_app_or in I. destruct I as [I|I]; [revert I; no_in|]. revert I. apply index_plain; [exact X|reflexivity|discriminate]. }
  rewrite B. unfold slice.
  assert (P : place (T "cmt(" ++ i ++ [c]) (-1) = (4 + List.length i)%nat).
  { unfold place. cbn [Z.ltb Z.compare]. rewrite !app_length. change (List.length (T "cmt(")) with 4%nat. cbn [List.length]. lia. }
  rewrite P. change (place (T "cmt(" ++ i ++ [c]) (0 + 4)) with 4%nat.
  change (skipn 4 (firstn (4 + List.length i) (T "cmt(" ++ i ++ [c]))) with (firstn (List.length i) (i ++ [c])).
  rewrite firstn_app, Nat.sub_diag, firstn_all. cbn [firstn]. rewrite app_nil_r. apply trim_none.
  intros d I. destruct (X d) as [D| ->]; [apply in_or_app; left; exact I| |reflexivity]. destruct (is_ws d) eqn:W; [|reflexivity]. apply ws_no_digit in W. congruence.
Qed.
Print Assumptions C142_open_refuted.
Example C142_open_applies : index (T "1" ++ ["2"%char]) /\ t3_name (T "cmt(12") = T "1".
Proof. split; [|reflexivity]. intros c [<-|[<-|[]]]; left; reflexivity. Qed.

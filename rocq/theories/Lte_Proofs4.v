(** Lemmas about line definitions: the text that is left to read. *)
From Coq Require Import List Reals Bool Arith String Ascii ZArith Lia.
From Verif Require Import PyBase PyDict PyText Line_Model Lte_Model Lte_Spec Line_Proofs Lte_Proofs Lte_Proofs2 Lte_Proofs3.
Import ListNotations.

Lemma skip_more : forall {A} (a : list A) k b, skipn (List.length a + k) (a ++ b) = skipn k b.
Proof. intros A a k b. induction a as [|x a IH]; [reflexivity|exact IH]. Qed.
Lemma firstn_S_exact : forall {A} (a : list A) c b, skipn (List.length a + 1) (a ++ c :: b) = b.
Proof. intros A a c b. rewrite skip_more. reflexivity. Qed.

Lemma name_chars : forall x c, name_ok x -> is_ws c = false -> separator c -> c <> quote -> ~ In c (name_text x).
Proof.
  intros x c (A & B & I & _ & Q) W S Nq H. unfold name_text in H. rewrite !in_app_iff in H. destruct H as [H|[H|H]].
  - revert H. apply blank_plain; assumption.
  - revert H. apply written_no; assumption.
  - revert H. apply blank_plain; assumption.
Qed.
Lemma name_trim : forall x, name_ok x -> trim (name_text x) = name_written x.
Proof.
  intros x (A & B & I & _ & Q). apply trim_pad; [apply blank_iff; exact A|apply blank_iff; exact B|apply written_tight; assumption].
Qed.
Lemma sep_comma : separator comma. Proof. apply sep_in. cbn. tauto. Qed.
Lemma sep_close : separator close. Proof. apply sep_in. cbn. tauto. Qed.
Lemma sep_open : separator "("%char. Proof. apply sep_in. cbn. tauto. Qed.

Lemma ws_not_digit : forall c, is_ws c = true -> is_digit c = false.
Proof.
  intros c H. destruct (is_digit c) eqn:D; [|reflexivity]. unfold is_ws in H. unfold is_digit in D.
  apply andb_true_iff in D. destruct D as [D1 D2]. apply Nat.leb_le in D1. apply Nat.leb_le in D2.
  rewrite orb_true_iff in H. destruct H as [H|H]; apply andb_true_iff in H; destruct H as [H1 H2]; apply Nat.leb_le in H1; apply Nat.leb_le in H2; lia.
Qed.
Lemma name_head : forall x, name_ok x -> exists c r, name_text x = c :: r /\ is_digit c = false.
Proof.
  intros x (A & B & I & N & Q). unfold name_text. destruct (fst (fst x)) as [|p ps].
  - destruct Q as [Q|Q].
    + change (name_written x = the_name x) in Q. rewrite Q.
      destruct (the_name x) as [|c r] eqn:E; [destruct I as (I & _); congruence|]. exists c, (r ++ snd x). split; [reflexivity|]. apply (N c r). reflexivity.
    + rewrite Q. eexists _, _. split; [reflexivity|]. reflexivity.
  - exists p, (ps ++ name_written x ++ snd x). split; [reflexivity|]. apply ws_not_digit. apply A. left; reflexivity.
Qed.
Lemma name_visible : forall x, name_ok x -> blank (name_text x) = false.
Proof.
  intros x H. destruct (blank (name_text x)) eqn:B; [|reflexivity]. apply trim_blank in B. rewrite name_trim in B by exact H.
  destruct H as (_ & _ & (I & _) & _). exfalso. apply I. unfold the_name. rewrite B. reflexivity.
Qed.

(* ------------------------------------------------------------------ *)
Lemma take_none : forall c r, is_digit c = false -> take_digits (c :: r) = Ok ([], c :: r).
Proof. intros c r H. cbn [take_digits]. rewrite H. reflexivity. Qed.
Lemma take_number : forall k c r, digits_ok k -> is_digit c = false -> take_digits (number_text k ++ c :: r) = Ok (number_text k, c :: r).
Proof.
  induction k as [|d k IH]; intros c r H N; [apply take_none; exact N|].
  unfold number_text in *. cbn [map app take_digits]. destruct (digit_char_facts d) as [-> _]; [apply H; left; reflexivity|].
  rewrite IH; [reflexivity| |exact N]. intros j I. apply H. right; exact I.
Qed.
Lemma number_count : forall k a, digits_ok k -> digits_value (Z.of_nat a) (number_text k) = Z.of_nat (count_from a k).
Proof.
  induction k as [|d k IH]; intros a H; [reflexivity|]. unfold number_text in *. cbn [map digits_value count_from].
  destruct (digit_char_facts d) as [_ ->]; [apply H; left; reflexivity|].
  replace (10 * Z.of_nat a + Z.of_nat d)%Z with (Z.of_nat (10 * a + d)) by lia. apply IH. intros j I. apply H. right; exact I.
Qed.
Lemma number_some : forall k, (1 <= count k)%nat -> number_text k <> [].
Proof. intros [|d k] H; [cbn in H; lia|discriminate]. Qed.

(* ------------------------------------------------------------------ *)
(** What is left to read: an opened list, or what a last repetition left. *)
Definition rest_text (items : list item) (tail : text) : text := join [comma] (map item_text items) ++ close :: tail.
Definition flat_text (xs : list name_in) (tail : text) : text := List.concat (map (fun x => name_text x ++ [comma]) xs) ++ tail.
Inductive shape : text -> list item -> Prop :=
| shape_open : forall items tail, items <> [] -> Forall item_ok items -> blank tail = true -> shape (rest_text items tail) items
| shape_flat : forall xs tail, xs <> [] -> Forall name_ok xs -> blank tail = true -> shape (flat_text xs tail) (map One xs).

Lemma flat_app : forall xs ys tail, flat_text (xs ++ ys) tail = flat_text xs (flat_text ys tail).
Proof. intros. unfold flat_text. rewrite map_app, concat_app, app_assoc. reflexivity. Qed.
Lemma flat_repeat : forall xs n tail, flat_text (List.concat (List.repeat xs n)) tail = List.concat (List.repeat (List.concat (map (fun x => name_text x ++ [comma]) xs)) n) ++ tail.
Proof.
  intros xs n tail. induction n as [|n IH]; [reflexivity|]. cbn [List.repeat List.concat]. rewrite flat_app, IH. unfold flat_text. rewrite app_assoc. reflexivity.
Qed.
Lemma join_flat : forall xs, xs <> [] -> join [comma] (map name_text xs) ++ [comma] = List.concat (map (fun x => name_text x ++ [comma]) xs).
Proof.
  induction xs as [|x xs IH]; intros N; [contradiction|]. destruct xs as [|y xs]; [cbn; rewrite app_nil_r; reflexivity|].
  change (join [comma] (map name_text (x :: y :: xs))) with (name_text x ++ [comma] ++ join [comma] (map name_text (y :: xs))).
  change (List.concat (map (fun z => name_text z ++ [comma]) (x :: y :: xs))) with ((name_text x ++ [comma]) ++ List.concat (map (fun z => name_text z ++ [comma]) (y :: xs))).
  rewrite <- IH by discriminate. rewrite <- !app_assoc. reflexivity.
Qed.
Lemma rest_flat : forall xs items tail, items <> [] -> flat_text xs (rest_text items tail) = rest_text (map One xs ++ items) tail.
Proof.
  induction xs as [|x xs IH]; intros items tail N; [reflexivity|].
  change (flat_text (x :: xs) (rest_text items tail)) with ((name_text x ++ [comma]) ++ List.concat (map (fun x => name_text x ++ [comma]) xs) ++ rest_text items tail) || idtac.
  unfold flat_text. cbn [map List.concat]. rewrite <- app_assoc. fold (flat_text xs (rest_text items tail)). rewrite IH by exact N.
  unfold rest_text. cbn [map app]. destruct (map One xs ++ items) as [|i is] eqn:E.
  - apply app_eq_nil in E. destruct E as [_ ->]. contradiction.
  - cbn [map join item_text]. rewrite <- !app_assoc. reflexivity.
Qed.
Lemma rest_cons : forall i is tail, is <> [] -> rest_text (i :: is) tail = item_text i ++ comma :: rest_text is tail.
Proof. intros i [|j is] tail N; [contradiction|]. unfold rest_text. cbn [map join]. rewrite <- !app_assoc. reflexivity. Qed.
Lemma rest_one : forall i tail, rest_text [i] tail = item_text i ++ close :: tail.
Proof. reflexivity. Qed.

Lemma item_visible : forall i, item_ok i -> blank (item_text i) = false.
Proof.
  intros [x|k x|k xs] H; cbn [item_text].
  - apply name_visible; exact H.
  - rewrite !blank_app. cbn. destruct (blank (number_text k)); reflexivity.
  - rewrite !blank_app. cbn. destruct (blank (number_text k)); reflexivity.
Qed.
Lemma item_head : forall i, item_ok i -> exists c r, item_text i = c :: r /\ c <> close.
Proof.
  intros [x|k x|k xs] H; cbn [item_text].
  - destruct (name_head x H) as (c & r & E & _). exists c, r. split; [exact E|]. intros ->. apply (name_chars x close H eq_refl sep_close ltac:(discriminate)). rewrite E. left; reflexivity.
  - destruct H as (D & C & _). apply number_some in C. destruct k as [|d k]; [contradiction|]. eexists _, _. split; [reflexivity|].
    intros E. destruct (digit_char_facts d) as [Q _]; [apply D; left; reflexivity|]. rewrite E in Q. discriminate.
  - destruct H as (D & C & _). apply number_some in C. destruct k as [|d k]; [contradiction|]. eexists _, _. split; [reflexivity|].
    intros E. destruct (digit_char_facts d) as [Q _]; [apply D; left; reflexivity|]. rewrite E in Q. discriminate.
Qed.

Lemma rest_visible : forall items tail, items <> [] -> Forall item_ok items -> blank (rest_text items tail) = false.
Proof.
  intros [|i is] tail N F; [contradiction|]. inversion F as [|? ? F1 F2]; subst. destruct is as [|j is].
  - rewrite rest_one, blank_app, item_visible by exact F1. reflexivity.
  - rewrite rest_cons by discriminate. rewrite blank_app, item_visible by exact F1. reflexivity.
Qed.
Lemma flat_visible : forall xs tail, xs <> [] -> Forall name_ok xs -> blank (flat_text xs tail) = false.
Proof.
  intros [|x xs] tail N F; [contradiction|]. inversion F as [|? ? F1 F2]; subst. unfold flat_text. cbn [map List.concat].
  rewrite !blank_app, name_visible by exact F1. reflexivity.
Qed.
Lemma shape_visible : forall s items, shape s items -> blank s = false.
Proof. intros s items [is t N F B|xs t N F B]; [apply rest_visible|apply flat_visible]; assumption. Qed.

Lemma not_just_close : forall c r, c <> close -> teqb (rdrop_ws (c :: r)) [close] = false.
Proof.
  intros c r N. destruct (teqb (rdrop_ws (c :: r)) [close]) eqn:E; [|reflexivity]. apply teqb_eq in E.
  destruct (rdrop_ws_split (c :: r)) as (w & _ & Q). rewrite E in Q. cbn in Q. congruence.
Qed.
Lemma shape_head : forall s items, shape s items -> teqb (rdrop_ws s) [close] = false.
Proof.
  intros s items [is t N F B|xs t N F B].
  - destruct is as [|i is]; [contradiction|]. inversion F as [|? ? F1 F2]; subst. destruct (item_head i F1) as (c & r & E & Nc).
    destruct is as [|j is]; [rewrite rest_one, E|rewrite rest_cons, E by discriminate]; apply not_just_close; exact Nc.
  - destruct xs as [|x xs]; [contradiction|]. inversion F as [|? ? F1 F2]; subst. destruct (item_head (One x) F1) as (c & r & E & Nc).
    unfold flat_text. cbn [map List.concat]. cbn [item_text] in E. rewrite E. apply not_just_close. exact Nc.
Qed.
Lemma blank_not_close : forall s, blank s = true -> teqb (rdrop_ws s) [close] = false.
Proof. intros s B. apply rdrop_ws_blank in B. rewrite B. reflexivity. Qed.

(** Reading a name. *)
Lemma find_end : forall x sep r, name_ok x -> sep = comma \/ (sep = close /\ ~ In comma r) ->
  match find1 comma (name_text x ++ sep :: r) with Some n => Some n | None => find1 close (name_text x ++ sep :: r) end = Some (List.length (name_text x)).
Proof.
  intros x sep r H [->|[-> N]].
  - rewrite find1_app; [reflexivity|]. apply name_chars; [exact H|reflexivity|exact sep_comma|discriminate].
  - rewrite find1_none.
    + rewrite find1_app; [reflexivity|]. apply name_chars; [exact H|reflexivity|exact sep_close|discriminate].
    + intros I. apply in_app_iff in I. destruct I as [I|[I|I]]; [|discriminate|contradiction].
      revert I. apply name_chars; [exact H|reflexivity|exact sep_comma|discriminate].
Qed.
Lemma blank_no : forall c s, blank s = true -> is_ws c = false -> ~ In c s.
Proof. intros c s B W. apply blank_plain; [apply blank_iff; exact B|exact W]. Qed.

Lemma shape_name : forall s x is, shape s (One x :: is) -> exists sep r, s = name_text x ++ sep :: r /\ name_ok x /\
  (sep = comma \/ (sep = close /\ ~ In comma r)) /\ ((is = [] /\ blank r = true) \/ (is <> [] /\ shape r is)).
Proof.
  intros s x is H. remember (One x :: is) as items eqn:E. destruct H as [items t N F B|xs t N F B].
  - subst items. inversion F as [|? ? F1 F2]; subst. destruct is as [|i is].
    + rewrite rest_one. exists close, t. cbn [item_text]. split; [reflexivity|]. split; [exact F1|]. split; [|left; auto].
      right. split; [reflexivity|]. apply blank_no; [exact B|reflexivity].
    + rewrite rest_cons by discriminate. exists comma, (rest_text (i :: is) t). cbn [item_text]. split; [reflexivity|]. split; [exact F1|]. split; [auto|].
      right. split; [discriminate|]. constructor; [discriminate|exact F2|exact B].
  - destruct xs as [|y xs]; [contradiction|]. cbn [map] in E. injection E as E1 E2. subst y is. inversion F as [|? ? F1 F2]; subst.
    exists comma, (flat_text xs t). split; [unfold flat_text; cbn [map List.concat]; rewrite <- !app_assoc; reflexivity|]. split; [exact F1|]. split; [auto|].
    destruct xs as [|y xs]; [left; split; [reflexivity|exact B]|]. right. split; [discriminate|]. constructor; [discriminate|exact F2|exact B].
Qed.

(** Reading a repetition. *)
Definition expanded (i : item) : option (list nat * list name_in) :=
  match i with One _ => None | RepeatOne k x => Some (k, [x]) | RepeatList k xs => Some (k, xs) end.
Lemma names_ok_repeat : forall xs n, Forall name_ok xs -> Forall name_ok (List.concat (List.repeat xs n)).
Proof. intros xs n F. induction n as [|n IH]; [constructor|]. cbn [List.repeat List.concat]. apply Forall_app. split; assumption. Qed.
Lemma ones_ok : forall xs, Forall name_ok xs -> Forall item_ok (map One xs).
Proof. intros xs F. apply Forall_forall. intros i I. apply in_map_iff in I. destruct I as (x & <- & I). rewrite Forall_forall in F. exact (F x I). Qed.
Lemma join_no : forall xs c, Forall name_ok xs -> c <> comma -> is_ws c = false -> separator c -> c <> quote -> ~ In c (join [comma] (map name_text xs)).
Proof.
  induction xs as [|x xs IH]; intros c F N W S Nq; [intros []|]. inversion F as [|? ? F1 F2]; subst. destruct xs as [|y xs].
  - cbn. apply name_chars; assumption.
  - change (join [comma] (map name_text (x :: y :: xs))) with (name_text x ++ [comma] ++ join [comma] (map name_text (y :: xs))).
    intros I. rewrite !in_app_iff in I. destruct I as [I|[[I|[]]|I]]; [revert I; apply name_chars; assumption|congruence|]. revert I. apply IH; assumption.
Qed.

Lemma repeat_some : forall {A} (xs : list A) n, xs <> [] -> (1 <= n)%nat -> List.concat (List.repeat xs n) <> [].
Proof. intros A [|x xs] [|n] N L; try contradiction; [lia|discriminate]. Qed.

Lemma expand_after : forall xs k is t, xs <> [] -> (1 <= k)%nat -> Forall name_ok xs -> Forall item_ok is -> blank t = true ->
  shape (List.concat (List.repeat (List.concat (map (fun x => name_text x ++ [comma]) xs)) k) ++ match is with [] => t | _ => rest_text is t end)
        (map One (List.concat (List.repeat xs k)) ++ is).
Proof.
  intros xs k is t N L F Fi B. rewrite <- flat_repeat. destruct is as [|i is].
  - rewrite app_nil_r. constructor; [apply repeat_some; assumption|apply names_ok_repeat; exact F|exact B].
  - rewrite rest_flat by discriminate. constructor; [|apply Forall_app; split; [apply ones_ok; apply names_ok_repeat; exact F|exact Fi]|exact B].
    destruct (map One (List.concat (List.repeat xs k))); discriminate.
Qed.

Lemma shape_repeat : forall s i is k xs, shape s (i :: is) -> expanded i = Some (k, xs) ->
  exists s1 s2, take_digits s = Ok (number_text k, s1) /\ number_text k <> [] /\
    expand_line s1 (Z.to_nat (digits_value 0 (number_text k))) = Ok s2 /\ shape s2 (map One (List.concat (List.repeat xs (count k))) ++ is) /\
    xs <> [] /\ (1 <= count k)%nat.
Proof.
  intros s i is k xs H E. remember (i :: is) as items eqn:Q. destruct H as [items t N F B|ys t N F B].
  2:{ destruct ys as [|y ys]; [contradiction|]. cbn [map] in Q. injection Q as Q1 Q2. subst i. discriminate. }
  subst items. inversion F as [|? ? F1 F2]; subst.
  set (sep := match is with [] => close | _ => comma end). set (after := match is with [] => t | _ => rest_text is t end).
  assert (R : rest_text (i :: is) t = item_text i ++ sep :: after).
  { unfold sep, after. destruct is as [|j is]; [reflexivity|]. apply rest_cons. discriminate. }
  rewrite R.
  assert (CN : forall k, digits_ok k -> Z.to_nat (digits_value 0 (number_text k)) = count k).
  { intros k0 D. change 0%Z with (Z.of_nat 0). rewrite number_count by exact D. rewrite Nat2Z.id. reflexivity. }
  assert (SC : sep = comma \/ (sep = close /\ ~ In comma after)).
  { unfold sep, after. destruct is; [right; split; [reflexivity|apply blank_no; [exact B|reflexivity]]|left; reflexivity]. }
  destruct i as [x|k0 x|k0 ys]; [discriminate| |]; cbn [expanded] in E; injection E as <- <-; cbn [item_text].
  - destruct F1 as (D & C & X).
    exists (T "*" ++ name_text x ++ sep :: after). eexists. split; [|split; [|split; [|split]]].
    + rewrite <- !app_assoc. change (T "*" ++ name_text x ++ sep :: after) with ("*"%char :: name_text x ++ sep :: after). apply take_number; [exact D|reflexivity].
    + apply number_some; exact C.
    + unfold expand_line. change (skipn 1 (T "*" ++ name_text x ++ sep :: after)) with (name_text x ++ sep :: after).
      pose proof (find_end x sep after X SC) as FE. destruct (name_head x X) as (c & r & EN & _).
      assert (Nc : Ascii.eqb c "(" = false).
      { apply Ascii.eqb_neq. intros ->. apply (name_chars x "(" X eq_refl sep_open ltac:(discriminate)). rewrite EN. left; reflexivity. }
      assert (EX : name_text x ++ sep :: after = c :: (r ++ sep :: after)) by (rewrite EN; reflexivity).
      rewrite EX. rewrite Nc. rewrite <- EX. rewrite FE. unfold upto, Lte_Model.after.
      rewrite firstn_exact, firstn_S_exact. rewrite (CN _ D). reflexivity.
    + pose proof (expand_after [x] (count k0) is t ltac:(discriminate) C (Forall_cons _ X (Forall_nil _)) F2 B) as P.
      cbn [map List.concat] in P. rewrite app_nil_r in P. exact P.
    + split; [discriminate|exact C].
  - destruct F1 as (D & C & Ny & X).
    exists (T "*(" ++ join (T ",") (map name_text ys) ++ T ")" ++ sep :: after). eexists. split; [|split; [|split; [|split]]].
    + rewrite <- !app_assoc. cbn [T list_ascii_of_string app]. apply take_number; [exact D|reflexivity].
    + apply number_some; exact C.
    + unfold expand_line. change (skipn 1 (T "*(" ++ join (T ",") (map name_text ys) ++ T ")" ++ sep :: after)) with ("("%char :: join [comma] (map name_text ys) ++ close :: sep :: after).
      cbn [Ascii.eqb]. change (Ascii.eqb "(" "(") with true. cbv iota. rewrite find1_app by (apply join_no; [exact X|discriminate|reflexivity|exact sep_close|discriminate]).
      unfold upto, Lte_Model.after. rewrite firstn_exact. rewrite (join_flat ys Ny). rewrite (CN _ D).
      replace (skipn (List.length (join [comma] (map name_text ys)) + 2) (join [comma] (map name_text ys) ++ close :: sep :: after)) with after; [reflexivity|].
      rewrite skip_more. reflexivity.
    + apply expand_after; assumption.
    + split; assumption.
Qed.

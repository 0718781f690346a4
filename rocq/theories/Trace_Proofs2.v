From Coq Require Import List Reals Bool Arith String Ascii ZArith Lia Lra DecimalString DecimalNat.
From Verif Require Import PyBase PyDict PyText Line_Model Line_Spec Line_Proofs Lte_Model Lte_Spec Lte_Proofs Lte_Proofs2 Trace_Model Trace_Spec Trace_Proofs.
Import ListNotations.
Open Scope R_scope.

(* ---------------- the text of a card ---------------- *)
Lemma ws_low : forall c, is_ws c = true -> low c = c.
Proof.
  intros c H. assert (G : (negb (is_ws c) || Ascii.eqb (low c) c)%bool = true) by (revert c H; intros c _; revert c; apply char_check; vm_compute; reflexivity).
  rewrite H in G. apply Ascii.eqb_eq. exact G.
Qed.
Lemma blank_of : forall s, blank_line s -> blank s = true.
Proof. intros s H. apply forallb_forall. exact H. Qed.
Lemma lowert_blank : forall s, blank_line s -> lowert s = s.
Proof. intros s H. unfold lowert. rewrite <- (map_id s) at 2. apply map_ext_in. intros c I. apply ws_low. apply H. exact I. Qed.
Lemma low_lower : forall c, low c = lower_char c.
Proof. intros c. apply Ascii.eqb_eq. revert c. apply (char_check (fun c => Ascii.eqb (low c) (lower_char c))). vm_compute. reflexivity. Qed.
Lemma str_lowert : forall t, str (lowert t) = lower (str t).
Proof. induction t as [|c t IH]; [reflexivity|]. change (String (low c) (str (lowert t)) = String (lower_char c) (lower (str t))). rewrite IH. rewrite low_lower. reflexivity. Qed.
Lemma str_T : forall s, str (T s) = s.
Proof. intros s. apply string_of_list_ascii_of_string. Qed.
Lemma T_str : forall t, T (str t) = t.
Proof. intros t. apply list_ascii_of_string_of_list_ascii. Qed.
Lemma word_lower : forall t k, same_name (string_of_list_ascii t) (kind_word k) -> lowert t = T (kind_word k).
Proof.
  intros t k H. apply same_name_lower in H. change (string_of_list_ascii t) with (str t) in H. rewrite <- str_lowert in H.
  rewrite <- (T_str (lowert t)). rewrite H. destruct k; reflexivity.
Qed.

Definition numbers_text (ns : list (text * literal)) : text := List.concat (map (fun sl => fst sl ++ literal_text (snd sl)) ns).
Definition body (c : card) : text := c_pad c ++ T (kind_word (c_kind c)) ++ numbers_text (c_numbers c) ++ c_blank c.
Definition tail (c : card) : text := match c_comment c with Some t => T ";" ++ t | None => [] end.
Lemma lowert_app : forall a b, lowert (a ++ b) = lowert a ++ lowert b.
Proof. intros. apply map_app. Qed.
Definition numbers_ok (ns : list (text * literal)) : Prop := Forall (fun sl => fst sl <> [] /\ blank_line (fst sl) /\ fixed_point (snd sl)) ns.
Lemma numbers_lower : forall ns, numbers_ok ns -> lowert (numbers_text ns) = numbers_text ns.
Proof.
  induction ns as [|[s l] ns IH]; intros H; [reflexivity|]. inversion H as [|? ? (_ & B & F) Hr]; subst. cbn [fst snd] in *.
  unfold numbers_text. cbn [map List.concat]. rewrite !lowert_app. cbn [fst snd]. rewrite (lowert_blank s B), (lowert_lit _ (lit_text l (proj1 F))).
  fold (numbers_text ns). rewrite IH by exact Hr. reflexivity.
Qed.
Lemma card_lower : forall c, card_form fixed_point c -> lowert (card_text c) = body c ++ match c_comment c with Some t => semicolon :: lowert t | None => [] end.
Proof.
  intros c (P & W & N & B). unfold card_text, body. rewrite !lowert_app. rewrite (lowert_blank _ P), (word_lower _ _ W), (lowert_blank _ B).
  fold (numbers_text (c_numbers c)). rewrite (numbers_lower _ N). rewrite <- !app_assoc. destruct (c_comment c); reflexivity.
Qed.
(** what is not in the text of a card *)
Lemma body_chars : forall c (P : ascii -> bool), card_form fixed_point c -> (forall x, is_ws x = true -> P x = true) -> (forall x, lit_char x = true -> P x = true) ->
  forallb P (T (kind_word (c_kind c))) = true -> forallb P (body c) = true.
Proof.
  intros c P (Hp & _ & N & B) Pw Pl Pk. unfold body. rewrite !forallb_app. 
  assert (Bl : forall s, blank_line s -> forallb P s = true) by (intros s Hs; apply forallb_forall; intros x I; apply Pw, Hs, I).
  rewrite (Bl _ Hp), Pk, (Bl _ B). cbn [andb]. rewrite andb_true_r. unfold numbers_text.
  induction (c_numbers c) as [|[s l] ns IH]; [reflexivity|]. inversion N as [|? ? (_ & Bs & F) Nr]; subst. cbn [map List.concat fst snd].
  rewrite !forallb_app. rewrite (IH Nr), (Bl s Bs). cbn [andb]. rewrite andb_true_r.
  pose proof (lit_text l (proj1 F)) as L. rewrite forallb_forall in *. intros x I. apply Pl. apply L. exact I.
Qed.
Lemma no_semicolon : forall c, card_form fixed_point c -> ~ In semicolon (body c).
Proof.
  intros c H. apply (all_not_in (fun x => negb (Ascii.eqb x semicolon))); [|reflexivity].
  apply body_chars; [exact H| | |destruct (c_kind c); reflexivity]; intros x X.
  - destruct (Ascii.eqb_spec x semicolon) as [->|]; [discriminate X|reflexivity].
  - destruct (Ascii.eqb_spec x semicolon) as [->|]; [discriminate X|reflexivity].
Qed.
Lemma cut_body : forall c, card_form fixed_point c -> cut (body c) = body c.
Proof. intros c H. unfold cut. rewrite find1_none by (apply no_semicolon; exact H). reflexivity. Qed.
Lemma cut_lower : forall c, card_form fixed_point c -> cut (lowert (card_text c)) = body c.
Proof.
  intros c H. rewrite card_lower by exact H. destruct (c_comment c) as [t|]; [|rewrite app_nil_r; apply cut_body; exact H].
  unfold cut. rewrite find1_app by (apply no_semicolon; exact H). rewrite firstn_app, firstn_all, Nat.sub_diag. cbn [firstn]. apply app_nil_r.
Qed.
Lemma sanitize_card : forall c done, card_form fixed_point c -> sanitize_line (card_text c) done = Ok (body c :: done).
Proof.
  intros c done H. unfold sanitize_line. rewrite cut_lower by exact H. rewrite card_lower by exact H. unfold body. rewrite <- !app_assoc.
  rewrite drop_ws_app by (apply blank_of; apply H). destruct (c_kind c); reflexivity.
Qed.
Lemma sanitize_blank : forall l done, blank_line l -> sanitize_line l done = Ok done.
Proof. intros l done H. unfold sanitize_line. rewrite lowert_blank by exact H. rewrite (proj2 (drop_ws_blank l) (blank_of _ H)). reflexivity. Qed.
Lemma sanitize_comment : forall pad rest done, blank_line pad -> sanitize_line (pad ++ T ";" ++ rest) done = match done with [] => Err IndexError | x :: r => Ok (cut x :: r) end.
Proof.
  intros pad rest done H. unfold sanitize_line. rewrite !lowert_app. rewrite lowert_blank by exact H. rewrite drop_ws_app by (apply blank_of; exact H). reflexivity.
Qed.

Lemma comments_inside_cons : forall e es, comments_inside (e :: es) -> comments_inside es.
Proof. intros e es H a pad rest b E. apply (H (e :: a) pad rest b). rewrite E. reflexivity. Qed.
Lemma cards_in : forall es c, In (Card c) es -> In c (cards es).
Proof. intros es c I. unfold cards. apply in_flat_map. exists (Card c). split; [exact I|left; reflexivity]. Qed.
Lemma cards_form : forall P es, Forall (entry_form P) es -> Forall (card_form P) (cards es).
Proof.
  intros P es H. apply Forall_forall. intros c I. unfold cards in I. apply in_flat_map in I. destruct I as (e & Ie & Ic).
  rewrite Forall_forall in H. specialize (H e Ie). destruct e; cbn in Ic; [|destruct Ic|destruct Ic]. destruct Ic as [<-|[]]. exact H.
Qed.
Lemma sanitize_entries : forall es, Forall (entry_form fixed_point) es -> comments_inside es -> sanitize (map entry_text es) = Ok (map body (cards es)).
Proof.
  induction es as [|e es IH]; intros F C; [reflexivity|]. inversion F as [|? ? F1 F2]; subst. cbn [map sanitize].
  rewrite (IH F2 (comments_inside_cons _ _ C)). cbn [rbind]. destruct e as [c|l|pad rest]; cbn [entry_text].
  - apply sanitize_card. exact F1.
  - apply sanitize_blank. exact F1.
  - cbn [entry_text]. rewrite sanitize_comment by exact F1. change (cards (CommentLine pad rest :: es)) with (cards es).
    destruct (C [] pad rest es eq_refl) as (c & Ic). apply cards_in in Ic. pose proof (cards_form _ _ F2) as Fc.
    destruct (cards es) as [|c0 cs]; [destruct Ic|]. cbn [map]. inversion Fc; subst. rewrite cut_body by assumption. reflexivity.
Qed.

(* ---------------- the words of a line ---------------- *)
Lemma split_aux_word : forall w cur rest, (forall c, In c w -> is_ws c = false) -> w ++ cur <> [] ->
  (rest = [] \/ exists c r, rest = c :: r /\ is_ws c = true) -> exists tl, split_ws_aux cur (w ++ rest) = (rev cur ++ w) :: tl.
Proof.
  induction w as [|c w IH]; intros cur rest W N Er.
  - cbn [app] in *. rewrite app_nil_r. destruct Er as [->|(c & r & -> & Hc)]; cbn [split_ws_aux].
    + destruct cur; [contradiction|]. eexists; reflexivity.
    + rewrite Hc. destruct cur; [contradiction|]. eexists; reflexivity.
  - cbn [app split_ws_aux]. rewrite (W c) by (left; reflexivity).
    destruct (IH (c :: cur) rest) as (tl & E); [intros x I; apply W; right; exact I|destruct w; discriminate|exact Er|].
    exists tl. rewrite E. cbn [rev]. rewrite <- app_assoc. reflexivity.
Qed.
Lemma split_head : forall pad w rest, blank pad = true -> (forall c, In c w -> is_ws c = false) -> w <> [] ->
  (rest = [] \/ exists c r, rest = c :: r /\ is_ws c = true) -> exists tl, split_ws (pad ++ w ++ rest) = w :: tl.
Proof.
  intros pad w rest P W N Er. unfold split_ws. induction pad as [|c pad IH].
  - cbn [app]. apply (split_aux_word w [] rest W); [rewrite app_nil_r; exact N|exact Er].
  - cbn in P. apply andb_true_iff in P. destruct P as [P1 P2]. cbn [app split_ws_aux]. rewrite P1. apply IH. exact P2.
Qed.
Lemma blank_head : forall s r, blank_line s -> s <> [] -> exists c t, s ++ r = c :: t /\ is_ws c = true.
Proof. intros [|c s] r B N; [contradiction|]. exists c, (s ++ r). split; [reflexivity|]. apply B. left; reflexivity. Qed.
Lemma numbers_start : forall ns b, numbers_ok ns -> blank_line b -> numbers_text ns ++ b = [] \/ exists c r, numbers_text ns ++ b = c :: r /\ is_ws c = true.
Proof.
  intros [|[s l] ns] b N B.
  - cbn. destruct b as [|c b]; [left; reflexivity|]. right. exists c, b. split; [reflexivity|]. apply B. left; reflexivity.
  - right. inversion N as [|? ? (Ne & Bs & _) _]; subst. unfold numbers_text. cbn [map List.concat fst snd] in *. rewrite <- !app_assoc. apply blank_head; assumption.
Qed.
Lemma body_split : forall c, card_form fixed_point c -> exists tl, split_ws (body c) = T (kind_word (c_kind c)) :: tl.
Proof.
  intros c (P & _ & N & B). unfold body. apply split_head.
  - apply blank_of; exact P.
  - assert (X : forallb (fun x => negb (is_ws x)) (T (kind_word (c_kind c))) = true) by (destruct (c_kind c); reflexivity).
    rewrite forallb_forall in X. intros x I. apply X in I. apply negb_true_iff. exact I.
  - destruct (c_kind c); discriminate.
  - apply numbers_start; assumption.
Qed.
Lemma ends_ws : forall s, (s = [] \/ exists c r, s = c :: r /\ is_ws c = true) -> ends s.
Proof. intros s [->|(c & r & -> & W)] x y E; [discriminate|]. injection E as <- _. apply ws_dull. exact W. Qed.
Lemma findall_numbers : forall ns b, numbers_ok ns -> blank_line b ->
  findall 0 (numbers_text ns ++ b) = map (fun sl => literal_text (seen (snd sl))) ns.
Proof.
  induction ns as [|[s l] ns IH]; intros b N B.
  - cbn. rewrite <- (app_nil_r b). rewrite findall_dull by (apply blank_dull, blank_of; exact B). reflexivity.
  - inversion N as [|? ? (_ & Bs & F) Nr]; subst. cbn [fst snd] in *. unfold numbers_text. cbn [map List.concat fst snd]. rewrite <- !app_assoc.
    rewrite findall_dull by (apply blank_dull, blank_of; exact Bs). fold (numbers_text ns).
    rewrite findall_literal; [|exact F|apply ends_ws, numbers_start; assumption]. rewrite IH by assumption. reflexivity.
Qed.
Lemma findall_body : forall c, card_form fixed_point c -> findall 0 (body c) = map (fun sl => literal_text (seen (snd sl))) (c_numbers c).
Proof.
  intros c (P & _ & N & B). unfold body. rewrite findall_dull by (apply blank_dull, blank_of; exact P).
  rewrite findall_dull by (destruct (c_kind c); reflexivity). apply findall_numbers; assumption.
Qed.
Definition seen_values (c : card) : list R := map (fun sl => literal_value (seen (snd sl))) (c_numbers c).
Lemma read_numbers : forall names ns, numbers_ok ns ->
  read_values names (map (fun sl => literal_text (seen (snd sl))) ns) = Ok (combine names (map (fun sl => literal_value (seen (snd sl))) ns)).
Proof.
  induction names as [|n names IH]; intros ns N; [reflexivity|]. destruct ns as [|[s l] ns]; [reflexivity|].
  inversion N as [|? ? (_ & _ & F) Nr]; subst. cbn [map read_values snd combine] in *. rewrite py_float_literal by (apply seen_ok; exact F).
  rewrite IH by exact Nr. reflexivity.
Qed.
Lemma plain_fixed : forall c, card_ok c -> card_form fixed_point c.
Proof.
  intros c (A & B & C & D). refine (conj A (conj B (conj _ D))). apply Forall_forall. rewrite Forall_forall in C. intros x I. destruct (C x I) as (H1 & H2 & H3).
  refine (conj H1 (conj H2 _)). apply H3.
Qed.
Lemma plain_seen : forall c, card_ok c -> seen_values c = card_values c.
Proof.
  intros c (_ & _ & C & _). unfold seen_values, card_values. apply map_ext_in. intros x I. rewrite Forall_forall in C. apply seen_value. apply (C x I).
Qed.

(* ---------------- the beamline being built ---------------- *)
Definition made := (string * string * list (string * R))%type.
Definition m_name (m : made) : string := fst (fst m).
Definition m_thing (m : made) : thing := (snd (fst m), snd m).
Definition element_of (m : made) : element :=
  {| e_name := m_name m; e_type := snd (fst m); e_params := assigns [] (kwargs (snd m)); e_line := Some 0%nat |}.
Definition heap_of (nm : string) (ms : list made) : heap :=
  {| elems := map element_of ms;
     lines := [{| l_name := Some nm; l_elements := combine (map m_name ms) (seq 0 (List.length ms)); l_lines := [];
                  l_seq := map RE (seq 0 (List.length ms)); l_top := 0%nat |}] |}.
Lemma dset_new : forall {V} (d : list (string * V)) k v, ~ In k (map fst d) -> dset string_dec d k v = d ++ [(k, v)].
Proof.
  induction d as [|[k0 v0] d IH]; intros k v N; [reflexivity|]. cbn in *. destruct (string_dec k k0) as [->|D]; [exfalso; tauto|].
  f_equal. apply IH. tauto.
Qed.
Lemma combine_fst : forall {A B} (l : list A) (m : list B), List.length l = List.length m -> map fst (combine l m) = l.
Proof. induction l as [|x l IH]; intros [|y m] E; try discriminate; [reflexivity|]. cbn. f_equal. apply IH. injection E as E. exact E. Qed.
Lemma combine_app : forall {A B} (l1 : list A) (m1 : list B) l2 m2, List.length l1 = List.length m1 -> combine (l1 ++ l2) (m1 ++ m2) = combine l1 m1 ++ combine l2 m2.
Proof. induction l1 as [|x l1 IH]; intros [|y m1] l2 m2 E; try discriminate; [reflexivity|]. cbn. f_equal. apply IH. injection E as E. exact E. Qed.
Lemma upd_end : forall {A} (l : list A) x f, upd (l ++ [x]) (List.length l) f = l ++ [f x].
Proof. induction l as [|y l IH]; intros x f; cbn; [reflexivity|]. f_equal. apply IH. Qed.
Lemma add_new : forall nm ms name ty d, ~ In name (map m_name ms) -> existsb (fun kv => reserved (fst kv)) (kwargs d) = false -> interpret_element ty = ty ->
  add_element (heap_of nm ms) 0 name ty (kwargs d) false = (heap_of nm (ms ++ [(name, ty, d)]), Ok tt).
Proof.
  intros nm ms name ty d N Rs It. unfold add_element. cbn [heap_of lines nth_error].
  unfold the_element. cbn [l_elements].
  assert (D : dget string_dec (combine (map m_name ms) (seq 0 (List.length ms))) name = None).
  { apply dget_none. unfold dkeys. rewrite combine_fst by (rewrite map_length, seq_length; reflexivity). exact N. }
  rewrite D. unfold new_element. rewrite Rs. rewrite It. cbn [upd_line upd elems lines upd_elem l_top heap_of].
  unfold heap_of. f_equal. unfold upd_line, upd_elem. cbn [elems lines]. f_equal.
  - rewrite map_app. cbn [map]. rewrite upd_end. reflexivity.
  - cbn [upd]. unfold append_ref, register_element. cbn [l_name l_elements l_lines l_seq l_top]. f_equal. f_equal.
    + rewrite dset_new by (rewrite combine_fst by (rewrite map_length, seq_length; reflexivity); exact N).
      rewrite map_app, app_length, seq_app. cbn [map List.length seq]. rewrite combine_app by (rewrite map_length, seq_length; reflexivity).
      cbn [combine]. rewrite map_length. reflexivity.
    + rewrite map_length, app_length, seq_app, map_app. reflexivity.
Qed.

(* ---------------- names ---------------- *)
Fixpoint sspan (s : string) : string * string :=
  match s with
  | String c r => if is_digit c then let (a, b) := sspan r in (String c a, b) else (EmptyString, s)
  | EmptyString => (EmptyString, EmptyString)
  end.
Lemma sspan_uint : forall u s, (s = EmptyString \/ exists c r, s = String c r /\ is_digit c = false) ->
  sspan (String.append (NilEmpty.string_of_uint u) s) = (NilEmpty.string_of_uint u, s).
Proof.
  induction u; intros s H; cbn [NilEmpty.string_of_uint String.append].
  1:{ destruct H as [->|(c & r & -> & H)]; [reflexivity|]. cbn. rewrite H. reflexivity. }
  all: cbn [sspan]; rewrite (IHu s H); reflexivity.
Qed.
Definition suffix (s : string) : Prop := In s [""; "_q1"; "cav"; "_q2"]%string.
Lemma append_assoc : forall a b c : string, String.append (String.append a b) c = String.append a (String.append b c).
Proof. induction a as [|x a IH]; intros b c; cbn; [reflexivity|]. rewrite IH. reflexivity. Qed.
Lemma append_nil : forall a : string, String.append a "" = a.
Proof. induction a as [|x a IH]; cbn; [reflexivity|]. rewrite IH. reflexivity. Qed.
Lemma suffix_start : forall s, suffix s -> s = EmptyString \/ exists c r, s = String c r /\ is_digit c = false.
Proof. intros s [<-|[<-|[<-|[<-|[]]]]]; [left; reflexivity| | |]; right; do 2 eexists; split; reflexivity. Qed.
Lemma names_differ : forall i j s t, suffix s -> suffix t -> String.append (element_name i) s = String.append (element_name j) t -> i = j /\ s = t.
Proof.
  intros i j s t Hs Ht E. unfold element_name in E. rewrite !append_assoc in E. cbn [String.append] in E. injection E as E.
  pose proof (f_equal sspan E) as F. rewrite (sspan_uint _ s (suffix_start s Hs)), (sspan_uint _ t (suffix_start t Ht)) in F. injection F as F1 F2. split; [|exact F2].
  apply DecimalNat.Unsigned.to_uint_inj.
  pose proof (f_equal NilEmpty.uint_of_string F1) as G. rewrite !NilEmpty.usu in G. injection G as G. exact G.
Qed.
Definition names_below (n : nat) (ms : list made) : Prop :=
  forall m, In m ms -> exists i s, (i < n)%nat /\ suffix s /\ m_name m = String.append (element_name i) s.
Lemma fresh_name : forall n ms j s, names_below n ms -> (n <= j)%nat -> suffix s -> ~ In (String.append (element_name j) s) (map m_name ms).
Proof.
  intros n ms j s H L S I. apply in_map_iff in I. destruct I as (m & E & I). destruct (H m I) as (i & t & Li & St & Em).
  rewrite Em in E. destruct (names_differ i j t s St S E) as [-> _]. lia.
Qed.

(** Claim C115: asking one parser for several beamlines. *)
From Coq Require Import List Reals Bool Arith String Ascii ZArith Lia Lra.
From Verif Require Import PyBase PyDict PyText Line_Model Line_Spec Line_Proofs Line_Proofs2 Lte_Model Lte_Props Reuse_Model.
Import ListNotations.

(* ------------------------------------------------------------------ *)
(** Nothing in the parser looks at the name of a beamline *)
Definition renamed (n : option string) (l : line) : line :=
  {| l_name := n; l_elements := l_elements l; l_lines := l_lines l; l_seq := l_seq l; l_top := l_top l |}.
Definition named (n : option string) (h : heap) : heap := upd_line h 0 (renamed n).
Definition over (n : option string) {A} (r : run A) : run A := (named n (fst r), snd r).

Lemma upd_swap : forall A (f g : A -> A), (forall x, f (g x) = g (f x)) -> forall l i j, upd (upd l i f) j g = upd (upd l j g) i f.
Proof. intros A f g C. induction l as [|x l IH]; intros [|i] [|j]; cbn; try reflexivity; [now rewrite C|now rewrite IH]. Qed.
Lemma named_line : forall n h a f, (forall l, renamed n (f l) = f (renamed n l)) -> named n (upd_line h a f) = upd_line (named n h) a f.
Proof. intros. unfold named, upd_line. cbn [elems lines]. f_equal. apply upd_swap. intros. symmetry. auto. Qed.
Lemma named_elem : forall n h e f, named n (upd_elem h e f) = upd_elem (named n h) e f.
Proof. reflexivity. Qed.
Lemma named_nth : forall n h a, nth_error (lines (named n h)) a = option_map (fun l => if (a =? 0)%nat then renamed n l else l) (nth_error (lines h) a).
Proof.
  intros n h a. unfold named, upd_line. cbn [lines]. destruct (lines h) as [|l ls]; [destruct a; reflexivity|]. destruct a; cbn; [reflexivity|]. destruct (nth_error ls a); reflexivity.
Qed.
Lemma named_parts : forall n l (b : bool), let l' := if b then renamed n l else l in
  l_elements l' = l_elements l /\ l_lines l' = l_lines l /\ l_seq l' = l_seq l /\ l_top l' = l_top l.
Proof. intros n l []; repeat split. Qed.

Lemma named_the_element : forall n h a l l' name ty ps, l_elements l' = l_elements l ->
  the_element (named n h) a l' name ty ps = over n (the_element h a l name ty ps).
Proof.
  intros n h a l l' name ty ps E. unfold the_element, over. rewrite E. destruct (dget string_dec (l_elements l) name); [reflexivity|]. destruct (new_element name ty ps) as [el|x|]; cbn [fst snd]; try reflexivity.
  rewrite named_line by reflexivity. reflexivity.
Qed.
Lemma named_add_element : forall n h a name ty ps sub, add_element (named n h) a name ty ps sub = over n (add_element h a name ty ps sub).
Proof.
  intros. unfold add_element. rewrite named_nth. destruct (nth_error (lines h) a) as [l|]; [|reflexivity]. cbn [option_map].
  destruct (named_parts n l (a =? 0)%nat) as (E1 & E2 & E3 & E4). set (l' := if (a =? 0)%nat then renamed n l else l) in *.
  rewrite (named_the_element n h a l l' name ty ps E1). unfold last_ref. rewrite E3, E4. destruct (the_element h a l name ty ps) as [h1 [e|x|]]; unfold over; cbn [fst snd]; try reflexivity.
  destruct sub.
  - destruct (rev (l_seq l)) as [|[e'|b] r]; cbn [fst snd]; rewrite ?named_line by reflexivity; reflexivity.
  - cbn [fst snd]. rewrite named_line by reflexivity. reflexivity.
Qed.
Lemma named_add_beamline : forall n h a name, add_beamline (named n h) a name = over n (add_beamline h a name).
Proof.
  intros. unfold add_beamline. rewrite named_nth. destruct (nth_error (lines h) a) as [l|] eqn:Ha; [|reflexivity]. cbn [option_map].
  destruct (named_parts n l (a =? 0)%nat) as (E1 & E2 & E3 & E4). set (l' := if (a =? 0)%nat then renamed n l else l) in *. rewrite E2, E4.
  destruct (dget name_dec (l_lines l) name) as [b|].
  - unfold over. cbn [fst snd]. rewrite !named_line by reflexivity. reflexivity.
  - unfold new_line. assert (Len : List.length (lines (named n h)) = List.length (lines h)) by (unfold named, upd_line; cbn [lines]; destruct (lines h); reflexivity). rewrite Len.
    unfold over. cbn [fst snd]. rewrite !named_line by reflexivity. f_equal. f_equal. f_equal. f_equal. unfold named, upd_line. cbn [elems lines]. f_equal.
    destruct (lines h); [destruct a; discriminate|reflexivity].
Qed.
Lemma named_parse_loop : forall n fuel lns defs h s stack flag nend, parse_loop fuel lns defs (named n h) 0 s stack flag nend = over n (parse_loop fuel lns defs h 0 s stack flag nend).
Proof.
  induction fuel as [|fuel IH]; intros; [reflexivity|]. cbn [parse_loop]. destruct (blank s); [reflexivity|]. destruct (take_digits s) as [[co s1]|x|]; try reflexivity.
  destruct (match co with [] => Ok s1 | _ => expand_line s1 (Z.to_nat (digits_value 0 co)) end) as [s2|x|]; try reflexivity.
  destruct (match find1 comma s2 with Some n0 => Some n0 | None => match find1 close s2 with Some n0 => Some n0 | None => nend end end) as [e|]; [|reflexivity].
  destruct (dget otext_dec lns (Some (trim (firstn e s2)))) as [body|].
  - rewrite named_add_beamline. destruct (add_beamline h 0 _) as [h1 [u|x|]]; unfold over at 1; cbn [fst snd]; [apply IH|reflexivity|reflexivity].
  - destruct (find_parameters _) as [[ty ps]|x|]; try reflexivity. rewrite named_add_element. destruct (add_element h 0 _ _ _ flag) as [h1 [u|x|]]; unfold over at 1; cbn [fst snd]; try reflexivity.
    destruct (blank _); [destruct stack|]; apply IH.
Qed.

(* ------------------------------------------------------------------ *)
(** find_beamlines of an object *)
Lemma find_lines_fresh : forall name defs, find_lines name defs [] [] = find_beamlines name defs.
Proof. induction defs as [|l r IH]; [reflexivity|]. cbn [find_lines find_beamlines]. rewrite IH. reflexivity. Qed.
Definition no_lines (defs : list text) : Prop := forall l, In l defs -> find (T "line=(") l = None.
Lemma find_lines_none : forall name defs lines str, no_lines defs -> find_lines name defs lines str = (defs, lines, str).
Proof.
  induction defs as [|l r IH]; intros lines str H; [reflexivity|]. cbn [find_lines]. rewrite IH by (intros x I; apply H; right; exact I). rewrite (H l (or_introl eq_refl)). reflexivity.
Qed.
Lemma find_lines_left : forall name defs lines str, no_lines (fst (fst (find_lines name defs lines str))).
Proof.
  induction defs as [|l r IH]; intros lines str; [intros l []|]. cbn [find_lines]. specialize (IH lines str). destruct (find_lines name r lines str) as [[o ls] s]. cbn [fst] in IH.
  destruct (find (T "line=(") l) eqn:F; [exact IH|]. intros x [<-|I]; auto.
Qed.
Lemma find_lines_string : forall name defs, dget otext_dec (snd (fst (find_lines name defs [] []))) (Some name) = None -> snd (find_lines name defs [] []) = [].
Proof.
  induction defs as [|l r IH]; intros H; [reflexivity|]. cbn [find_lines] in *. destruct (find_lines name r [] []) as [[o ls] s]. cbn [fst snd] in IH. destruct (find (T "line=(") l) as [k|]; cbn [fst snd] in *; [|auto].
  destruct (read_name l) as [n|] eqn:R.
  - destruct (teqb n name) eqn:E; [apply teqb_eq in E; subst n; rewrite dget_dset_same in H; discriminate|]. rewrite dget_dset_other in H; [auto|]. intros [= ->]. assert (X : teqb n n = true) by now apply teqb_eq. congruence.
  - rewrite dget_dset_other in H by discriminate. auto.
Qed.
(** after one search with a name there is nothing left to find *)
Lemma found_again : forall p, p_name p <> [] -> no_lines (p_defs (found p)).
Proof.
  intros p N. unfold found. destruct (p_name p) as [|c n]; [contradiction|]. pose proof (find_lines_left (c :: n) (p_defs p) (p_lines p) (p_string p)) as F. destruct (find_lines _ _ _ _) as [[d l] s]. exact F.
Qed.
Lemma found_known : forall p n, n <> [] -> no_lines (p_defs p) -> found (set_beamline p n) = set_beamline p n.
Proof. intros p n N H. unfold found, set_beamline. cbn [p_name p_defs p_lines p_string p_heap]. destruct n as [|c n]; [contradiction|]. now rewrite find_lines_none. Qed.
Lemma found_name : forall p, p_name (found p) = p_name p.
Proof. intros p. unfold found. destruct (p_name p) as [|c n] eqn:E; [exact E|]. destruct (find_lines _ _ _ _) as [[d l] s]. reflexivity. Qed.
Lemma call_parts : forall fuel p, p_defs (fst (call fuel p)) = p_defs (found p) /\ p_lines (fst (call fuel p)) = p_lines (found p) /\ p_string (fst (call fuel p)) = p_string (found p) /\ p_name (fst (call fuel p)) = p_name p.
Proof. intros fuel p. unfold call. cbv zeta. rewrite <- (found_name p). destruct (parse_set_beamline _ _ _ _ _ _ _) as [h r]. cbn. auto. Qed.

(** the line is defined in the file, as far as the object has found *)
Definition defines (p : parser) (n : text) : Prop := dget otext_dec (p_lines p) (Some n) <> None.

(* ================================================================== *)
(** C115 One parser serves for several beamlines.
    Full statement: a parser called after set_beamline(n) returns what a parser made for n returns,
    whatever was asked of it before. True for a name set before the first call and written in small
    letters; after the first call it is false. *)
Theorem C115_set_first_partial : forall show file n0 n p fuel, make show file n0 = Ok p -> lowert n = n ->
  exists h p' r, import fuel show file n = (h, r) /\ call fuel (set_beamline p n) = (p', r) /\
    (forall a, sequence (p_heap p') a = sequence h a) /\ (forall e, element_at (p_heap p') e = element_at h e).
Proof.
  intros show file n0 n p fuel M L. unfold make in M. unfold import. change (new_line empty_heap (Some (string_of_list_ascii n))) with (fst (new_line empty_heap (Some (string_of_list_ascii n))), 0%nat). destruct (sanitize file) as [[defs vars]|x|]; [|discriminate|discriminate]. cbn [rbind] in M. injection M as <-.
  unfold call, found, set_beamline. cbn [p_name p_defs p_lines p_string p_heap]. rewrite L. destruct n as [|c n].
  - do 3 eexists. split; [reflexivity|]. split; [reflexivity|]. cbn. split; [|reflexivity]. intros [|[|a]]; reflexivity.
  - rewrite find_lines_fresh. destruct (find_beamlines (c :: n) _) as [[d ls] str]. cbn [p_name p_defs p_lines p_string p_heap]. unfold parse_set_beamline.
    assert (X : exists o, dget otext_dec ls (Some (c :: n)) = o) by eauto. destruct X as [o X].
    repeat match goal with |- context [match ?t with Some _ => parse_loop _ _ _ _ _ _ _ _ _ | None => _ end] => replace t with o by (symmetry; exact X) end. destruct o.
    + set (h0 := fst (new_line empty_heap (Some (string_of_list_ascii (c :: n))))).
      change {| elems := []; lines := [{| l_name := Some (string_of_list_ascii n0); l_elements := []; l_lines := []; l_seq := []; l_top := 0 |}] |} with (named (Some (string_of_list_ascii n0)) h0). rewrite named_parse_loop. destruct (parse_loop fuel ls d h0 0 (skipn 1 str) [] false None) as [h r]. unfold over. cbn [fst snd].
      do 3 eexists. split; [reflexivity|]. split; [reflexivity|]. cbn [with_heap p_heap]. split; [|reflexivity]. intros a. unfold sequence. rewrite named_nth. destruct (nth_error (lines h) a) as [l|]; [|reflexivity]. cbn. destruct (a =? 0)%nat; reflexivity.
    + do 3 eexists. split; [reflexivity|]. split; [reflexivity|]. cbn. split; [|reflexivity]. intros [|[|a]]; reflexivity.
Qed.
Print Assumptions C115_set_first_partial.

(** After a call the name set no longer matters: every name the file defines gives the same. *)
Theorem C115_name_ignored_refuted : forall show file n0 p fuel p1 r fuel' n n', make show file n0 = Ok p -> n0 <> [] -> call fuel p = (p1, r) ->
  defines p1 n -> defines p1 n' -> n <> [] -> n' <> [] ->
  snd (call fuel' (set_beamline p1 n)) = snd (call fuel' (set_beamline p1 n')) /\ p_heap (fst (call fuel' (set_beamline p1 n))) = p_heap (fst (call fuel' (set_beamline p1 n'))).
Proof.
  intros show file n0 p fuel p1 r fuel' n n' M N0 C D D' N N'. assert (PN : p_name p <> []).
  { unfold make in M. destruct (sanitize file) as [[defs vars]|x|]; [|discriminate|discriminate]. cbn [rbind] in M. injection M as <-. cbn. destruct n0; [contradiction|discriminate]. }
  assert (NL : no_lines (p_defs p1)). { destruct (call_parts fuel p) as (E & _). rewrite C in E. cbn [fst] in E. rewrite E. now apply found_again. }
  unfold call. rewrite !found_known by assumption. unfold parse_set_beamline, set_beamline. cbn [p_name p_defs p_lines p_string p_heap]. unfold defines in D, D'.
  destruct (dget otext_dec (p_lines p1) (Some n)); [|congruence]. destruct (dget otext_dec (p_lines p1) (Some n')); [|congruence]. destruct (parse_loop _ _ _ _ _ _ _ _ _) as [h r']. auto.
Qed.
Print Assumptions C115_name_ignored_refuted.

(** A first call for a line the file does not have raises; the corrected call returns an empty beamline. *)
Theorem C115_corrected_refuted : forall show file n0 p fuel p1 r fuel' n, make show file n0 = Ok p -> n0 <> [] -> call fuel p = (p1, r) -> ~ defines p1 (lowert n0) -> defines p1 n -> n <> [] ->
  r = Err AssertionError /\ exists p2, call (S fuel') (set_beamline p1 n) = (p2, Ok tt) /\ sequence (p_heap p2) 0 = Some [].
Proof.
  intros show file n0 p fuel p1 r fuel' n M N0 C U D N. unfold make in M. destruct (sanitize file) as [[defs vars]|x|]; [|discriminate|discriminate]. cbn [rbind] in M. injection M as <-.
  set (p := {| p_name := _; p_string := _; p_lines := _; p_defs := _; p_heap := _ |}) in *. assert (PN : p_name p <> []) by (cbn; destruct n0; [contradiction|discriminate]).
  destruct (call_parts fuel p) as (E1 & E2 & E3 & _). rewrite C in E1, E2, E3. cbn [fst] in E1, E2, E3.
  assert (NL : no_lines (p_defs p1)) by (rewrite E1; now apply found_again).
  assert (U' : dget otext_dec (p_lines (found p)) (Some (lowert n0)) = None). { rewrite <- E2. unfold defines in U. destruct (dget otext_dec (p_lines p1) (Some (lowert n0))); [exfalso; apply U; discriminate|reflexivity]. }
  assert (P1 : p_string (found p) = []).
  { clear - U' PN. unfold found in *. change (p_name p) with (lowert n0) in *. destruct (lowert n0) as [|c m]; [contradiction|]. pose proof (find_lines_string (c :: m) (p_defs p)) as F. cbn [p p_lines p_string p_defs] in *.
    destruct (find_lines (c :: m) _ [] []) as [[d l] s]. cbn [fst snd p_lines p_string] in *. auto. }
  assert (H1 : p_heap p1 = p_heap p /\ r = Err AssertionError).
  { unfold call in C. cbv zeta in C. unfold parse_set_beamline in C. rewrite found_name in C. change (p_name p) with (lowert n0) in C. rewrite U' in C. injection C as <- <-. split; [|reflexivity]. cbn [with_heap p_heap].
    unfold found. destruct (p_name p); [reflexivity|]. destruct (find_lines _ _ _ _) as [[d l] s]. reflexivity. }
  destruct H1 as [H1 ->]. split; [reflexivity|]. unfold call. rewrite found_known by assumption. unfold parse_set_beamline, set_beamline. cbn [p_name p_defs p_lines p_string p_heap]. unfold defines in D.
  destruct (dget otext_dec (p_lines p1) (Some n)); [|congruence]. rewrite E3, P1. cbn [skipn parse_loop blank]. eexists. split; [reflexivity|]. cbn [with_heap p_heap]. rewrite H1. reflexivity.
Qed.
Print Assumptions C115_corrected_refuted.

(* ------------------------------------------------------------------ *)
(** The beamline only gets longer *)
Lemma add_longer : forall h name ty ps sub s, wf h -> sequence h 0 = Some s ->
  exists more, sequence (fst (add_element h 0 name ty ps sub)) 0 = Some (s ++ more) /\ (sub = false -> snd (add_element h 0 name ty ps sub) = Ok tt -> more <> []).
Proof.
  intros h name ty ps sub s W S. destruct (add_element h 0 name ty ps sub) as [h' [[]|x|]] eqn:E; cbn [fst snd].
  - destruct (add_element_effect h 0 name ty ps sub h' W E) as (l & s0 & b0 & e & el & Hl & Hs & Hb0 & Sq & _). rewrite Sq, S. destruct (Nat.eqb_spec b0 0) as [->|N].
    + exists [RE e]. split; [reflexivity|]. intros _ _. discriminate.
    + exists []. rewrite app_nil_r. split; [reflexivity|]. intros -> _. destruct Hb0 as [[_ X]|[X _]]; [contradiction|discriminate].
  - exists []. rewrite app_nil_r, (add_element_fail h 0 name ty ps sub h' x E). split; [exact S|]. intros _ X. discriminate.
  - exfalso. unfold add_element in E. destruct (nth_error (lines h) 0) as [l|]; [|discriminate]. unfold the_element in E. destruct (dget string_dec (l_elements l) name).
    + destruct sub; [destruct (last_ref l) as [[]|]; discriminate|discriminate].
    + unfold new_element in E. destruct (existsb _ ps); [discriminate|]. destruct sub; [destruct (last_ref l) as [[]|]; discriminate|discriminate].
Qed.
Lemma loop_longer : forall fuel lns defs h s stack flag nend q, wf h -> sequence h 0 = Some q ->
  exists more, sequence (fst (parse_loop fuel lns defs h 0 s stack flag nend)) 0 = Some (q ++ more) /\
    (flag = false -> blank s = false -> snd (parse_loop fuel lns defs h 0 s stack flag nend) = Ok tt -> more <> []).
Proof.
  assert (Same : forall h q (P : Prop), sequence h 0 = Some q -> (P -> False) -> exists more, sequence h 0 = Some (q ++ more) /\ (P -> more <> [])).
  { intros h q P S F. exists []. rewrite app_nil_r. split; [exact S|]. intros X. destruct (F X). }
  induction fuel as [|fuel IH]; intros lns defs h s stack flag nend q W S; [exists []; rewrite app_nil_r; split; [exact S|]; intros _ _ X; discriminate|].
  cbn [parse_loop]. destruct (blank s) eqn:B; [exists []; rewrite app_nil_r; split; [exact S|]; intros _ X; discriminate|].
  assert (Stop : forall x, exists more, sequence (fst ((h, x) : run unit)) 0 = Some (q ++ more) /\ (x <> Ok tt -> flag = false -> false = false -> snd ((h, x) : run unit) = Ok tt -> more <> [])).
  { intros x. exists []. rewrite app_nil_r. split; [exact S|]. intros N _ _ X. contradiction. }
  assert (Bad : forall x, x <> Ok tt -> exists more, sequence (fst ((h, x) : run unit)) 0 = Some (q ++ more) /\ (flag = false -> false = false -> snd ((h, x) : run unit) = Ok tt -> more <> [])).
  { intros x N. destruct (Stop x) as (m & A & C). exists m. split; [exact A|]. exact (C N). }
  destruct (take_digits s) as [[co s1]|x|]; [|apply Bad; discriminate|apply Bad; discriminate].
  destruct (match co with [] => Ok s1 | _ => expand_line s1 (Z.to_nat (digits_value 0 co)) end) as [s2|x|]; [|apply Bad; discriminate|apply Bad; discriminate].
  destruct (match find1 comma s2 with Some n0 => Some n0 | None => match find1 close s2 with Some n0 => Some n0 | None => nend end end) as [e|]; [|apply Bad; discriminate].
  destruct (dget otext_dec lns (Some (trim (firstn e s2)))) as [body|].
  - set (nm := Some (string_of_list_ascii (trim (firstn e s2)))). destruct (add_beamline_effect h 0 nm W q S) as (h1 & b & E & S1 & _). pose proof (wf_add_beamline h 0 nm W) as W1. rewrite E in W1 |- *. cbn [fst] in W1.
    match goal with |- context [parse_loop fuel ?a ?b' h1 0 ?c ?d ?f ?g] => destruct (IH a b' h1 c d f g _ W1 S1) as (more & M & _) end.
    exists (RL b :: more). split; [rewrite M, <- app_assoc; reflexivity|]. intros _ _ _. discriminate.
  - destruct (find_parameters _) as [[ty ps]|x|]; [|apply Bad; discriminate|apply Bad; discriminate].
    match goal with |- context [add_element h 0 ?a ?b ?c flag] => destruct (add_longer h a b c flag q W S) as (m1 & M1 & N1); pose proof (wf_add_element h 0 a b c flag W) as W1; destruct (add_element h 0 a b c flag) as [h1 [u|x|]] end; cbn [fst snd] in *.
    2,3: exists m1; split; [exact M1|]; intros _ _ X; discriminate.
    destruct u.
    assert (Next : forall a b c d f g, exists more, sequence (fst (parse_loop fuel a b h1 0 c d f g)) 0 = Some (q ++ more) /\ (flag = false -> false = false -> snd (parse_loop fuel a b h1 0 c d f g) = Ok tt -> more <> [])).
    { intros a b c d f g. destruct (IH a b h1 c d f g _ W1 M1) as (m2 & M2 & _). exists (m1 ++ m2). split; [rewrite M2, <- app_assoc; reflexivity|]. intros F _ _ X. apply app_eq_nil in X. destruct X as [X _]. now apply N1 in X. }
    clear B; destruct (blank _); [destruct stack|]; apply Next.
Qed.

(** Called again, the parser returns the beamline of the first call, now longer. *)
Theorem C115_again_refuted : forall show file n0 p fuel p1 s fuel' p2, make show file n0 = Ok p -> n0 <> [] -> call fuel p = (p1, Ok tt) -> sequence (p_heap p1) 0 = Some s -> s <> [] ->
  call fuel' p1 = (p2, Ok tt) -> exists more, more <> [] /\ sequence (p_heap p2) 0 = Some (s ++ more).
Proof.
  intros show file n0 p fuel p1 s fuel' p2 M N0 C S NE C2. unfold make in M. destruct (sanitize file) as [[defs vars]|x|]; [|discriminate|discriminate]. cbn [rbind] in M.
  assert (PN : p_name p <> []) by (injection M as <-; cbn; destruct n0; [contradiction|discriminate]).
  assert (H0 : wf (p_heap p) /\ sequence (p_heap p) 0 = Some []) by (injection M as <-; split; [exact (wf_new_line empty_heap (Some (string_of_list_ascii n0)) wf_empty)|reflexivity]). destruct H0 as [W0 S0]. clear M.
  destruct (call_parts fuel p) as (E1 & E2 & E3 & E4). rewrite C in E1, E2, E3, E4. cbn [fst] in *.
  assert (FH : p_heap (found p) = p_heap p) by (unfold found; destruct (p_name p); [reflexivity|]; destruct (find_lines _ _ _ _) as [[dd ll] tt0]; reflexivity).
  assert (NL : no_lines (p_defs p1)) by (rewrite E1; now apply found_again).
  assert (F1 : found p1 = p1). { pose proof (found_known p1 (p_name p1)) as K. rewrite E4 in K at 1. specialize (K PN NL). clear - K. destruct p1. exact K. }
  unfold call in C, C2. cbv zeta in C, C2. rewrite F1 in C2. unfold parse_set_beamline in C, C2. rewrite FH in C. rewrite <- E2, <- E3, <- E1, found_name, <- E4 in C.
  destruct (dget otext_dec (p_lines p1) (Some (p_name p1))); [|discriminate].
  destruct (parse_loop fuel (p_lines p1) (p_defs p1) (p_heap p) 0 (skipn 1 (p_string p1)) [] false None) as [h1 r1] eqn:L1.
  assert (Eh : p_heap p1 = h1 /\ r1 = Ok tt) by (injection C as <- <-; auto). destruct Eh as [Eh ->]. clear C.
  destruct (parse_loop fuel' (p_lines p1) (p_defs p1) (p_heap p1) 0 (skipn 1 (p_string p1)) [] false None) as [h2 r2] eqn:L2. injection C2 as <- ->. cbn [with_heap p_heap].
  assert (B : blank (skipn 1 (p_string p1)) = false).
  { destruct (blank (skipn 1 (p_string p1))) eqn:B; [|reflexivity]. exfalso. destruct fuel; [discriminate|]. cbn [parse_loop] in L1. rewrite B in L1. injection L1 as <-. rewrite Eh in S. congruence. }
  assert (W1 : wf h1).
  { clear - W0 L1. set (str := skipn 1 (p_string p1)) in *. assert (G : forall fuel lns defs h t stack flag nend, wf h -> wf (fst (parse_loop fuel lns defs h 0 t stack flag nend))).
    { clear. induction fuel as [|fuel IH]; intros lns defs h t stack flag nend W; [exact W|]. cbn [parse_loop]. destruct (blank t); [exact W|]. destruct (take_digits t) as [[co s1]|x|]; try exact W.
      destruct (match co with [] => Ok s1 | _ => expand_line s1 (Z.to_nat (digits_value 0 co)) end) as [s2|x|]; try exact W.
      destruct (match find1 comma s2 with Some n0 => Some n0 | None => match find1 close s2 with Some n0 => Some n0 | None => nend end end) as [e|]; [|exact W].
      destruct (dget otext_dec lns (Some (trim (firstn e s2)))) as [body|].
      - match goal with |- context [add_beamline h 0 ?n] => pose proof (wf_add_beamline h 0 n W) as W1; destruct (add_beamline h 0 n) as [h1 [u|x|]] end; cbn [fst] in *; [apply IH|..]; exact W1.
      - destruct (find_parameters _) as [[ty ps]|x|]; try exact W.
        match goal with |- context [add_element h 0 ?a ?b ?c flag] => pose proof (wf_add_element h 0 a b c flag W) as W1; destruct (add_element h 0 a b c flag) as [h1 [u|x|]] end; cbn [fst] in *; try exact W1.
        destruct (blank _); [destruct stack|]; apply IH, W1. }
    specialize (G fuel (p_lines p1) (p_defs p1) (p_heap p) str [] false None W0). now rewrite L1 in G. }
  rewrite <- Eh in W1. destruct (loop_longer fuel' (p_lines p1) (p_defs p1) (p_heap p1) (skipn 1 (p_string p1)) [] false None s W1 S) as (more & A & D). rewrite L2 in A, D. cbn [fst snd] in A, D.
  exists more. split; [now apply D|exact A].
Qed.
Print Assumptions C115_again_refuted.

(* ------------------------------------------------------------------ *)
(** Concrete cases: a file of two lines *)
Definition two_file : list text := file_of ["a: drift"; "b: quad"; "one: line=(a,b)"; "two: line=(b,a,b)"]%string.
Definition names_in (p : parser * res unit) : option (list string) := names_of (p_heap (fst p), snd p).
Definition parser_for (n : text) : parser :=
  match make no_show two_file n with Ok p => p | _ => {| p_name := []; p_string := []; p_lines := []; p_defs := []; p_heap := empty_heap |} end.

(** The second call doubles the beamline, the name set in between is ignored, a first call that
    fails makes the next one return nothing, and a name in capitals is found by the constructor only. *)
Theorem C115_uses_refuted : make no_show two_file (T "one") = Ok (parser_for (T "one")) /\ exists k, forall fuel, (k <= fuel)%nat ->
  names_in (call fuel (parser_for (T "one"))) = Some ["a"; "b"]%string /\
  names_in (call fuel (fst (call fuel (parser_for (T "one"))))) = Some ["a"; "b"; "a"; "b"]%string /\
  names_in (call fuel (set_beamline (fst (call fuel (parser_for (T "one")))) (T "two"))) = Some ["a"; "b"; "a"; "b"]%string /\
  names_in (call fuel (set_beamline (parser_for (T "one")) (T "two"))) = Some ["b"; "a"; "b"]%string /\
  snd (call fuel (parser_for (T "three"))) = Err AssertionError /\
  names_in (call fuel (set_beamline (fst (call fuel (parser_for (T "three")))) (T "two"))) = Some [] /\
  names_in (call fuel (parser_for (T "TWO"))) = Some ["b"; "a"; "b"]%string /\
  snd (call fuel (set_beamline (parser_for (T "one")) (T "TWO"))) = Err AssertionError.
Proof.
  split; [vm_compute; reflexivity|]. exists 10%nat. intros fuel H. replace fuel with (10 + (fuel - 10))%nat by lia. repeat split; vm_compute; reflexivity.
Qed.
Print Assumptions C115_uses_refuted.
Example C115_applies : let p1 := fst (call 10 (parser_for (T "one"))) in let q1 := fst (call 10 (parser_for (T "three"))) in
  defines p1 (T "one") /\ defines p1 (T "two") /\ ~ defines q1 (lowert (T "three")) /\ defines q1 (T "two") /\ lowert (T "two") = T "two" /\ sequence (p_heap p1) 0 = Some [RE 0; RE 1].
Proof. repeat split; try (vm_compute; discriminate); try (vm_compute; reflexivity). intros X. apply X. vm_compute. reflexivity. Qed.

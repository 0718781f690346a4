(** Lemmas about files with stored variables. *)
From Coq Require Import List Reals Bool Arith String Ascii ZArith Lia.
From Verif Require Import PyBase PyDict PyText Line_Model Lte_Model Lte_Spec Lte_Proofs Lte_Proofs2 Lte_Proofs3 Lte_Proofs6 Store_Spec Store_Proofs.
Import ListNotations.

Lemma file_read : forall (put : text -> text) (show : num -> text) names file, Forall (source_ok names) file -> NoDup (stored file) -> (forall n, In n names -> identifier n) ->
  (forall s, In (Store s) file -> exists r, expr_value (s_expr s) = Some r /\ forall x, real_of x = Some r -> show x = put (s_name s)) ->
  exists vars, sanitize (map source_text file) = Ok (map source_text file, vars) /\ NoDup (map fst vars) /\
    (forall n, In n (map fst vars) <-> In n (stored file)) /\ (forall n x, In (n, x) vars -> show x = put n).
Proof.
  intros put show names file. induction file as [|[s|l] file IH]; intros F ND Id V.
  - exists []. split; [reflexivity|]. split; [constructor|]. split; [intros n; reflexivity|]. intros n x [].
  - inversion F as [|? ? F1 F2]; subst. cbn [stored flat_map app] in ND. inversion ND as [|? ? N1 N2]; subst.
    destruct (IH F2 N2 Id (fun t I => V t (or_intror I))) as (vars & E & D & K & P). destruct (V s (or_introl eq_refl)) as (r & R & Sh).
    cbn [map sanitize source_text]. rewrite E. cbn [rbind]. destruct (storing_sanitized names s r (map source_text file) vars F1 R) as (x & X & ->).
    assert (Nv : ~ In (s_name s) (map fst vars)) by (rewrite K; exact N1).
    exists (vars ++ [(s_name s, x)]). split; [rewrite dset_new; [reflexivity|apply dget_none; exact Nv]|]. split; [|split].
    + rewrite map_app. cbn [map fst]. apply NoDup_rev in D. rewrite <- (rev_involutive (map fst vars ++ [s_name s])). apply NoDup_rev. rewrite rev_app_distr. cbn. constructor; [|exact D]. rewrite <- in_rev. exact Nv.
    + intros n. rewrite map_app, in_app_iff, K. cbn. tauto.
    + intros n y I. apply in_app_iff in I. destruct I as [I|[I|[]]]; [apply P; exact I|]. injection I as <- <-. apply Sh. exact X.
  - inversion F as [|? ? F1 F2]; subst. cbn [stored flat_map app] in ND.
    destruct (IH F2 ND Id (fun t I => V t (or_intror I))) as (vars & E & D & K & P). exists vars.
    cbn [map sanitize source_text]. rewrite E. cbn [rbind]. split; [|split; [exact D|split; [exact K|exact P]]].
    apply plain_sanitized. apply (use_plain names l (fun n => n) F1).
    + intros n I. apply (Id n I).
    + intros n c I J. destruct (Id n I) as (_ & S & Lo). split; [|split].
      * destruct (is_ws c) eqn:W; [|reflexivity]. exfalso. apply (S c J). left; exact W.
      * pose proof (lower_id n Lo) as Q. clear - J Q. induction n as [|d n IH]; [destruct J|]. cbn in Q. injection Q as Q1 Q2. destruct J as [->|J]; [exact Q1|auto].
      * intros O. apply (S c J). apply sep_in. cbn in O |- *. tauto.
Qed.

(** Lines without a colon do not define anything, lines without a bracket are no beamlines. *)
Inductive same : list text -> list text -> Prop :=
| same_nil : same [] []
| same_both : forall l a b, same a b -> same (l :: a) (l :: b)
| same_extra : forall l a b, ~ In colon l -> same a b -> same (l :: a) b.
Lemma in_drop_ws : forall c s, In c (drop_ws s) -> In c s.
Proof. intros c s I. destruct (drop_ws_split s) as (a & _ & E). rewrite E. apply in_app_iff. right; exact I. Qed.
Lemma same_definition : forall a b, same a b -> forall n, definition_of a n = definition_of b n.
Proof.
  intros a b S n. unfold definition_of. generalize (@None text) as acc. induction S as [|l a b S IH|l a b N S IH]; intros acc; cbn [fold_left]; [reflexivity|apply IH|].
  destruct (prefixb (n ++ [colon]) (drop_ws (remove1 apostrophe (remove1 quote l)))) eqn:E; [|apply IH]. exfalso. apply N.
  apply prefixb_split in E. destruct E as (r & E). assert (I : In colon (drop_ws (remove1 apostrophe (remove1 quote l)))) by (rewrite E, !in_app_iff; left; right; left; reflexivity).
  apply in_drop_ws in I. apply filter_In in I. destruct I as [I _]. apply filter_In in I. apply I.
Qed.
Definition extra (l : text) : Prop := ~ In colon l /\ ~ In "("%char l.
Fixpoint weave (ls : list (bool * text)) : list text := match ls with [] => [] | (true, _) :: r => weave r | (false, l) :: r => l :: weave r end.
Lemma find_beamlines_extra : forall name ls, (forall l, In (true, l) ls -> extra l) ->
  exists a b lines str, find_beamlines name (map snd ls) = (a, lines, str) /\ find_beamlines name (weave ls) = (b, lines, str) /\ same a b.
Proof.
  intros name ls. induction ls as [|[[|] l] ls IH]; intros H.
  - exists [], [], [], []. split; [reflexivity|split; [reflexivity|constructor]].
  - destruct IH as (a & b & lns & str & E1 & E2 & S); [intros m I; apply H; right; exact I|]. destruct (H l (or_introl eq_refl)) as [Nc Nb].
    exists (l :: a), b, lns, str. cbn [map snd find_beamlines weave]. rewrite E1. split; [|split; [exact E2|constructor; assumption]].
    destruct (find (T "line=(") l) eqn:Ef; [|reflexivity]. exfalso. apply Nb. apply (find_has _ _ _ "("%char Ef). cbn; tauto.
  - destruct IH as (a & b & lns & str & E1 & E2 & S); [intros m I; apply H; right; exact I|]. cbn [map snd find_beamlines weave]. rewrite E1, E2.
    destruct (find (T "line=(") l).
    + eexists a, b, _, _. split; [reflexivity|]. split; [reflexivity|exact S].
    + exists (l :: a), (l :: b), lns, str. split; [reflexivity|]. split; [reflexivity|]. constructor. exact S.
Qed.
Lemma parse_loop_same : forall a b, (forall n, definition_of a n = definition_of b n) ->
  forall fuel lines h self s stack flag nend, parse_loop fuel lines a h self s stack flag nend = parse_loop fuel lines b h self s stack flag nend.
Proof.
  intros a b D. induction fuel as [|fuel IH]; intros lines h self s stack flag nend; [reflexivity|]. cbn [parse_loop].
  destruct (blank s); [reflexivity|]. destruct (take_digits s) as [[co s1]|x|]; [|reflexivity|reflexivity].
  destruct (match co with [] => Ok s1 | _ => _ end) as [s2|x|]; [|reflexivity|reflexivity].
  destruct (match find1 comma s2 with Some n => Some n | None => _ end) as [e|]; [|reflexivity].
  destruct (dget otext_dec lines (Some (trim (firstn e s2)))) as [body|].
  - destruct (add_beamline _ _ _) as [h1 [u|x|]]; [apply IH|reflexivity|reflexivity].
  - rewrite D. destruct (find_parameters _) as [[ty ps]|x|]; [|reflexivity|reflexivity].
    destruct (add_element _ _ _ _ _ _) as [h1 [u|x|]]; [|reflexivity|reflexivity].
    repeat match goal with |- context[if ?c then _ else _] => destruct c end; try apply IH. all: destruct stack; apply IH.
Qed.

Lemma in_replace : forall p r c s, In c (replace p r s) -> In c s \/ In c r.
Proof.
  intros p r c s. unfold replace. generalize 0%nat as k. induction s as [|d s IH]; intros k I; [destruct I|]. cbn [replace_aux] in I. destruct k as [|k].
  - destruct (prefixb p (d :: s)).
    + apply in_app_iff in I. destruct I as [I|I]; [right; exact I|]. destruct (IH _ I) as [J|J]; [left; right; exact J|right; exact J].
    + destruct I as [->|I]; [left; left; reflexivity|]. destruct (IH _ I) as [J|J]; [left; right; exact J|right; exact J].
  - destruct (IH _ I) as [J|J]; [left; right; exact J|right; exact J].
Qed.
Lemma in_replaced : forall show c vars s, In c (fold_left (replace_one show) vars s) -> In c s \/ exists n x, In (n, x) vars /\ In c (show x).
Proof.
  intros show c vars. induction vars as [|[n x] vars IH]; intros s I; [left; exact I|]. cbn [fold_left] in I. apply IH in I. destruct I as [I|(m & y & J & I)].
  - assert (G : In c (replace n (show x) s) -> In c s \/ exists m y, In (m, y) ((n, x) :: vars) /\ In c (show y)).
    { intros K. apply in_replace in K. destruct K as [K|K]; [left; exact K|right; exists n, x; split; [left; reflexivity|exact K]]. }
    unfold replace_one in I. cbn [fst snd] in I. destruct (find n s) as [[|k]|]; [left; exact I|apply G; exact I|apply G; exact I].
  - right. exists m, y. split; [right; exact J|exact I].
Qed.

Lemma store_import : forall (put : text -> text) (show : num -> text) file bn fuel, file_ok put file ->
  (forall s, In (Store s) file -> exists r, expr_value (s_expr s) = Some r /\ forall x, real_of x = Some r -> show x = put (s_name s)) ->
  import fuel show (map source_text file) bn = import fuel show (spelled_out put file) bn.
Proof.
  intros put show file bn fuel (F & ND & Pn & Pv & Nu) V.
  assert (Id : forall n, In n (stored file) -> identifier n).
  { intros n I. unfold stored in I. apply in_flat_map in I. destruct I as ([s|l] & I & J); [|destruct J]. destruct J as [<-|[]].
    rewrite Forall_forall in F. destruct (F _ I) as (_ & _ & _ & Q & _). exact Q. }
  destruct (file_read put show (stored file) file F ND Id V) as (vars & E & D & K & P).
  assert (Nc : forall n c, In n (stored file) -> In c (put n) -> lit_char c = true).
  { intros n c I J. destruct (Nu n I) as (l & L & Q). rewrite Q in J. pose proof (lit_text l L) as X. rewrite forallb_forall in X. apply X. exact J. }
  assert (PL : Forall plain (spelled_out put file)).
  { apply Forall_forall. intros t I. apply in_flat_map in I. destruct I as ([s|l] & I & J); [destruct J|]. destruct J as [<-|[]].
    rewrite Forall_forall in F. apply (use_plain (stored file) l put (F _ I)).
    - intros n Jn. destruct (Nu n Jn) as (q & L & Q). rewrite Q. apply (word_solid (WConst q) L).
    - intros n c Jn Jc. pose proof (Nc n c Jn Jc) as X. pose proof (lit_char_facts c X) as (W & Lo & _). split; [exact W|]. split; [exact Lo|].
      intros O. cbn in O. intuition (subst; discriminate). }
  unfold import. rewrite E, (plain_file _ PL). destruct (new_line empty_heap (Some (string_of_list_ascii bn))) as [h self].
  set (ls := map (fun x => (match x with Store _ => true | Use _ => false end, fold_left (replace_one show) vars (source_text x))) file).
  assert (E1 : replace_variables show (map source_text file) vars = map snd ls).
  { unfold replace_variables, ls. rewrite !map_map. reflexivity. }
  assert (E2 : replace_variables show (spelled_out put file) [] = weave ls).
  { unfold replace_variables. cbn [fold_left]. rewrite map_id. unfold ls. rewrite Forall_forall in F.
    assert (G : forall sub, (forall x, In x sub -> In x file) -> spelled_out put sub = weave (map (fun x => (match x with Store _ => true | Use _ => false end, fold_left (replace_one show) vars (source_text x))) sub)).
    { induction sub as [|[s|l] sub IH]; intros Sub; [reflexivity| |]; cbn [spelled_out flat_map map weave app]; fold (spelled_out put sub); rewrite IH by (intros x I; apply Sub; right; exact I); [reflexivity|]. f_equal.
      symmetry. cbn [source_text]. apply (replaced_use put show vars (stored file) l); [apply F; apply Sub; left; reflexivity|exact Id|exact D| |exact P|exact Pn|exact Pv].
      intros n. symmetry. apply K. }
    apply G. auto. }
  rewrite E1, E2. destruct (lowert bn) as [|c0 n0]; [reflexivity|].
  destruct (find_beamlines_extra (c0 :: n0) ls) as (a & b & lns & str & -> & -> & S).
  { intros l I. unfold ls in I. apply in_map_iff in I. destruct I as ([s|t] & I & J); [|discriminate]. injection I as <-. cbn [source_text].
    rewrite Forall_forall in F. split; intros O; apply in_replaced in O; destruct O as [O|(n & x & I & O)].
    - revert O. apply (storing_chars (stored file)); [apply F; exact J|cbn; tauto].
    - rewrite (P n x I) in O. apply Nc in O; [discriminate|]. apply K. exact (in_map fst _ _ I).
    - revert O. apply (storing_chars (stored file)); [apply F; exact J|cbn; tauto].
    - rewrite (P n x I) in O. apply Nc in O; [discriminate|]. apply K. exact (in_map fst _ _ I). }
  unfold parse_set_beamline. rewrite (parse_loop_same a b (same_definition a b S)). reflexivity.
Qed.

(** Lemmas about stored variables. *)
From Coq Require Import List Reals Bool Arith String Ascii ZArith Lia.
From Verif Require Import PyBase PyDict PyText Line_Model Lte_Model Lte_Spec Lte_Proofs Lte_Proofs2 Lte_Proofs3 Lte_Proofs6 Store_Spec.
Import ListNotations.

Lemma occurs_part : forall p s, occurs p s = true <-> part_of p s.
Proof.
  intros p s. split.
  - induction s as [|c s IH]; intros H; cbn [occurs] in H; apply orb_true_iff in H; destruct H as [H|H].
    + apply prefixb_split in H. destruct H as (r & H). exists [], r. exact H.
    + discriminate.
    + apply prefixb_split in H. destruct H as (r & H). exists [], r. exact H.
    + destruct (IH H) as (a & b & ->). exists (c :: a), b. reflexivity.
  - intros (a & b & ->). induction a as [|c a IH]; cbn [app].
    + destruct (p ++ b) eqn:E; cbn [occurs]; rewrite <- E, prefixb_app; reflexivity.
    + cbn [occurs]. rewrite IH. apply orb_true_r.
Qed.
Lemma not_part : forall p s, ~ part_of p s -> occurs p s = false.
Proof. intros p s H. apply not_true_is_false. intros O. apply H, occurs_part, O. Qed.

Lemma prefixb_before : forall p a c b, ~ In c p -> prefixb p (a ++ c :: b) = prefixb p a.
Proof.
  induction p as [|x p IH]; intros a c b N; [reflexivity|]. destruct a as [|y a]; cbn [app prefixb].
  - destruct (Ascii.eqb_spec x c) as [->|_]; [exfalso; apply N; left; reflexivity|reflexivity].
  - rewrite IH; [reflexivity|]. intros I. apply N. right; exact I.
Qed.
Lemma prefixb_length : forall p s, prefixb p s = true -> (List.length p <= List.length s)%nat.
Proof. intros p s H. apply prefixb_split in H. destruct H as (r & ->). rewrite app_length. lia. Qed.
Lemma replace_aux_apart : forall p r c b, p <> [] -> ~ In c p -> forall a k, (k <= List.length a)%nat ->
  replace_aux p r k (a ++ c :: b) = replace_aux p r k a ++ c :: replace_aux p r 0 b.
Proof.
  intros p r c b P N. induction a as [|x a IH]; intros k L.
  - cbn in L. assert (k = 0)%nat by lia. subst k. cbn [app replace_aux].
    rewrite (prefixb_before p [] c b N : prefixb p (c :: b) = prefixb p []). destruct p; [contradiction|reflexivity].
  - cbn [app replace_aux]. destruct k as [|k]; [|apply IH; cbn in L; lia].
    rewrite (prefixb_before p (x :: a) c b N : prefixb p (x :: a ++ c :: b) = _). destruct (prefixb p (x :: a)) eqn:E.
    + apply prefixb_length in E. cbn in E. rewrite IH by lia. rewrite app_assoc. reflexivity.
    + rewrite IH by lia. reflexivity.
Qed.
Lemma replace_apart : forall p r c a b, p <> [] -> ~ In c p -> replace p r (a ++ c :: b) = replace p r a ++ c :: replace p r b.
Proof. intros. apply replace_aux_apart; [assumption|assumption|lia]. Qed.
Lemma occurs_app_false : forall p a b, occurs p (a ++ b) = false -> occurs p a = false.
Proof.
  intros p a b H. apply not_true_is_false. intros O. apply occurs_part in O. destruct O as (u & v & ->).
  assert (X : occurs p ((u ++ p ++ v) ++ b) = true); [|congruence]. apply occurs_part. exists u, (v ++ b). rewrite <- !app_assoc. reflexivity.
Qed.
Lemma replace_before : forall p r a rest, p <> [] -> (forall c, separator c -> ~ In c p) -> occurs p a = false -> ends_apart a ->
  replace p r (a ++ rest) = a ++ replace p r rest.
Proof.
  intros p r a rest P N O (s & c & -> & Sc). rewrite <- !app_assoc. cbn [app]. rewrite replace_apart by auto.
  rewrite (replace_none p r s) by (apply occurs_app_false in O; exact O). reflexivity.
Qed.
Lemma replace_self : forall p r, p <> [] -> replace p r p = r.
Proof.
  intros [|c p] r P; [contradiction|]. unfold replace. cbn [replace_aux]. assert (E : prefixb (c :: p) (c :: p) = true).
  { pose proof (prefixb_app (c :: p) []) as H. rewrite app_nil_r in H. exact H. }
  rewrite E. cbn [List.length]. replace (S (List.length p) - 1)%nat with (List.length p) by lia.
  assert (G : forall q s, replace_aux (c :: p) r (List.length q) (q ++ s) = replace_aux (c :: p) r 0 s).
  { induction q as [|x q IH]; intros s; cbn [List.length app]; [reflexivity|]. cbn [replace_aux]. apply IH. }
  pose proof (G p []) as H. rewrite app_nil_r in H. rewrite H. cbn. apply app_nil_r.
Qed.

(** One replacement in a line. *)
Definition line_of (before : text) (us : list (text * text)) : text := before ++ List.concat (map (fun u => fst u ++ snd u) us).
Definition swap (p r h : text) : text := if text_dec h p then r else h.
Lemma replace_hole : forall p r h, p <> [] -> h = p \/ occurs p h = false -> replace p r h = swap p r h.
Proof.
  intros p r h P H. unfold swap. destruct (text_dec h p) as [->|N]; [apply replace_self; exact P|]. destruct H as [H|H]; [contradiction|]. apply replace_none; exact H.
Qed.
Lemma replace_line : forall p r us before, p <> [] -> (forall c, separator c -> ~ In c p) -> apart before us ->
  occurs p before = false -> (forall h a, In (h, a) us -> (h = p \/ occurs p h = false) /\ occurs p a = false) ->
  replace p r (line_of before us) = line_of before (map (fun u => (swap p r (fst u), snd u)) us).
Proof.
  intros p r us. induction us as [|[h a] us IH]; intros before P N A O F; unfold line_of; cbn [map List.concat fst snd].
  - rewrite !app_nil_r. apply replace_none. exact O.
  - cbn [apart] in A. destruct A as (A1 & A2 & A3). destruct (F h a (or_introl eq_refl)) as (F1 & F2).
    rewrite replace_before by assumption. f_equal.
    assert (IHa : replace p r (a ++ List.concat (map (fun u => fst u ++ snd u) us)) = a ++ List.concat (map (fun u => fst u ++ snd u) (map (fun u => (swap p r (fst u), snd u)) us))).
    { apply (IH a P N A3 F2). intros h' a' I. apply F. right; exact I. }
    rewrite <- !app_assoc. destruct A2 as [[-> ->]|(c & a' & -> & Sc)].
    + cbn. rewrite !app_nil_r. apply replace_hole; assumption.
    + cbn [app] in IHa |- *. rewrite replace_apart by auto. rewrite (replace_hole p r h P F1).
      rewrite (replace_apart p r c [] _ P (N c Sc) : replace p r (c :: _) = _) in IHa. cbn [app] in IHa. f_equal. exact IHa.
Qed.
Lemma find_not_zero : forall p us before, p <> [] -> (forall c, separator c -> ~ In c p) -> apart before us ->
  occurs p before = false -> find p (line_of before us) <> Some 0%nat.
Proof.
  intros p us before P N A O H.
  assert (X : prefixb p (line_of before us) = true).
  { destruct (line_of before us) as [|c s]; cbn [find] in H; destruct (prefixb p _); try reflexivity; [discriminate|]. destruct (find p s); discriminate. }
  assert (Y : prefixb p before = true -> False).
  { intros Y. destruct before; cbn [occurs] in O; rewrite Y in O; discriminate. }
  destruct us as [|[h a] us]; unfold line_of in X; cbn [map List.concat fst snd] in X.
  - rewrite app_nil_r in X. exact (Y X).
  - cbn [apart] in A. destruct A as ((s & c & -> & Sc) & _). rewrite <- app_assoc in X. cbn [app] in X. rewrite prefixb_before in X by auto.
    apply Y. apply prefixb_split in X. destruct X as (q & ->). rewrite <- app_assoc. apply prefixb_app.
Qed.

(** All replacements in a line. *)
Lemma apart_map : forall (g : text -> text) us before, apart before us -> apart before (map (fun u => (g (fst u), snd u)) us).
Proof.
  intros g us. induction us as [|[h a] us IH]; intros before A; [exact I|]. cbn [apart map fst snd] in *. destruct A as (A1 & A2 & A3).
  split; [exact A1|]. split; [|apply IH; exact A3]. destruct A2 as [[-> ->]|A2]; [left; split; reflexivity|right; exact A2].
Qed.
Definition put_all (show : num -> text) (vars : variables) (h : text) : text := fold_left (fun h kv => swap (fst kv) (show (snd kv)) h) vars h.
Lemma replace_all : forall show vars us before,
  (forall p x, In (p, x) vars -> p <> [] /\ (forall c, separator c -> ~ In c p) /\ occurs p before = false) ->
  apart before us ->
  (forall p x a, In (p, x) vars -> In a (map snd us) -> occurs p a = false) ->
  (forall h, In h (map fst us) -> forall vs1 p x vs2, vars = vs1 ++ (p, x) :: vs2 -> put_all show vs1 h = p \/ occurs p (put_all show vs1 h) = false) ->
  fold_left (replace_one show) vars (line_of before us) = line_of before (map (fun u => (put_all show vars (fst u), snd u)) us).
Proof.
  intros show vars. induction vars as [|[p x] vars IH]; intros us before V A L H.
  - cbn [fold_left]. unfold put_all. cbn [fold_left]. f_equal. rewrite <- (map_id us) at 1. apply map_ext. intros [h a]. reflexivity.
  - destruct (V p x (or_introl eq_refl)) as (P & N & O). cbn [fold_left].
    assert (E : replace_one show (line_of before us) (p, x) = line_of before (map (fun u => (swap p (show x) (fst u), snd u)) us)).
    { unfold replace_one. cbn [fst snd]. rewrite replace_line; [|exact P|exact N|exact A|exact O|].
      - pose proof (find_not_zero p us before P N A O) as Z. destruct (find p (line_of before us)) as [[|n]|]; [contradiction|reflexivity|reflexivity].
      - intros h a I. split.
        + exact (H h (in_map fst _ _ I) [] p x vars eq_refl).
        + exact (L p x a (or_introl eq_refl) (in_map snd _ _ I)). }
    rewrite E. rewrite IH.
    + f_equal. rewrite map_map. apply map_ext. intros [h a]. reflexivity.
    + intros q y I. apply (V q y). right; exact I.
    + apply apart_map. exact A.
    + intros q y a I J. apply (L q y a); [right; exact I|]. rewrite map_map in J. cbn [snd] in J. exact J.
    + intros h J vs1 q y vs2 EV. rewrite map_map in J. cbn [fst] in J. apply in_map_iff in J. destruct J as (u & <- & J).
      apply (H (fst u) (in_map fst _ _ J) ((p, x) :: vs1) q y vs2). rewrite EV. reflexivity.
Qed.

(** What the names become. *)
Lemma nodup_left : forall {A} (a b : list A), NoDup (a ++ b) -> NoDup a.
Proof.
  intros A a b. induction a as [|x a IH]; intros H; [constructor|]. cbn in H. inversion H as [|? ? H1 H2]; subst.
  constructor; [|apply IH; exact H2]. intros I. apply H1. apply in_app_iff. left; exact I.
Qed.
Lemma put_all_other : forall show vars h, ~ In h (map fst vars) -> put_all show vars h = h.
Proof.
  intros show vars. induction vars as [|[p x] vars IH]; intros h N; [reflexivity|]. unfold put_all. cbn [fold_left fst snd].
  unfold swap at 2. destruct (text_dec h p) as [->|_]; [exfalso; apply N; left; reflexivity|]. apply IH. intros I. apply N. right; exact I.
Qed.
Lemma put_all_app : forall show a b h, put_all show (a ++ b) h = put_all show b (put_all show a h).
Proof. intros. unfold put_all. apply fold_left_app. Qed.
Lemma put_all_name : forall show vars h x, NoDup (map fst vars) -> In (h, x) vars -> (forall y, In y vars -> fst y <> show x) -> put_all show vars h = show x.
Proof.
  intros show vars h x ND I F. apply in_split in I. destruct I as (a & b & ->). rewrite map_app in ND. cbn [map fst] in ND. rewrite put_all_app.
  apply NoDup_remove in ND. destruct ND as [_ ND]. rewrite (put_all_other show a h) by (intros J; apply ND; apply in_app_iff; left; exact J).
  change ((h, x) :: b) with ([(h, x)] ++ b). rewrite put_all_app. change (put_all show [(h, x)] h) with (swap h (show x) h). unfold swap. destruct (text_dec h h); [|contradiction].
  apply put_all_other. intros J. apply in_map_iff in J. destruct J as (y & E & J). apply (F y); [|exact E]. apply in_app_iff. right; right; exact J.
Qed.

Lemma line_filled : forall put l, line_of (u_first l) (map (fun u => (put (fst u), snd u)) (u_uses l)) = filled put l.
Proof. intros put l. unfold line_of, filled. rewrite map_map. reflexivity. Qed.
Lemma template_line : forall l, template_text l = line_of (u_first l) (u_uses l).
Proof. reflexivity. Qed.
Lemma identifier_apart : forall n, identifier n -> n <> [] /\ forall c, separator c -> ~ In c n.
Proof. intros n (N & S & _). split; [exact N|]. intros c Sc I. exact (S c I Sc). Qed.

Lemma replaced_use : forall put show vars names l, source_ok names (Use l) -> (forall n, In n names -> identifier n) ->
  NoDup (map fst vars) -> (forall n, In n names <-> In n (map fst vars)) -> (forall n x, In (n, x) vars -> show x = put n) ->
  (forall p q, In p names -> In q names -> part_of p q -> p = q) -> (forall p q, In p names -> In q names -> ~ part_of p (put q)) ->
  fold_left (replace_one show) vars (template_text l) = filled put l.
Proof.
  intros put show vars names l (_ & _ & A & U & Li) Id ND Nm Sh Pn Pv.
  assert (Nv : forall p x, In (p, x) vars -> In p names) by (intros p x I; apply Nm; exact (in_map fst _ _ I)).
  assert (Q : forall h, In h names -> forall vs1 vs2, vars = vs1 ++ vs2 -> put_all show vs1 h = h \/ put_all show vs1 h = put h).
  { intros h Ih vs1 vs2 E. destruct (in_dec text_dec h (map fst vs1)) as [J|J]; [right|left; apply put_all_other; exact J].
    apply in_map_iff in J. destruct J as ([n x] & Eh & J). cbn in Eh. subst n.
    assert (Jv : In (h, x) vars) by (rewrite E; apply in_app_iff; left; exact J).
    rewrite <- (Sh h x Jv). apply put_all_name; [|exact J|].
    - rewrite E, map_app in ND. exact (nodup_left _ _ ND).
    - intros [q y] Iy Ey. cbn in Ey. apply (Pv q h).
      + apply (Nv q y). rewrite E. apply in_app_iff. left; exact Iy.
      + exact Ih.
      + exists [], []. rewrite app_nil_r. cbn. rewrite <- (Sh h x Jv). symmetry; exact Ey. }
  rewrite template_line, replace_all.
  - rewrite <- line_filled. f_equal. apply map_ext_in. intros [h a] I. cbn [fst snd]. f_equal.
    assert (Ih : In h names) by (apply U; exact (in_map fst _ _ I)).
    destruct (proj1 (in_map_iff fst vars h) (proj1 (Nm h) Ih)) as ([n x] & En & Ix). cbn in En. subst n.
    rewrite <- (Sh h x Ix). apply put_all_name; [exact ND|exact Ix|]. intros [q y] Iy Ey. cbn in Ey.
    apply (Pv q h (Nv q y Iy) Ih). exists [], []. rewrite app_nil_r. cbn. rewrite <- (Sh h x Ix). symmetry; exact Ey.
  - intros p x I. pose proof (Nv p x I) as Ip. destruct (identifier_apart p (Id p Ip)) as [P1 P2]. split; [exact P1|]. split; [exact P2|].
    apply not_part. apply (Li (u_first l) (or_introl eq_refl)). exact Ip.
  - exact A.
  - intros p x a I J. apply not_part. apply (Li a (or_intror J)). exact (Nv p x I).
  - intros h J vs1 p x vs2 E. assert (Ih : In h names) by (apply U; exact J). assert (Ip : In p names) by (apply (Nv p x); rewrite E; apply in_app_iff; right; left; reflexivity).
    destruct (Q h Ih vs1 _ E) as [-> | ->].
    + destruct (occurs p h) eqn:O; [left|right; reflexivity]. symmetry. apply Pn; [exact Ip|exact Ih|]. apply occurs_part. exact O.
    + right. apply not_part. apply Pv; assumption.
Qed.

(* ------------------------------------------------------------------ *)
(** Reading the lines. *)
Definition plain (s : text) : Prop := blank s = false /\ lowert s = s /\ forall c, In c (T "!&%") -> ~ In c s.
Lemma plain_sanitized : forall s rest vars, plain s -> sanitize_step s rest vars = Ok (s :: rest, vars).
Proof.
  intros s rest vars (B & Lo & N). destruct (snoc_cases (rdrop_ws s)) as [E|(r & c & E)]; [apply rdrop_ws_blank in E; congruence|].
  rewrite (plain_step s rest vars r c).
  - rewrite Lo. unfold finish. destruct (drop_ws s) as [|d t] eqn:D; [apply drop_ws_blank in D; congruence|].
    destruct (Ascii.eqb_spec d "%") as [->|_]; [|reflexivity]. exfalso. apply (N "%"%char); [cbn; tauto|].
    destruct (drop_ws_split s) as (a & _ & F). rewrite F, D. apply in_app_iff. right; left; reflexivity.
  - apply N. cbn; tauto.
  - exact E.
  - intros ->. apply (N "&"%char); [cbn; tauto|]. destruct (rdrop_ws_split s) as (w & _ & F). rewrite F, E. rewrite !in_app_iff. left; right; left; reflexivity.
Qed.
Lemma plain_file : forall file, Forall plain file -> sanitize file = Ok (file, []).
Proof.
  induction file as [|s file IH]; intros H; [reflexivity|]. inversion H as [|? ? H1 H2]; subst. cbn [sanitize]. rewrite (IH H2). cbn [rbind]. apply plain_sanitized. exact H1.
Qed.

Lemma split_word : forall w cur s, (forall c, In c w -> is_ws c = false) -> split_ws_aux cur (w ++ s) = split_ws_aux (rev w ++ cur) s.
Proof.
  induction w as [|c w IH]; intros cur s H; [reflexivity|]. cbn [app split_ws_aux]. rewrite (H c (or_introl eq_refl)).
  rewrite IH by (intros d I; apply H; right; exact I). cbn [rev]. rewrite <- app_assoc. reflexivity.
Qed.
Lemma split_pad : forall p s, blank p = true -> split_ws_aux [] (p ++ s) = split_ws_aux [] s.
Proof.
  induction p as [|c p IH]; intros s H; [reflexivity|]. cbn [blank forallb] in H. apply andb_true_iff in H. destruct H as [H1 H2]. cbn [app split_ws_aux]. rewrite H1. apply IH. exact H2.
Qed.
Lemma blanks_blank : forall n, blank (blanks n) = true.
Proof. induction n as [|n IH]; [reflexivity|]. exact IH. Qed.
Definition solid (w : text) : Prop := w <> [] /\ forall c, In c w -> is_ws c = false.
Lemma split_flush : forall w n s, solid w -> split_ws_aux [] (w ++ blanks (S n) ++ s) = w :: split_ws_aux [] s.
Proof.
  intros w n s [W1 W2]. rewrite split_word by exact W2. rewrite app_nil_r. cbn [blanks List.repeat app split_ws_aux]. change (is_ws space) with true. cbv iota.
  destruct (rev w) as [|c r] eqn:E.
  - exfalso. apply W1. rewrite <- (rev_involutive w), E. reflexivity.
  - rewrite <- E, rev_involutive. f_equal. apply (split_pad (blanks n)). apply blanks_blank.
Qed.
Lemma split_spaced : forall ws s, Forall (fun w => solid (fst w)) ws -> split_ws_aux [] (spaced ws ++ s) = map fst ws ++ split_ws_aux [] s.
Proof.
  induction ws as [|[w n] ws IH]; intros s H; [reflexivity|]. inversion H as [|? ? H1 H2]; subst. cbn [spaced map fst]. rewrite <- !app_assoc. rewrite split_flush by exact H1. rewrite IH by exact H2. reflexivity.
Qed.
Lemma split_storing : forall pad ws n tail, blank pad = true -> blank tail = true -> Forall (fun w => solid (fst w)) ws -> solid n ->
  split_ws (pad ++ spaced ws ++ n ++ tail) = map fst ws ++ [n].
Proof.
  intros pad ws n tail Bp Bt F [N1 N2]. unfold split_ws. rewrite split_pad by exact Bp. rewrite split_spaced by exact F. f_equal.
  rewrite split_word by exact N2. rewrite app_nil_r, split_ws_blank by exact Bt. destruct (rev n) as [|c r] eqn:E.
  - exfalso. apply N1. rewrite <- (rev_involutive n), E. reflexivity.
  - rewrite <- E, rev_involutive. reflexivity.
Qed.
Lemma word_solid : forall w, word_ok w -> solid (word_text w).
Proof.
  intros [l| |o|] H; cbn [word_text].
  - split.
    + pose proof (literal_digit l H) as D. destruct (literal_text l); [discriminate|discriminate].
    + intros c I. pose proof (lit_text l H) as L. rewrite forallb_forall in L. apply L in I. apply lit_char_facts in I. tauto.
  - split; [discriminate|]. intros c I. cbn in I. intuition (subst; reflexivity).
  - split; [destruct o; discriminate|]. intros c I. destruct o; cbn in I; intuition (subst; reflexivity).
  - split; [discriminate|]. intros c I. cbn in I. intuition (subst; reflexivity).
Qed.
Lemma words_solid : forall e, expr_ok e -> Forall solid (words e).
Proof.
  intros e H. rewrite words_wordlist. apply Forall_forall. intros w I. apply in_map_iff in I. destruct I as (v & <- & I).
  pose proof (wordlist_ok e H) as F. rewrite Forall_forall in F. apply word_solid. apply F. exact I.
Qed.
Lemma join_spaced : forall ws w, join [space] (ws ++ [w]) = spaced (map (fun x => (x, 0%nat)) ws) ++ w.
Proof.
  induction ws as [|x ws IH]; intros w; [reflexivity|]. cbn [map spaced]. rewrite <- !app_assoc. rewrite <- IH. cbn [app].
  destruct (ws ++ [w]) as [|y r] eqn:E; [destruct ws; discriminate|]. reflexivity.
Qed.
Lemma join_written : forall ws, ws <> [] -> written ws (join [space] ws).
Proof.
  intros ws H. destruct (snoc_cases ws) as [->|(r & w & ->)]; [contradiction|]. rewrite join_spaced.
  pose proof (written_plain 0 (map (fun x => (x, 0%nat)) r) w 0 [] (or_introl eq_refl)) as W. rewrite map_map in W. cbn [fst] in W. rewrite map_id in W.
  cbn [blanks List.repeat app] in W. rewrite app_nil_r in W. exact W.
Qed.
Lemma words_some : forall e, words e <> [].
Proof. intros e. destruct e; cbn; try discriminate; intros H; apply app_eq_nil in H; destruct H as [_ H]; [apply app_eq_nil in H; destruct H as [_ H]|]; discriminate. Qed.

Lemma read_storing : forall names s r vars, source_ok names (Store s) -> expr_value (s_expr s) = Some r ->
  exists x, real_of x = Some r /\ read_variable (storing_text s) vars = Ok (dset text_dec vars (s_name s) x).
Proof.
  intros names s r vars (_ & Bp & Bt & Id & E & W) V. apply blank_iff in Bp. apply blank_iff in Bt.
  assert (F : Forall (fun w => solid (fst w)) (s_words s)).
  { apply Forall_forall. intros w I. apply (in_map fst) in I. rewrite W in I. destruct I as [<-|I]; [split; [discriminate|]; intros c J; cbn in J; intuition (subst; reflexivity)|].
    apply in_app_iff in I. destruct I as [I|[<-|[]]].
    - pose proof (words_solid _ E) as G. rewrite Forall_forall in G. apply G. exact I.
    - split; [discriminate|]. intros c J; cbn in J; intuition (subst; reflexivity). }
  assert (N : solid (s_name s)).
  { destruct Id as (N1 & N2 & _). split; [exact N1|]. intros c I. destruct (is_ws c) eqn:Wc; [|reflexivity]. exfalso. apply (N2 c I). left; exact Wc. }
  unfold read_variable, storing_text. rewrite split_storing by assumption. rewrite rev_app_distr. cbn [rev app]. rewrite W.
  destruct (parse_number (s_expr s) _ r E (join_written _ (words_some _)) V) as (x & P & X). exists x. split; [exact X|].
  assert (Q : skipn 1 (firstn (List.length ((T "%" :: words (s_expr s) ++ [T "sto"]) ++ [s_name s]) - 2) ((T "%" :: words (s_expr s) ++ [T "sto"]) ++ [s_name s])) = words (s_expr s)).
  { cbn [app List.length]. rewrite <- app_assoc. cbn [app]. rewrite app_length. cbn [List.length].
    replace (S (List.length (words (s_expr s)) + 2) - 2)%nat with (S (List.length (words (s_expr s)))) by lia. cbn [firstn skipn]. apply firstn_exact. }
  rewrite Q, P. reflexivity.
Qed.
Lemma storing_chars : forall names s c, source_ok names (Store s) -> In c (T "!&:(") -> ~ In c (storing_text s).
Proof.
  intros names s c (_ & Bp & Bt & Id & E & W) O I.
  assert (Wc : is_ws c = false) by (cbn in O; intuition (subst; reflexivity)).
  assert (Sc : separator c) by (apply sep_in; cbn in O |- *; tauto).
  assert (Vc : value_char c = false) by (cbn in O; intuition (subst; reflexivity)).
  unfold storing_text in I. rewrite !in_app_iff in I. destruct I as [I|[I|[I|I]]].
  - apply Bp in I. congruence.
  - revert I. apply (spaced_chars c (s_words s)); [intros ->; discriminate|].
    intros w J0 K. assert (J : In (fst w) (map fst (s_words s))) by (apply in_map; exact J0). rewrite W in J. destruct J as [J|J].
    + rewrite <- J in K. cbn in K. destruct K as [<-|[]]. cbn in O. intuition discriminate.
    + apply in_app_iff in J. destruct J as [J|[J|[]]].
      * rewrite words_wordlist in J. apply in_map_iff in J. destruct J as (v & J & Iv). pose proof (wordlist_ok _ E) as F. rewrite Forall_forall in F.
        pose proof (word_value_chars v (F v Iv)) as G. rewrite J, forallb_forall in G. apply G in K. congruence.
      * rewrite <- J in K. cbn in K. intuition (subst; discriminate).
  - destruct Id as (_ & S & _). exact (S c I Sc).
  - apply Bt in I. congruence.
Qed.
Lemma storing_sanitized : forall names s r rest vars, source_ok names (Store s) -> expr_value (s_expr s) = Some r ->
  exists x, real_of x = Some r /\ sanitize_step (storing_text s) rest vars = Ok (storing_text s :: rest, dset text_dec vars (s_name s) x).
Proof.
  intros names s r rest vars H V. destruct (read_storing names s r vars H V) as (x & X & R). exists x. split; [exact X|].
  assert (Lo : lowert (storing_text s) = storing_text s) by (apply lower_id; apply H).
  assert (Nm : s_name s <> []) by (destruct H as (_ & _ & _ & (N & _) & _); exact N).
  destruct (snoc_cases (s_name s)) as [E|(n & c & E)]; [contradiction|].
  assert (Cs : ~ separator c). { destruct H as (_ & _ & _ & (_ & S & _) & _). apply S. rewrite E. apply in_app_iff. right; left; reflexivity. }
  rewrite (plain_step (storing_text s) rest vars ((s_pad s ++ spaced (s_words s)) ++ n) c).
  - rewrite Lo. unfold finish. destruct H as (_ & Bp & Bt & _ & _ & W). apply blank_iff in Bp.
    destruct (s_words s) as [|[w k] ws] eqn:Ew; [discriminate|]. cbn [map fst] in W. injection W as W _.
    assert (D : drop_ws (storing_text s) = storing_text {| s_pad := []; s_words := (w, k) :: ws; s_expr := s_expr s; s_name := s_name s; s_tail := s_tail s |}).
    { unfold storing_text. cbn [s_pad s_words s_name s_tail]. rewrite Ew. rewrite drop_ws_app by exact Bp. subst w. reflexivity. }
    rewrite D. unfold storing_text at 1. cbn [s_pad s_words s_name s_tail spaced app]. subst w. cbn [T list_ascii_of_string app]. change (Ascii.eqb "%" "%") with true. cbv iota. rewrite R. reflexivity.
  - apply (storing_chars names); [exact H|cbn; tauto].
  - destruct H as (_ & _ & Bt & _). apply blank_iff in Bt. unfold storing_text. rewrite E.
    rewrite !app_assoc, rdrop_ws_app by exact Bt. rewrite <- !app_assoc. rewrite !app_assoc. apply rdrop_ws_last. destruct (is_ws c) eqn:Wc; [|reflexivity]. exfalso. apply Cs. left; exact Wc.
  - intros ->. apply Cs. apply sep_in. cbn; tauto.
Qed.
Lemma in_filled : forall put l c, In c (filled put l) -> (exists t, In t (literals l) /\ In c t) \/ exists n, In n (used l) /\ In c (put n).
Proof.
  intros put l c I. unfold filled in I. apply in_app_iff in I. destruct I as [I|I]; [left; exists (u_first l); split; [left; reflexivity|exact I]|].
  apply in_concat in I. destruct I as (t & J & I). apply in_map_iff in J. destruct J as (u & <- & J). apply in_app_iff in I. destruct I as [I|I].
  - right. exists (fst u). split; [apply in_map; exact J|exact I].
  - left. exists (snd u). split; [right; apply in_map; exact J|exact I].
Qed.
Lemma in_literal : forall put l t c, In t (literals l) -> In c t -> In c (filled put l).
Proof.
  intros put l t c [<-|J] I; unfold filled; apply in_app_iff; [left; exact I|right]. apply in_map_iff in J. destruct J as (u & <- & J).
  apply in_concat. exists (put (fst u) ++ snd u). split; [apply in_map_iff; exists u; split; [reflexivity|exact J]|]. apply in_app_iff. right; exact I.
Qed.
Lemma in_used : forall put l n c, In n (used l) -> In c (put n) -> In c (filled put l).
Proof.
  intros put l n c J I; unfold filled; apply in_app_iff; right. apply in_map_iff in J. destruct J as (u & <- & J).
  apply in_concat. exists (put (fst u) ++ snd u). split; [apply in_map_iff; exists u; split; [reflexivity|exact J]|]. apply in_app_iff. left; exact I.
Qed.
Lemma use_plain : forall names l put, source_ok names (Use l) -> (forall n, In n names -> put n <> []) ->
  (forall n c, In n names -> In c (put n) -> is_ws c = false /\ low c = c /\ ~ In c (T "!&%")) ->  plain (filled put l).
Proof.
  intros names l put (Lo & B & A & U & Li) P0 P. split; [|split].
  - apply not_true_is_false. intros X. apply blank_iff in X. destruct (used l) as [|n ns] eqn:E.
    + apply B. intros c I. apply X. apply in_filled in I. destruct I as [(t & I & J)|(n & I & _)]; [|rewrite E in I; destruct I]. exact (in_literal put l t c I J).
    + assert (I : In n (used l)) by (rewrite E; left; reflexivity). rewrite <- E in U. pose proof (P0 n (U n I)) as N. destruct (put n) as [|c r] eqn:Ep; [contradiction|].
      destruct (P n c (U n I)) as (W & _ & _); [rewrite Ep; left; reflexivity|]. rewrite (X c) in W; [discriminate|]. apply (in_used put l n c I). rewrite Ep. left; reflexivity.
  - assert (G : forall c, In c (filled put l) -> low c = c).
    { intros c I. apply in_filled in I. destruct I as [(t & I & J)|(n & I & J)]; [|apply (P n c (U n I) J)].
      assert (X : In c (template_text l)) by exact (in_literal _ l t c I J). cbn [source_text] in Lo. pose proof (lower_id _ Lo) as Q. unfold lowert in Q.
      clear - X Q. induction (template_text l) as [|d s IH]; [destruct X|]. cbn in Q. injection Q as Q1 Q2. destruct X as [->|X]; [exact Q1|auto]. }
    clear - G. induction (filled put l) as [|d s IH]; [reflexivity|]. cbn [lowert map]. rewrite G by (left; reflexivity). f_equal. apply IH. intros c I. apply G. right; exact I.
  - intros c O I. apply in_filled in I. destruct I as [(t & I & J)|(n & I & J)].
    + apply (Li t I) in O. contradiction.
    + apply (P n c (U n I)) in J. tauto.
Qed.

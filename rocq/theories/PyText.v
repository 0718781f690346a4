(** Text as lists of ASCII characters, with the Python string methods used by the parsers. *)
From Coq Require Import List Reals Bool Arith String Ascii ZArith Lia.
Import ListNotations.

Definition text := list ascii.
Definition T (s : string) : text := list_ascii_of_string s.
Arguments T s%string.

Definition space : ascii := " "%char.
Definition newline : ascii := ascii_of_nat 10.

(** str.isspace for one character *)
Definition is_ws (c : ascii) : bool :=
  let n := nat_of_ascii c in (((9 <=? n) && (n <=? 13)) || ((28 <=? n) && (n <=? 32)))%nat.
Definition is_digit (c : ascii) : bool := let n := nat_of_ascii c in ((48 <=? n) && (n <=? 57))%nat.
Definition digit_value (c : ascii) : Z := Z.of_nat (nat_of_ascii c - 48).

(** str.lower *)
Definition low (c : ascii) : ascii :=
  let n := nat_of_ascii c in if ((65 <=? n) && (n <=? 90))%nat then ascii_of_nat (n + 32) else c.
Definition lowert (s : text) : text := map low s.

(** lstrip, rstrip, strip *)
Fixpoint drop_ws (s : text) : text := match s with [] => [] | c :: r => if is_ws c then drop_ws r else s end.
Definition rdrop_ws (s : text) : text := rev (drop_ws (rev s)).
Definition trim (s : text) : text := rdrop_ws (drop_ws s).
Definition blank (s : text) : bool := forallb is_ws s.

Fixpoint teqb (a b : text) : bool :=
  match a, b with [], [] => true | x :: a, y :: b => Ascii.eqb x y && teqb a b | _, _ => false end.
Definition text_dec : forall a b : text, {a = b} + {a <> b}.
Proof. apply list_eq_dec. exact ascii_dec. Defined.

(** str.startswith, str.find; find gives None for -1 *)
Fixpoint prefixb (p s : text) : bool :=
  match p, s with [], _ => true | x :: p, y :: s => Ascii.eqb x y && prefixb p s | _ :: _, [] => false end.
Fixpoint find (p s : text) : option nat :=
  if prefixb p s then Some 0%nat else match s with [] => None | _ :: r => option_map S (find p r) end.
Fixpoint find1 (c : ascii) (s : text) : option nat :=
  match s with [] => None | d :: r => if Ascii.eqb d c then Some 0%nat else option_map S (find1 c r) end.
Definition has (c : ascii) (s : text) : bool := existsb (Ascii.eqb c) s.

(** str.partition for one character: before, whether it was found, after *)
Fixpoint partition1 (c : ascii) (s : text) : text * bool * text :=
  match s with
  | [] => ([], false, [])
  | d :: r => if Ascii.eqb d c then ([], true, r)
              else let '(a, f, b) := partition1 c r in (d :: a, f, b)
  end.

(** str.split for one character, and str.split() *)
Fixpoint split1 (c : ascii) (s : text) : list text :=
  match s with
  | [] => [[]]
  | d :: r => match split1 c r with
              | [] => [[]]
              | w :: ws => if Ascii.eqb d c then [] :: w :: ws else (d :: w) :: ws
              end
  end.
Fixpoint split_ws_aux (cur : text) (s : text) : list text :=
  match s with
  | [] => match cur with [] => [] | _ => [rev cur] end
  | d :: r => if is_ws d then match cur with [] => split_ws_aux [] r | _ => rev cur :: split_ws_aux [] r end
              else split_ws_aux (d :: cur) r
  end.
Definition split_ws (s : text) : list text := split_ws_aux [] s.

(** sep.join(l) *)
Fixpoint join (sep : text) (l : list text) : text :=
  match l with [] => [] | [w] => w | w :: r => w ++ sep ++ join sep r end.

(** str.replace(p, r) for a non-empty p; [skip] counts the characters of a match still to pass *)
Fixpoint replace_aux (p r : text) (skip : nat) (s : text) : text :=
  match s with
  | [] => []
  | c :: s' =>
      match skip with
      | S k => replace_aux p r k s'
      | O => if prefixb p s then r ++ replace_aux p r (List.length p - 1) s' else c :: replace_aux p r 0 s'
      end
  end.
Definition replace (p r s : text) : text := replace_aux p r 0 s.
(** str.replace(c, '') *)
Definition remove1 (c : ascii) (s : text) : text := filter (fun d => negb (Ascii.eqb d c)) s.

(** float(s) for decimal notation; infinities, not-a-number and underscores are not modelled, nor
    is rounding. *)
Fixpoint digits_value (acc : Z) (s : text) : Z :=
  match s with [] => acc | c :: r => digits_value (10 * acc + digit_value c) r end.
Definition int_of (s : text) : option Z :=
  match s with [] => None | _ => if forallb is_digit s then Some (digits_value 0 s) else None end.
Definition sign_of (s : text) : Z * text :=
  match s with
  | c :: r => if Ascii.eqb c "-" then ((-1)%Z, r) else if Ascii.eqb c "+" then (1%Z, r) else (1%Z, s)
  | [] => (1%Z, [])
  end.
Definition exponent_of (s : text) (found : bool) : option Z :=
  if found then let '(sg, d) := sign_of s in option_map (fun n => (sg * n)%Z) (int_of d) else Some 0%Z.
Definition mantissa_of (s : text) : option R :=
  let '(a, dot, b) := partition1 "." s in
  if forallb is_digit a && forallb is_digit b && negb (match a, b with [], [] => true | _, _ => false end) then
    Some (IZR (digits_value (digits_value 0 a) b) / IZR (10 ^ Z.of_nat (List.length b)))%R
  else None.
Definition py_float (s : text) : option R :=
  let '(sg, u) := sign_of (trim s) in
  let '(m, found, e) := partition1 "e" (lowert u) in
  match mantissa_of m, exponent_of e found with
  | Some x, Some n => Some (IZR sg * x * powerRZ 10 n)%R
  | _, _ => None
  end.

(* ------------------------------------------------------------------ *)
(** Lemmas *)
Lemma teqb_eq : forall a b, teqb a b = true <-> a = b.
Proof.
  induction a as [|x a IH]; intros [|y b]; cbn; split; intros H; try discriminate; auto.
  - apply andb_true_iff in H. destruct H as [E H]. apply Ascii.eqb_eq in E. apply IH in H. congruence.
  - injection H as -> ->. rewrite Ascii.eqb_refl. apply IH. reflexivity.
Qed.
Lemma has_in : forall c s, has c s = true <-> In c s.
Proof.
  intros c s. unfold has. rewrite existsb_exists. split.
  - intros (d & I & E). apply Ascii.eqb_eq in E. congruence.
  - intros I. exists c. split; [exact I|apply Ascii.eqb_refl].
Qed.
Lemma find1_none : forall c s, ~ In c s -> find1 c s = None.
Proof.
  induction s as [|d s IH]; intros H; cbn; [reflexivity|].
  destruct (Ascii.eqb_spec d c) as [->|N]; [exfalso; apply H; left; reflexivity|]. rewrite IH; [reflexivity|]. intros I. apply H. right; exact I.
Qed.
Lemma find1_app : forall c a b, ~ In c a -> find1 c (a ++ c :: b) = Some (List.length a).
Proof.
  induction a as [|d a IH]; intros b H; cbn.
  - rewrite Ascii.eqb_refl. reflexivity.
  - destruct (Ascii.eqb_spec d c) as [->|N]; [exfalso; apply H; left; reflexivity|]. rewrite IH; [reflexivity|]. intros I. apply H. right; exact I.
Qed.
Lemma partition1_app : forall c a b, ~ In c a -> partition1 c (a ++ c :: b) = (a, true, b).
Proof.
  induction a as [|d a IH]; intros b H; cbn.
  - rewrite Ascii.eqb_refl. reflexivity.
  - destruct (Ascii.eqb_spec d c) as [->|N]; [exfalso; apply H; left; reflexivity|]. rewrite IH; [reflexivity|]. intros I. apply H. right; exact I.
Qed.
Lemma partition1_none : forall c a, ~ In c a -> partition1 c a = (a, false, []).
Proof.
  induction a as [|d a IH]; intros H; cbn; [reflexivity|].
  destruct (Ascii.eqb_spec d c) as [->|N]; [exfalso; apply H; left; reflexivity|]. rewrite IH; [reflexivity|]. intros I. apply H. right; exact I.
Qed.
Lemma split1_nonempty : forall c s, split1 c s <> [].
Proof. induction s as [|d s IH]; cbn; [discriminate|]. destruct (split1 c s); [contradiction|]. destruct (Ascii.eqb d c); discriminate. Qed.
Lemma split1_none : forall c s, ~ In c s -> split1 c s = [s].
Proof.
  induction s as [|d s IH]; intros H; cbn; [reflexivity|]. rewrite IH by (intros I; apply H; right; exact I).
  destruct (Ascii.eqb_spec d c) as [->|N]; [exfalso; apply H; left; reflexivity|reflexivity].
Qed.
Lemma split1_cons : forall c a b, ~ In c a -> split1 c (a ++ c :: b) = a :: split1 c b.
Proof.
  induction a as [|d a IH]; intros b H; cbn [app split1].
  - pose proof (split1_nonempty c b). destruct (split1 c b) as [|w ws]; [contradiction|]. rewrite Ascii.eqb_refl. reflexivity.
  - rewrite IH by (intros I; apply H; right; exact I).
    destruct (Ascii.eqb_spec d c) as [->|N]; [exfalso; apply H; left; reflexivity|reflexivity].
Qed.
Lemma split1_join : forall c l, l <> [] -> (forall w, In w l -> ~ In c w) -> split1 c (join [c] l) = l.
Proof.
  intros c l N H. induction l as [|w l IH]; [contradiction|]. destruct l as [|w' l].
  - cbn. apply split1_none. apply H. left; reflexivity.
  - change (join [c] (w :: w' :: l)) with (w ++ c :: join [c] (w' :: l)).
    rewrite split1_cons by (apply H; left; reflexivity). f_equal. apply IH; [discriminate|]. intros v I. apply H. right; exact I.
Qed.
(** Splitting a text in two at any place. *)
Lemma split1_app : forall c a b, exists ws w v vs, split1 c a = ws ++ [w] /\ split1 c b = v :: vs /\ split1 c (a ++ b) = ws ++ (w ++ v) :: vs.
Proof.
  induction a as [|d a IH]; intros b.
  - pose proof (split1_nonempty c b). destruct (split1 c b) as [|v vs] eqn:E; [contradiction|]. exists [], [], v, vs. cbn. repeat split; assumption.
  - destruct (IH b) as (ws & w & v & vs & A & B & C). cbn [app split1]. rewrite A, C.
    destruct ws as [|w0 ws]; cbn [app]; destruct (Ascii.eqb d c).
    + exists [[]], w, v, vs. repeat split; auto.
    + exists [], (d :: w), v, vs. repeat split; auto.
    + exists ([] :: w0 :: ws), w, v, vs. repeat split; auto.
    + exists ((d :: w0) :: ws), w, v, vs. repeat split; auto.
Qed.
Lemma split1_in : forall c s w, In w (split1 c s) -> ~ In c w.
Proof.
  induction s as [|d s IH]; cbn [split1]; intros w I.
  - destruct I as [<-|[]]. intros [].
  - pose proof (split1_nonempty c s). destruct (split1 c s) as [|v vs]; [contradiction|]. destruct (Ascii.eqb_spec d c) as [->|N].
    + destruct I as [<-|I]; [intros []|apply IH; exact I].
    + destruct I as [<-|I]; [|apply IH; right; exact I]. intros [E|J]; [congruence|]. apply (IH v); [left; reflexivity|exact J].
Qed.

Lemma drop_ws_idem : forall s, drop_ws (drop_ws s) = drop_ws s.
Proof. induction s as [|c s IH]; cbn; [reflexivity|]. destruct (is_ws c) eqn:E; [exact IH|]. cbn. rewrite E. reflexivity. Qed.
Lemma drop_ws_blank : forall s, drop_ws s = [] <-> blank s = true.
Proof. induction s as [|c s IH]; cbn; [tauto|]. destruct (is_ws c) eqn:E; cbn; [exact IH|]. split; discriminate. Qed.
Lemma drop_ws_id : forall c s, is_ws c = false -> drop_ws (c :: s) = c :: s.
Proof. intros c s H. cbn. rewrite H. reflexivity. Qed.
Lemma drop_ws_app : forall a s, blank a = true -> drop_ws (a ++ s) = drop_ws s.
Proof. induction a as [|c a IH]; intros s H; cbn in *; [reflexivity|]. apply andb_true_iff in H. destruct H as [H1 H2]. rewrite H1. apply IH; exact H2. Qed.
Lemma drop_ws_split : forall s, exists a, blank a = true /\ s = a ++ drop_ws s.
Proof.
  induction s as [|c s IH]; cbn; [exists []; split; reflexivity|]. destruct (is_ws c) eqn:E.
  - destruct IH as (a & B & F). exists (c :: a). cbn. rewrite E. split; [exact B|congruence].
  - exists []. split; reflexivity.
Qed.
Lemma blank_rev : forall s, blank (rev s) = blank s.
Proof.
  intros s. unfold blank. destruct (forallb is_ws s) eqn:E.
  - rewrite forallb_forall in *. intros x I. apply E. apply in_rev. exact I.
  - apply not_true_is_false. intros H. rewrite forallb_forall in H. assert (forallb is_ws s = true); [|congruence].
    apply forallb_forall. intros x I. apply H. apply in_rev in I. exact I.
Qed.
Lemma blank_app : forall a b, blank (a ++ b) = (blank a && blank b)%bool.
Proof. intros. apply forallb_app. Qed.
Lemma rdrop_ws_app : forall s w, blank w = true -> rdrop_ws (s ++ w) = rdrop_ws s.
Proof. intros s w H. unfold rdrop_ws. rewrite rev_app_distr. rewrite drop_ws_app; [reflexivity|]. rewrite blank_rev. exact H. Qed.
Lemma rdrop_ws_last : forall s c, is_ws c = false -> rdrop_ws (s ++ [c]) = s ++ [c].
Proof. intros s c H. unfold rdrop_ws. rewrite rev_app_distr. cbn. rewrite H. cbn. rewrite rev_involutive. reflexivity. Qed.
Lemma rdrop_ws_split : forall s, exists w, blank w = true /\ s = rdrop_ws s ++ w.
Proof.
  intros s. destruct (drop_ws_split (rev s)) as (a & B & E). exists (rev a). split; [rewrite blank_rev; exact B|].
  unfold rdrop_ws. rewrite <- rev_app_distr, <- E, rev_involutive. reflexivity.
Qed.
Lemma rdrop_ws_idem : forall s, rdrop_ws (rdrop_ws s) = rdrop_ws s.
Proof. intros s. unfold rdrop_ws. rewrite rev_involutive, drop_ws_idem. reflexivity. Qed.
Lemma rdrop_ws_blank : forall s, rdrop_ws s = [] <-> blank s = true.
Proof.
  intros s. unfold rdrop_ws. rewrite <- blank_rev, <- drop_ws_blank. split; intros H.
  - rewrite <- (rev_involutive (drop_ws (rev s))), H. reflexivity.
  - rewrite H. reflexivity.
Qed.
(** Text without white space at either end. *)
Definition tight (s : text) : Prop := (forall c r, s = c :: r -> is_ws c = false) /\ (forall r c, s = r ++ [c] -> is_ws c = false).
Lemma rdrop_tight : forall s, (forall r c, s = r ++ [c] -> is_ws c = false) -> rdrop_ws s = s.
Proof.
  intros s H. destruct (rev s) as [|c r] eqn:E.
  - assert (s = []) by (rewrite <- (rev_involutive s), E; reflexivity). subst. reflexivity.
  - assert (s = rev r ++ [c]) by (rewrite <- (rev_involutive s), E; reflexivity). rewrite H0. apply rdrop_ws_last. eapply H. exact H0.
Qed.
Lemma trim_tight : forall s, tight s -> trim s = s.
Proof.
  intros s [H1 H2]. unfold trim. destruct s as [|c r]; [reflexivity|]. rewrite drop_ws_id by (eapply H1; reflexivity). apply rdrop_tight. exact H2.
Qed.
Lemma trim_pad : forall a s b, blank a = true -> blank b = true -> tight s -> trim (a ++ s ++ b) = s.
Proof.
  intros a s b Ha Hb [H1 H2]. unfold trim. rewrite drop_ws_app by exact Ha. destruct s as [|c r].
  - cbn. assert (drop_ws b = []) by (apply drop_ws_blank; exact Hb). rewrite H. reflexivity.
  - cbn [app]. rewrite drop_ws_id by (eapply H1; reflexivity). change (c :: r ++ b) with ((c :: r) ++ b). rewrite rdrop_ws_app by exact Hb. apply rdrop_tight. exact H2.
Qed.
Lemma trim_blank : forall s, blank s = true -> trim s = [].
Proof. intros s H. unfold trim. apply drop_ws_blank in H. rewrite H. reflexivity. Qed.
Lemma trim_tight' : forall s, tight (trim s).
Proof.
  intros s. unfold trim. split.
  - intros c r E. destruct (rdrop_ws_split (drop_ws s)) as (w & _ & F). rewrite E in F. cbn in F.
    pose proof (drop_ws_idem s) as D. rewrite F in D. cbn in D. destruct (is_ws c) eqn:W; [|reflexivity].
    exfalso. assert (L : forall u, (List.length (drop_ws u) <= List.length u)%nat).
    { clear. induction u as [|x u IH]; cbn; [lia|]. destruct (is_ws x); cbn; lia. }
    pose proof (L (r ++ w)). rewrite D in H. cbn in H. lia.
  - intros r c E. unfold rdrop_ws in E. assert (F : drop_ws (rev (drop_ws s)) = c :: rev r).
    { rewrite <- (rev_involutive (drop_ws (rev (drop_ws s)))), E, rev_app_distr. reflexivity. }
    pose proof (drop_ws_idem (rev (drop_ws s))) as D. rewrite F in D. cbn in D. destruct (is_ws c) eqn:W; [|reflexivity].
    exfalso. assert (L : forall u, (List.length (drop_ws u) <= List.length u)%nat).
    { clear. induction u as [|x u IH]; cbn; [lia|]. destruct (is_ws x); cbn; lia. }
    pose proof (L (rev r)). rewrite D in H. cbn in H. lia.
Qed.
Lemma trim_idem : forall s, trim (trim s) = trim s.
Proof. intros s. apply trim_tight. apply trim_tight'. Qed.

Lemma remove1_id : forall c s, ~ In c s -> remove1 c s = s.
Proof.
  induction s as [|d s IH]; intros H; cbn; [reflexivity|]. destruct (Ascii.eqb_spec d c) as [->|N]; [exfalso; apply H; left; reflexivity|].
  cbn. f_equal. apply IH. intros I. apply H. right; exact I.
Qed.
Lemma remove1_in : forall c d s, d <> c -> In d s -> In d (remove1 c s).
Proof. intros c d s N I. unfold remove1. apply filter_In. split; [exact I|]. destruct (Ascii.eqb_spec d c); [contradiction|reflexivity]. Qed.
Lemma remove1_app : forall c a b, remove1 c (a ++ b) = remove1 c a ++ remove1 c b.
Proof. intros. apply filter_app. Qed.
Lemma remove1_not_in : forall c s, ~ In c (remove1 c s).
Proof. intros c s I. apply filter_In in I. destruct I as [_ E]. rewrite Ascii.eqb_refl in E. discriminate. Qed.

Lemma prefixb_app : forall p s, prefixb p (p ++ s) = true.
Proof. induction p as [|c p IH]; intros s; cbn; [reflexivity|]. rewrite Ascii.eqb_refl. apply IH. Qed.
Lemma prefixb_split : forall p s, prefixb p s = true -> exists r, s = p ++ r.
Proof.
  induction p as [|c p IH]; intros s H; [exists s; reflexivity|]. destruct s as [|d s]; [discriminate|]. cbn in H.
  apply andb_true_iff in H. destruct H as [E H]. apply Ascii.eqb_eq in E. destruct (IH _ H) as [r ->]. exists r. subst. reflexivity.
Qed.
(** A text none of whose parts starts the pattern is left alone. *)
Fixpoint occurs (p s : text) : bool := prefixb p s || match s with [] => false | _ :: r => occurs p r end.
Lemma replace_none : forall p r s, occurs p s = false -> replace p r s = s.
Proof.
  intros p r. unfold replace. induction s as [|c s IH]; intros H; [reflexivity|].
  change (prefixb p (c :: s) || occurs p s = false)%bool in H. apply orb_false_iff in H. destruct H as [H1 H2].
  cbn [replace_aux]. rewrite H1. f_equal. apply IH. exact H2.
Qed.
Lemma replace_keeps : forall p r c s, p <> [] -> ~ In c p -> In c s -> In c (replace p r s).
Proof.
  intros p r c s Pe Np. unfold replace.
  assert (G : forall n s k, (List.length s <= n)%nat -> (forall x, In x (firstn k s) -> In x p) -> In c s -> In c (replace_aux p r k s)).
  { induction n as [|n IH]; intros u k L K I; [destruct u; [destruct I|cbn in L; lia]|].
    destruct u as [|d u]; [destruct I|]. cbn [replace_aux]. destruct k as [|k].
    - destruct (prefixb p (d :: u)) eqn:E.
      + apply in_app_iff. right. destruct (prefixb_split _ _ E) as [q Q].
        assert (Iq : In c q). { rewrite Q in I. apply in_app_iff in I. destruct I as [I|I]; [contradiction|exact I]. }
        destruct p as [|x p']; [contradiction|].
        cbn in Q. injection Q as -> ->. apply IH.
        * cbn in L. lia.
        * cbn [List.length]. replace (S (List.length p') - 1)%nat with (List.length p') by lia. intros y Iy.
          rewrite firstn_app, Nat.sub_diag, firstn_all in Iy. cbn in Iy. rewrite app_nil_r in Iy. right; exact Iy.
        * apply in_app_iff. right; exact Iq.
      + destruct I as [->|I]; [left; reflexivity|right]. apply IH; [cbn in L; lia|intros x []|exact I].
    - apply IH; [cbn in L; lia|intros x Ix; apply K; right; exact Ix|].
      destruct I as [->|I]; [exfalso; apply Np; apply K; left; reflexivity|exact I]. }
  intros I. apply (G (List.length s) s 0%nat); [lia|intros x []|exact I].
Qed.

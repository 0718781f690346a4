From Coq Require Import List Reals Bool Arith String Ascii ZArith Lia Lra.
From Verif Require Import PyBase PyDict Line_Model Line_Spec.
Import ListNotations.
Open Scope R_scope.

(* ---------------- names ---------------- *)
Definition all_chars : list ascii := map ascii_of_nat (seq 0 256).
Lemma all_chars_in : forall c, In c all_chars.
Proof.
  intros c. unfold all_chars. apply in_map_iff. exists (nat_of_ascii c).
  split; [apply ascii_nat_embedding|]. apply in_seq. pose proof (nat_ascii_bounded c). lia.
Qed.

Definition fold_case (c : ascii) : ascii :=
  match position c capitals with Some i => nth i smalls c | None => c end.
Lemma lower_char_fold : forall c, lower_char c = fold_case c.
Proof.
  intros c. assert (F : forallb (fun c => Ascii.eqb (lower_char c) (fold_case c)) all_chars = true) by (vm_compute; reflexivity).
  rewrite forallb_forall in F. apply Ascii.eqb_eq. apply F. apply all_chars_in.
Qed.

Lemma position_some : forall c l i, position c l = Some i -> nth_error l i = Some c.
Proof.
  induction l as [|d l IH]; intros i H; [discriminate|]. cbn in H.
  destruct (Ascii.eqb c d) eqn:E.
  - injection H as <-. apply Ascii.eqb_eq in E. subst. reflexivity.
  - destruct (position c l) as [j|]; [|discriminate]. injection H as <-. cbn. apply IH. reflexivity.
Qed.
Lemma position_none : forall c l, position c l = None -> ~ In c l.
Proof.
  induction l as [|d l IH]; intros H; [tauto|]. cbn in H.
  destruct (Ascii.eqb c d) eqn:E; [discriminate|]. apply Ascii.eqb_neq in E.
  destruct (position c l); [discriminate|]. intros [X|X]; [congruence|]. apply IH; auto.
Qed.

(** letters as data: the 26 pairs *)
Lemma pair_fold : forall i c d, nth_error capitals i = Some c -> nth_error smalls i = Some d ->
  lower_char c = d /\ lower_char d = d.
Proof.
  intros i c d H1 H2.
  assert (F : forallb (fun p => Ascii.eqb (lower_char (fst p)) (snd p) && Ascii.eqb (lower_char (snd p)) (snd p))%bool
               (combine capitals smalls) = true) by (vm_compute; reflexivity).
  rewrite forallb_forall in F.
  assert (I : In (c, d) (combine capitals smalls)).
  { clear F. revert i H1 H2. generalize capitals smalls. induction l as [|x l IH]; intros m i H1 H2; [destruct i; discriminate|].
    destruct m as [|y m]; [destruct i; discriminate|]. destruct i as [|i]; cbn in *.
    - injection H1 as ->. injection H2 as ->. left; reflexivity.
    - right. apply (IH m i); assumption. }
  apply F in I. cbn in I. apply andb_true_iff in I. destruct I as [A B].
  split; apply Ascii.eqb_eq; assumption.
Qed.

Lemma lower_char_cases : forall c, lower_char c = c \/
  exists i, nth_error capitals i = Some c /\ nth_error smalls i = Some (lower_char c).
Proof.
  intros c. rewrite lower_char_fold. unfold fold_case. destruct (position c capitals) as [i|] eqn:E; [|left; reflexivity].
  right. exists i. apply position_some in E. split; [exact E|].
  assert (L : (i < List.length smalls)%nat).
  { assert (i < List.length capitals)%nat by (apply nth_error_Some; congruence). exact H. }
  apply nth_error_nth'. exact L.
Qed.

Lemma smalls_nodup_caps : forall c i j, nth_error capitals i = Some c -> nth_error smalls j = Some c -> False.
Proof.
  intros c i j H1 H2. apply nth_error_In in H1, H2. vm_compute in H1, H2.
  repeat (destruct H1 as [H1|H1]; [subst c; repeat (destruct H2 as [H2|H2]; [discriminate|]); destruct H2|]). destruct H1.
Qed.

Lemma same_letter_lower : forall c d, same_letter c d <-> lower_char c = lower_char d.
Proof.
  intros c d. split.
  - intros [->|[(i & A & B)|(i & A & B)]]; [reflexivity| |];
      destruct (pair_fold _ _ _ A B) as [E1 E2]; congruence.
  - intros E. unfold same_letter.
    destruct (lower_char_cases c) as [Hc|(i & A & B)], (lower_char_cases d) as [Hd|(j & C & D)].
    + left. congruence.
    + right; right. exists j. split; [exact C|]. rewrite D. f_equal. congruence.
    + right; left. exists i. split; [exact A|]. rewrite B. f_equal. congruence.
    + left. assert (i = j).
      { rewrite <- E in D. assert (N : NoDup smalls).
        { vm_compute. repeat constructor; cbn; intuition discriminate. }
        eapply NoDup_nth_error; [exact N| |congruence]. apply nth_error_Some. congruence. }
      subst j. congruence.
Qed.

Lemma same_name_lower : forall s t, same_name s t <-> lower s = lower t.
Proof.
  induction s as [|c s IH]; intros t; split; intros H.
  - inversion H; reflexivity.
  - destruct t; [constructor|discriminate].
  - inversion H as [|? d ? t' L R]; subst. cbn. apply same_letter_lower in L. apply IH in R. congruence.
  - destruct t as [|d t]; [discriminate|]. cbn in H. injection H as A B.
    constructor; [apply same_letter_lower; exact A|apply IH; exact B].
Qed.

Lemma lower_lower : forall s, lower (lower s) = lower s.
Proof.
  assert (C : forall c, lower_char (lower_char c) = lower_char c).
  { intros c. assert (F : forallb (fun c => Ascii.eqb (lower_char (lower_char c)) (lower_char c)) all_chars = true) by (vm_compute; reflexivity).
    rewrite forallb_forall in F. apply Ascii.eqb_eq. apply F. apply all_chars_in. }
  induction s as [|c s IH]; cbn; [reflexivity|]. rewrite C, IH. reflexivity.
Qed.

(* ---------------- the case-insensitive dict ---------------- *)
Definition assigns (d : params) (l : list (string * value)) : params :=
  fold_left (fun d kv => agn_set d (fst kv) (snd kv)) l d.

Lemma assigns_app : forall l1 l2 d, assigns d (l1 ++ l2) = assigns (assigns d l1) l2.
Proof. intros. unfold assigns. apply fold_left_app. Qed.

Lemma agn_get_set : forall d k v k', agn_get (agn_set d k v) k' = if string_dec (lower k') (lower k) then Some v else agn_get d k'.
Proof.
  intros. unfold agn_get, agn_set. destruct (string_dec (lower k') (lower k)) as [->|N].
  - apply dget_dset_same.
  - apply dget_dset_other. exact N.
Qed.

Lemma assigns_other : forall l d k, (forall k' v, In (k', v) l -> ~ same_name k k') -> agn_get (assigns d l) k = agn_get d k.
Proof.
  induction l as [|[k0 v0] l IH]; intros d k H; [reflexivity|].
  change (assigns d ((k0, v0) :: l)) with (assigns (agn_set d k0 v0) l). rewrite IH by (intros; apply (H k' v); right; assumption).
  rewrite agn_get_set. destruct (string_dec (lower k) (lower k0)) as [E|E]; [|reflexivity].
  exfalso. apply (H k0 v0); [left; reflexivity|]. apply same_name_lower. exact E.
Qed.

Lemma last_value_get : forall k l o d, last_value k l o ->
  agn_get (assigns d l) k = match o with Some v => Some v | None => agn_get d k end.
Proof.
  intros k l o d H. destruct H as [l H|l1 k' v l2 S H].
  - apply assigns_other. exact H.
  - rewrite assigns_app. change (assigns (assigns d l1) ((k', v) :: l2)) with (assigns (agn_set (assigns d l1) k' v) l2).
    rewrite assigns_other by exact H. rewrite agn_get_set. cbn.
    apply same_name_lower in S. destruct (string_dec (lower k) (lower k')); congruence.
Qed.

Lemma same_dec : forall s t, {same_name s t} + {~ same_name s t}.
Proof.
  intros. destruct (string_dec (lower s) (lower t)) as [E|E]; [left|right]; [apply same_name_lower; exact E|].
  intros H. apply same_name_lower in H. contradiction.
Qed.

Lemma last_value_exists : forall {A} k (l : list (string * A)), exists o, last_value k l o.
Proof.
  intros A k. induction l as [|[k0 v0] l IH] using rev_ind.
  - exists None. constructor. intros ? ? [].
  - destruct (same_dec k k0) as [S|N].
    + exists (Some v0). apply lv_some; [exact S|]. intros ? ? [].
    + destruct IH as [o H]. exists o. destruct H as [l H|l1 k' v l2 S H].
      * constructor. intros k' v I. apply in_app_iff in I. destruct I as [I|[I|[]]]; [apply (H k' v I)|injection I as <- <-; exact N].
      * rewrite <- app_assoc. cbn. apply lv_some; [exact S|].
        intros k'' w I. apply in_app_iff in I. destruct I as [I|[I|[]]]; [apply (H k'' w I)|injection I as <- <-; exact N].
Qed.

(** All keys are in lower case and different. *)
Definition keys_ok (d : params) : Prop := NoDup (dkeys d) /\ forall k v, In (k, v) d -> lower k = k.
Lemma dset_in : forall {V} (d : list (string * V)) k v k' v', In (k', v') (dset string_dec d k v) -> (k', v') = (k, v) \/ In (k', v') d.
Proof.
  induction d as [|[k0 v0] r IH]; intros k v k' v'; cbn; [intros [E|[]]; left; congruence|].
  destruct (string_dec k k0) as [->|N]; cbn.
  - intros [E|I]; [left; congruence|right; right; exact I].
  - intros [E|I]; [right; left; exact E|]. destruct (IH _ _ _ _ I); [left|right; right]; assumption.
Qed.
Lemma agn_set_ok : forall d k v, keys_ok d -> keys_ok (agn_set d k v).
Proof.
  intros d k v [N L]. split; [apply dset_nodup; exact N|].
  intros k' v' I. apply dset_in in I. destruct I as [I|I]; [|eapply L; exact I].
  injection I as -> _. apply lower_lower.
Qed.
Lemma assigns_ok : forall l d, keys_ok d -> keys_ok (assigns d l).
Proof. induction l as [|[k v] l IH]; intros d H; cbn; [exact H|]. apply IH. apply agn_set_ok. exact H. Qed.
Lemma keys_ok_nil : keys_ok [].
Proof. split; [constructor|intros ? ? []]. Qed.

Lemma agn_get_in : forall d k v, keys_ok d -> agn_get d k = Some v <-> exists k', same_name k k' /\ In (k', v) d.
Proof.
  intros d k v [N L]. unfold agn_get. split.
  - intros H. apply dget_in in H. exists (lower k). split; [|exact H]. apply same_name_lower. symmetry. apply lower_lower.
  - intros (k' & S & I). apply same_name_lower in S. rewrite (L _ _ I) in S. rewrite S. apply in_dget; assumption.
Qed.
Lemma agn_get_none : forall d k, keys_ok d -> agn_get d k = None <-> forall k' v, In (k', v) d -> ~ same_name k k'.
Proof.
  intros d k [N L]. unfold agn_get. rewrite dget_none. split.
  - intros H k' v I S. apply same_name_lower in S. rewrite (L _ _ I) in S. apply H. rewrite S.
    change k' with (fst (k', v)). apply in_map. exact I.
  - intros H I. apply in_map_iff in I. destruct I as ([k' v] & E & I). cbn in E. subst k'.
    apply (H _ _ I). apply same_name_lower. symmetry. apply lower_lower.
Qed.

(* ---------------- heap updates ---------------- *)
Lemma upd_length : forall {A} (l : list A) i f, List.length (upd l i f) = List.length l.
Proof. induction l as [|x l IH]; intros [|i] f; cbn; auto. Qed.
Lemma upd_same : forall {A} (l : list A) i f x, nth_error l i = Some x -> nth_error (upd l i f) i = Some (f x).
Proof. induction l as [|y l IH]; intros [|i] f x H; cbn in *; try discriminate; [congruence|auto]. Qed.
Lemma upd_other : forall {A} (l : list A) i j f, i <> j -> nth_error (upd l i f) j = nth_error l j.
Proof. induction l as [|y l IH]; intros [|i] [|j] f H; cbn; auto; try congruence. Qed.
Lemma upd_nth : forall {A} (l : list A) i j f,
  nth_error (upd l i f) j = if (i =? j)%nat then option_map f (nth_error l j) else nth_error l j.
Proof.
  intros. destruct (i =? j)%nat eqn:E.
  - apply Nat.eqb_eq in E. subst. destruct (nth_error l j) eqn:N; cbn.
    + apply upd_same; exact N.
    + apply nth_error_None. rewrite upd_length. apply nth_error_None. exact N.
  - apply Nat.eqb_neq in E. apply upd_other; exact E.
Qed.
Lemma upd_id : forall {A} (l : list A) i f, (forall x, nth_error l i = Some x -> f x = x) -> upd l i f = l.
Proof.
  induction l as [|y l IH]; intros [|i] f H; cbn; auto; [rewrite H; reflexivity|]. f_equal. apply IH. intros x Hx. apply H. exact Hx.
Qed.

(* ---------------- invariant ---------------- *)
Definition wf_line (h : heap) (a : nat) (l : line) : Prop :=
  (forall e, In (RE e) (l_seq l) -> exists el, nth_error (elems h) e = Some el /\ e_line el = Some (l_top l)) /\
  (forall b, In (RL b) (l_seq l) -> (a < b)%nat /\ exists lb, nth_error (lines h) b = Some lb /\ l_top lb = l_top l) /\
  (forall n e, dget string_dec (l_elements l) n = Some e ->
     exists el, nth_error (elems h) e = Some el /\ e_name el = n /\ e_line el = Some (l_top l)) /\
  (forall n b, dget name_dec (l_lines l) n = Some b -> In (RL b) (l_seq l)) /\
  (exists lt, nth_error (lines h) (l_top l) = Some lt /\ l_top lt = l_top l) /\
  (l_top l = a \/ exists p lp, nth_error (lines h) p = Some lp /\ In (RL a) (l_seq lp)).
Definition wf (h : heap) : Prop :=
  (forall a l, nth_error (lines h) a = Some l -> wf_line h a l) /\
  (forall e el, nth_error (elems h) e = Some el -> keys_ok (e_params el)).

Lemma wf_empty : wf empty_heap.
Proof. split; intros [|n] x H; discriminate. Qed.

(** Appending an element whose recorded beamline is the top of the line. *)
Lemma wf_append : forall h b e el lb, wf h -> nth_error (lines h) b = Some lb ->
  nth_error (elems h) e = Some el -> e_line el = Some (l_top lb) -> wf (upd_line h b (append_ref (RE e))).
Proof.
  intros h b e el lb [W K] Hb He Ht. split; [|exact K].
  intros a l Ha. unfold upd_line in Ha. cbn [lines] in Ha. rewrite upd_nth in Ha.
  assert (G : exists l0, nth_error (lines h) a = Some l0 /\ l_top l = l_top l0 /\ l_elements l = l_elements l0 /\ l_lines l = l_lines l0 /\
     (l_seq l = l_seq l0 \/ (a = b /\ l_seq l = l_seq l0 ++ [RE e]))).
  { destruct (b =? a)%nat eqn:E.
    - apply Nat.eqb_eq in E. subst a. rewrite Hb in Ha. injection Ha as <-. exists lb. cbn. tauto.
    - exists l. tauto. }
  destruct G as (l0 & H0 & T & E & L & S).
  assert (M : forall x lx, nth_error (lines h) x = Some lx -> exists lx', nth_error (lines (upd_line h b (append_ref (RE e)))) x = Some lx' /\
     l_top lx' = l_top lx /\ incl (l_seq lx) (l_seq lx')).
  { intros x lx Hx. unfold upd_line. cbn [lines]. rewrite upd_nth, Hx. destruct (b =? x)%nat; cbn.
    - eexists; split; [reflexivity|]. cbn. split; [reflexivity|]. apply incl_appl, incl_refl.
    - eexists; split; [reflexivity|]. split; [reflexivity|apply incl_refl]. }
  assert (I : incl (l_seq l0) (l_seq l)) by (destruct S as [->|[_ ->]]; [apply incl_refl|apply incl_appl, incl_refl]).
  destruct (W a l0 H0) as (W1 & W2 & W3 & W4 & W5 & W6).
  unfold wf_line. rewrite T, E, L. repeat split.
  - intros e0 He0. destruct S as [S|[-> S]]; rewrite S in He0; [apply W1; exact He0|].
    apply in_app_iff in He0. destruct He0 as [He0|[He0|[]]]; [apply W1; exact He0|]. injection He0 as <-.
    exists el. split; [exact He|]. congruence.
  - assert (In (RL b0) (l_seq l0)).
    { destruct S as [S|[-> S]]; rewrite S in H; [exact H|]. apply in_app_iff in H. destruct H as [H|[H|[]]]; [exact H|discriminate]. }
    apply W2. assumption.
  - assert (HI : In (RL b0) (l_seq l0)).
    { destruct S as [S|[-> S]]; rewrite S in H; [exact H|]. apply in_app_iff in H. destruct H as [H|[H|[]]]; [exact H|discriminate]. }
    destruct (W2 _ HI) as (_ & lb0 & Hlb0 & Tb). destruct (M _ _ Hlb0) as (lx & A & B & _). exists lx. split; [exact A|congruence].
  - exact W3.
  - intros n b0 D. apply I. eapply W4; exact D.
  - destruct W5 as (lt & A & B). destruct (M _ _ A) as (lx & C & D & _). exists lx. split; [exact C|congruence].
  - destruct W6 as [W6|(p & lp & A & B)]; [left; exact W6|right].
    destruct (M _ _ A) as (lx & C & _ & D). exists p, lx. split; [exact C|apply D; exact B].
Qed.

(** Getting or creating the element, with its beamline recorded. *)
Lemma the_element_ok : forall h a l name ty ps h1 e, wf h -> nth_error (lines h) a = Some l ->
  the_element h a l name ty ps = (h1, Ok e) ->
  let h2 := upd_elem h1 e (fun el => with_e_line el (l_top l)) in
  wf h2 /\
  (exists el, nth_error (elems h2) e = Some el /\ e_name el = name /\ e_line el = Some (l_top l) /\
     ((dget string_dec (l_elements l) name = Some e /\ nth_error (elems h) e = Some el /\ h2 = h) \/
      (dget string_dec (l_elements l) name = None /\ e = List.length (elems h) /\ elems h2 = elems h ++ [el] /\
       e_type el = interpret_element ty /\ e_params el = assigns [] ps /\
       lines h2 = upd (lines h) a (register_element name e)))).
Proof.
  intros h a l name ty ps h1 e W Ha H. destruct W as [W K]. cbn zeta. unfold the_element in H.
  destruct (dget string_dec (l_elements l) name) as [e0|] eqn:D.
  - injection H as <- <-.
    destruct (W a l Ha) as (_ & _ & W3 & _). destruct (W3 _ _ D) as (el & A & B & C).
    assert (Id : upd_elem h e0 (fun el0 => with_e_line el0 (l_top l)) = h).
    { destruct h as [es ls]. unfold upd_elem. cbn in *. f_equal. apply upd_id. intros x Hx. rewrite A in Hx. injection Hx as <-.
      unfold with_e_line. rewrite <- C. destruct el; reflexivity. }
    rewrite Id. split; [split; assumption|]. exists el. repeat split; auto.
  - unfold new_element in H. destruct (existsb (fun kv => reserved (fst kv)) ps); [discriminate|].
    injection H as <- <-. set (el0 := {| e_name := name; e_type := interpret_element ty; e_params := _; e_line := None |}).
    set (n := List.length (elems h)).
    set (h2 := upd_elem _ _ _).
    assert (E2 : elems h2 = elems h ++ [with_e_line el0 (l_top l)]).
    { unfold h2, upd_elem, upd_line. cbn [elems]. clear. subst n.
      induction (elems h) as [|x r IH]; cbn; [reflexivity|]. f_equal. exact IH. }
    assert (L2 : lines h2 = upd (lines h) a (register_element name n)) by reflexivity.
    assert (Old : forall e1 el1, nth_error (elems h) e1 = Some el1 -> nth_error (elems h2) e1 = Some el1).
    { intros e1 el1 X. rewrite E2. rewrite nth_error_app1; [exact X|]. apply nth_error_Some. congruence. }
    assert (New : nth_error (elems h2) n = Some (with_e_line el0 (l_top l))).
    { rewrite E2. unfold n. rewrite nth_error_app2, Nat.sub_diag by lia. reflexivity. }
    assert (M : forall x lx, nth_error (lines h) x = Some lx -> exists lx', nth_error (lines h2) x = Some lx' /\
       l_top lx' = l_top lx /\ l_seq lx' = l_seq lx).
    { intros x lx Hx. rewrite L2, upd_nth, Hx. destruct (a =? x)%nat; cbn; eexists; split; try reflexivity; split; reflexivity. }
    split.
    + split.
      * intros x lx' Hx'. 
        assert (G : exists lx, nth_error (lines h) x = Some lx /\ l_top lx' = l_top lx /\ l_seq lx' = l_seq lx /\ l_lines lx' = l_lines lx /\
          (l_elements lx' = l_elements lx \/ (x = a /\ lx = l /\ l_elements lx' = dset string_dec (l_elements l) name n))).
        { rewrite L2, upd_nth in Hx'. destruct (a =? x)%nat eqn:E.
          - apply Nat.eqb_eq in E. subst x. rewrite Ha in Hx'. injection Hx' as <-. exists l. cbn. tauto.
          - exists lx'. tauto. }
        destruct G as (lx & Hx & T & S & LL & EE).
        destruct (W x lx Hx) as (W1 & W2 & W3 & W4 & W5 & W6).
        unfold wf_line. rewrite T, S, LL. repeat split.
        -- intros e1 I. destruct (W1 _ I) as (el1 & A & B). exists el1. split; [apply Old; exact A|exact B].
        -- apply W2. exact H.
        -- destruct (W2 _ H) as (_ & lb & A & B). destruct (M _ _ A) as (lb' & C & D' & _). exists lb'. split; [exact C|congruence].
        -- intros nm e1 D1. destruct EE as [EE|(-> & -> & EE)]; rewrite EE in D1.
           ++ destruct (W3 _ _ D1) as (el1 & A & B & C). exists el1. split; [apply Old; exact A|tauto].
           ++ destruct (string_dec nm name) as [->|N].
              ** rewrite dget_dset_same in D1. injection D1 as <-. eexists. split; [exact New|]. split; reflexivity.
              ** rewrite dget_dset_other in D1 by exact N. destruct (W3 _ _ D1) as (el1 & A & B & C). exists el1. split; [apply Old; exact A|tauto].
        -- exact W4.
        -- destruct W5 as (lt & A & B). destruct (M _ _ A) as (lt' & C & D' & _). exists lt'. split; [exact C|congruence].
        -- destruct W6 as [W6|(p & lp & A & B)]; [left; exact W6|right].
           destruct (M _ _ A) as (lp' & C & _ & D'). exists p, lp'. split; [exact C|rewrite D'; exact B].
      * intros e1 el1 X. rewrite E2 in X. destruct (Nat.lt_ge_cases e1 n) as [Lt|Ge].
        -- rewrite nth_error_app1 in X by exact Lt. eapply K; exact X.
        -- rewrite nth_error_app2 in X by exact Ge. destruct (e1 - n)%nat eqn:E; cbn in X.
           ++ unfold n in E. unfold n in Ge. rewrite E in X. cbn in X. injection X as <-. cbn. apply assigns_ok, keys_ok_nil.
           ++ unfold n in E. rewrite E in X. destruct n0; discriminate.
    + exists (with_e_line el0 (l_top l)). split; [exact New|]. split; [reflexivity|]. split; [reflexivity|].
      right. repeat split; assumption.
Qed.

Lemma last_ref_in : forall l r, last_ref l = Some r -> In r (l_seq l).
Proof.
  intros l r H. unfold last_ref in H. destruct (rev (l_seq l)) as [|x y] eqn:E; [discriminate|]. injection H as ->.
  apply in_rev. rewrite E. left; reflexivity.
Qed.

Lemma wf_add_element : forall h a name ty ps s, wf h -> wf (fst (add_element h a name ty ps s)).
Proof.
  intros h a name ty ps s W. unfold add_element.
  destruct (nth_error (lines h) a) as [l|] eqn:Ha; [|exact W].
  destruct (the_element h a l name ty ps) as [h1 [e|x|]] eqn:TE.
  - destruct (the_element_ok h a l name ty ps h1 e W Ha TE) as (W2 & el & He & Hn & Hl & _).
    cbn zeta in *. set (h2 := upd_elem h1 e _) in *.
    assert (Lines : forall x lx, nth_error (lines h) x = Some lx -> exists lx', nth_error (lines h2) x = Some lx' /\ l_top lx' = l_top lx).
    { unfold the_element in TE. destruct (dget string_dec (l_elements l) name).
      - injection TE as <- <-. intros x lx Hx. exists lx. tauto.
      - destruct (new_element name ty ps); try discriminate. injection TE as <- <-. intros x lx Hx. unfold h2, upd_elem, upd_line. cbn [lines].
        rewrite upd_nth, Hx. destruct (a =? x)%nat; cbn; eexists; split; reflexivity. }
    destruct s.
    + destruct (last_ref l) as [[e1|b]|] eqn:LR; try exact W2. cbn [fst].
      destruct W as [W K]. destruct (W a l Ha) as (_ & Wb & _). destruct (Wb b (last_ref_in _ _ LR)) as (_ & lb & Hb & Tb).
      destruct (Lines _ _ Hb) as (lb' & Hb' & Tb'). eapply wf_append; [exact W2|exact Hb'|exact He|congruence].
    + cbn [fst]. destruct (Lines _ _ Ha) as (l' & Hl' & Tl'). eapply wf_append; [exact W2|exact Hl'|exact He|congruence].
  - unfold the_element in TE. destruct (dget string_dec (l_elements l) name); [discriminate|].
    destruct (new_element name ty ps); try discriminate; injection TE as <- _; exact W.
  - unfold the_element in TE. destruct (dget string_dec (l_elements l) name); [discriminate|].
    destruct (new_element name ty ps); try discriminate; injection TE as <-; exact W.
Qed.

(** The effect of add_beamline on the lines. *)
Lemma add_beamline_known : forall h a l name b, wf h -> nth_error (lines h) a = Some l ->
  dget name_dec (l_lines l) name = Some b ->
  add_beamline h a name = (upd_line h a (append_ref (RL b)), Ok tt) /\ In (RL b) (l_seq l).
Proof.
  intros h a l name b [W K] Ha D. destruct (W a l Ha) as (_ & W2 & _ & W4 & _).
  pose proof (W4 _ _ D) as I. split; [|exact I]. destruct (W2 _ I) as (Lt & lb & Hb & Tb).
  unfold add_beamline. rewrite Ha, D. f_equal. destruct h as [es ls]. unfold upd_line. cbn in *. f_equal.
  apply upd_id. intros x Hx. rewrite upd_other in Hx by lia. rewrite Hb in Hx. injection Hx as <-.
  unfold with_top. rewrite <- Tb. destruct lb; reflexivity.
Qed.

Lemma add_beamline_new : forall h a l name, nth_error (lines h) a = Some l ->
  dget name_dec (l_lines l) name = None ->
  let b := List.length (lines h) in
  add_beamline h a name =
   ({| elems := elems h;
       lines := upd (lines h) a (fun l => append_ref (RL b) (register_line name b l)) ++
                [{| l_name := name; l_elements := []; l_lines := []; l_seq := []; l_top := l_top l |}] |}, Ok tt).
Proof.
  intros h a l name Ha D b. unfold add_beamline. rewrite Ha, D. unfold new_line. fold b. cbn iota.
  f_equal. unfold upd_line. cbn [elems lines]. f_equal.
  assert (La : (a < b)%nat) by (apply nth_error_Some; congruence).
  unfold b. clear D. revert a Ha La. subst b.
  assert (G : forall (ls : list line) m a f g k x, (a < List.length ls)%nat -> m = List.length ls ->
     upd (upd (upd (ls ++ [x]) a f) a g) m k = upd ls a (fun l => g (f l)) ++ [k x]).
  { clear. induction ls as [|y ls IH]; intros m a f g k x La ->; [cbn in La; lia|].
    destruct a as [|a]; cbn.
    - f_equal. clear. induction ls as [|z ls IH]; cbn; [reflexivity|]. f_equal. exact IH.
    - f_equal. apply IH; [cbn in La; lia|reflexivity]. }
  intros a Ha La. rewrite G by (auto). reflexivity.
Qed.

Lemma wf_add_beamline : forall h a name, wf h -> wf (fst (add_beamline h a name)).
Proof.
  intros h a name W.
  destruct (nth_error (lines h) a) as [l|] eqn:Ha.
  2:{ unfold add_beamline. rewrite Ha. exact W. }
  destruct (dget name_dec (l_lines l) name) as [b|] eqn:D.
  - destruct (add_beamline_known h a l name b W Ha D) as [-> I]. cbn [fst].
    destruct W as [W K]. split; [|exact K]. intros x lx Hx. unfold upd_line in Hx. cbn [lines] in Hx. rewrite upd_nth in Hx.
    assert (M : forall x lx, nth_error (lines h) x = Some lx -> exists lx', nth_error (lines (upd_line h a (append_ref (RL b)))) x = Some lx' /\
       l_top lx' = l_top lx /\ forall r, In r (l_seq lx') <-> In r (l_seq lx)).
    { intros y ly Hy. unfold upd_line. cbn [lines]. rewrite upd_nth, Hy. destruct (a =? y)%nat eqn:E; cbn.
      - apply Nat.eqb_eq in E. subst y. rewrite Ha in Hy. injection Hy as <-. eexists; split; [reflexivity|]. cbn.
        split; [reflexivity|]. intros r. rewrite in_app_iff. cbn. split; [intros [X|[X|[]]]; [exact X|congruence]|tauto].
      - eexists; split; [reflexivity|]. split; [reflexivity|tauto]. }
    assert (G : exists l0, nth_error (lines h) x = Some l0 /\ l_top lx = l_top l0 /\ l_elements lx = l_elements l0 /\ l_lines lx = l_lines l0 /\
       forall r, In r (l_seq lx) <-> In r (l_seq l0)).
    { destruct (a =? x)%nat eqn:E.
      - apply Nat.eqb_eq in E. subst x. rewrite Ha in Hx. injection Hx as <-. exists l. cbn. repeat split; auto.
        + intros X. apply in_app_iff in X. destruct X as [X|[X|[]]]; [exact X|congruence].
        + intros X. apply in_app_iff. left; exact X.
      - exists lx. repeat split; auto. }
    destruct G as (l0 & H0 & T & E & L & S). destruct (W x l0 H0) as (W1 & W2 & W3 & W4 & W5 & W6).
    unfold wf_line. rewrite T, E, L. repeat split.
    + intros e He. apply W1. apply S. exact He.
    + apply S in H. apply W2 in H. tauto.
    + apply S in H. destruct (W2 _ H) as (_ & lb & A & B). destruct (M _ _ A) as (lb' & C & D' & _). exists lb'. split; [exact C|congruence].
    + exact W3.
    + intros n b0 X. apply S. eapply W4; exact X.
    + destruct W5 as (lt & A & B). destruct (M _ _ A) as (lt' & C & D' & _). exists lt'. split; [exact C|congruence].
    + destruct W6 as [W6|(p & lp & A & B)]; [left; exact W6|right]. destruct (M _ _ A) as (lp' & C & _ & D').
      exists p, lp'. split; [exact C|apply D'; exact B].
  - rewrite (add_beamline_new h a l name Ha D). cbn [fst]. destruct W as [W K]. split; [|exact K].
    set (n := List.length (lines h)). set (nl := {| l_name := name; l_elements := []; l_lines := []; l_seq := []; l_top := l_top l |}).
    set (ls' := upd (lines h) a _ ++ [nl]).
    assert (La : (a < n)%nat) by (apply nth_error_Some; congruence).
    assert (New : nth_error ls' n = Some nl).
    { unfold ls', n. rewrite nth_error_app2; rewrite upd_length; [rewrite Nat.sub_diag; reflexivity|lia]. }
    assert (M : forall x lx, nth_error (lines h) x = Some lx -> exists lx', nth_error ls' x = Some lx' /\
       l_top lx' = l_top lx /\ l_elements lx' = l_elements lx /\
       ((l_seq lx' = l_seq lx /\ l_lines lx' = l_lines lx /\ x <> a) \/
        (x = a /\ l_seq lx' = l_seq l ++ [RL n] /\ l_lines lx' = dset name_dec (l_lines l) name n))).
    { intros y ly Hy. assert (y < n)%nat by (apply nth_error_Some; congruence).
      unfold ls'. rewrite nth_error_app1 by (rewrite upd_length; exact H). rewrite upd_nth, Hy. destruct (a =? y)%nat eqn:E; cbn.
      - apply Nat.eqb_eq in E. subst y. rewrite Ha in Hy. injection Hy as <-. eexists; split; [reflexivity|]. cbn. tauto.
      - apply Nat.eqb_neq in E. eexists; split; [reflexivity|]. split; [reflexivity|]. split; [reflexivity|]. left. repeat split; auto. }
    intros x lx' Hx'. cbn [lines] in Hx'. fold ls' in Hx'.
    destruct (Nat.eq_dec x n) as [->|Nx].
    { rewrite New in Hx'. injection Hx' as <-. unfold nl, wf_line. cbn. repeat split; try (intros; contradiction); try (intros; discriminate).
      - destruct (W a l Ha) as (_ & _ & _ & _ & (lt & A & B) & _). destruct (M _ _ A) as (lt' & C & E & _). exists lt'. split; [exact C|congruence].
      - right. destruct (M _ _ Ha) as (la & A & _ & _ & [(_ & _ & B)|(_ & B & _)]); [congruence|]. exists a, la. split; [exact A|]. rewrite B. apply in_app_iff. right; left; reflexivity. }
    assert (Hx : exists lx, nth_error (lines h) x = Some lx).
    { assert (x < List.length ls')%nat by (apply nth_error_Some; congruence). unfold ls' in H. rewrite app_length, upd_length in H. cbn in H.
      destruct (nth_error (lines h) x) eqn:E; [eexists; reflexivity|]. apply nth_error_None in E. unfold n in Nx. lia. }
    destruct Hx as [lx Hx]. destruct (M _ _ Hx) as (lx2 & A & T & E & C). rewrite A in Hx'. injection Hx' as ->.
    destruct (W x lx Hx) as (W1 & W2 & W3 & W4 & W5 & W6).
    unfold wf_line. cbn [lines elems]. fold ls'. rewrite T, E. repeat split.
    + intros e He. destruct C as [(S & _)|(-> & S & _)].
      * rewrite S in He. apply W1; exact He.
      * rewrite S in He. apply in_app_iff in He. destruct He as [He|[He|[]]]; [|discriminate].
        rewrite Ha in Hx; injection Hx as <-. apply W1; exact He.
    + destruct C as [(S & _)|(-> & S & _)].
      * rewrite S in H. apply W2 in H. tauto.
      * rewrite S in H. apply in_app_iff in H. rewrite Ha in Hx; injection Hx as <-. destruct H as [H|[H|[]]]; [apply W2 in H; tauto|]. injection H as <-. exact La.
    + assert (O : In (RL b) (l_seq lx) \/ (b = n /\ lx = l)).
      { destruct C as [(S & _)|(-> & S & _)].
        - rewrite S in H. left; exact H.
        - rewrite S in H. apply in_app_iff in H. rewrite Ha in Hx; injection Hx as <-. destruct H as [H|[H|[]]]; [left; exact H|right]. injection H as <-. split; reflexivity. }
      destruct O as [O|[-> ->]].
      * destruct (W2 _ O) as (_ & lb & P & Q). destruct (M _ _ P) as (lb' & P' & Q' & _). exists lb'. split; [exact P'|congruence].
      * exists nl. split; [exact New|reflexivity].
    + exact W3.
    + intros nm b X. destruct C as [(S & L & _)|(-> & S & L)].
      * rewrite L in X. rewrite S. eapply W4; exact X.
      * rewrite Ha in Hx; injection Hx as <-. rewrite S, in_app_iff. rewrite L in X.
        destruct (name_dec nm name) as [->|N]; [rewrite dget_dset_same in X; injection X as <-; right; left; reflexivity|].
        rewrite dget_dset_other in X by exact N. left. eapply W4; exact X.
    + destruct W5 as (lt & P & Q). destruct (M _ _ P) as (lt' & P' & Q' & _). exists lt'. split; [exact P'|congruence].
    + destruct W6 as [W6|(p & lp & P & Q)]; [left; exact W6|right].
      destruct (M _ _ P) as (lp' & P' & _ & _ & C'). exists p, lp'. split; [exact P'|].
      destruct C' as [(S & _)|(-> & S & _)]; rewrite S; [exact Q|]. rewrite Ha in P; injection P as <-. apply in_app_iff. left; exact Q.
Qed.

Lemma wf_set_params : forall h e pv, wf h -> wf (upd_elem h e (set_params pv)).
Proof.
  intros h e pv [W K]. 
  assert (M : forall x el, nth_error (elems h) x = Some el -> exists el', nth_error (elems (upd_elem h e (set_params pv))) x = Some el' /\
     e_line el' = e_line el /\ e_name el' = e_name el /\ keys_ok (e_params el')).
  { intros x el Hx. pose proof (K _ _ Hx). unfold upd_elem. cbn [elems]. rewrite upd_nth, Hx. destruct (e =? x)%nat; cbn; eexists; split; try reflexivity; cbn; auto.
    repeat split; auto. apply assigns_ok. assumption. apply assigns_ok. assumption. }
  split.
  - intros a l Ha. destruct (W a l Ha) as (W1 & W2 & W3 & W4 & W5 & W6). unfold wf_line. repeat split; auto.
    + intros e0 I. destruct (W1 _ I) as (el & A & B). destruct (M _ _ A) as (el' & C & D & _). exists el'. split; [exact C|congruence].
    + apply W2 in H. tauto.
    + destruct (W2 _ H) as (_ & X). exact X.
    + intros n e0 D. destruct (W3 _ _ D) as (el & A & B & C). destruct (M _ _ A) as (el' & P & Q & Q' & _). exists el'. repeat split; congruence.
  - intros x el' Hx'. assert (exists el, nth_error (elems h) x = Some el) as [el Hx].
    { destruct (nth_error (elems h) x) eqn:E; [eexists; reflexivity|]. unfold upd_elem in Hx'. cbn [elems] in Hx'. rewrite upd_nth, E in Hx'. destruct (e =? x)%nat; discriminate. }
    destruct (M _ _ Hx) as (el2 & A & _ & _ & B). rewrite A in Hx'. injection Hx' as <-. exact B.
Qed.

Lemma wf_edit : forall l h pv, wf h -> wf (fst (edit_positions h pv l)).
Proof.
  induction l as [|[e|b] l IH]; intros h pv W; cbn [edit_positions].
  - exact W.
  - apply IH. apply wf_set_params. exact W.
  - destruct pv; [apply IH; exact W|exact W].
Qed.

Lemma wf_new_line : forall h name, wf h -> wf (fst (new_line h name)).
Proof.
  intros h name [W K]. unfold new_line. cbn [fst]. split; [|exact K].
  set (n := List.length (lines h)). cbn [lines]. intros a l Ha.
  destruct (Nat.lt_ge_cases a n) as [Lt|Ge].
  - rewrite nth_error_app1 in Ha by exact Lt.
    assert (M : forall x lx, nth_error (lines h) x = Some lx -> nth_error (lines h ++ [{| l_name := name; l_elements := []; l_lines := []; l_seq := []; l_top := n |}]) x = Some lx).
    { intros x lx Hx. rewrite nth_error_app1; [exact Hx|]. apply nth_error_Some. congruence. }
    destruct (W a l Ha) as (W1 & W2 & W3 & W4 & W5 & W6). unfold wf_line. cbn [lines elems]. repeat split; auto.
    + apply W2 in H; tauto.
    + destruct (W2 _ H) as (_ & lb & A & B). exists lb. split; [apply M; exact A|exact B].
    + destruct W5 as (lt & A & B). exists lt. split; [apply M; exact A|exact B].
    + destruct W6 as [W6|(p & lp & A & B)]; [left; exact W6|right]. exists p, lp. split; [apply M; exact A|exact B].
  - assert (a = n). { assert (a < List.length (lines h ++ [{| l_name := name; l_elements := []; l_lines := []; l_seq := []; l_top := n |}]))%nat by (apply nth_error_Some; congruence).
      rewrite app_length in H. cbn in H. fold n in H. lia. }
    subst a. rewrite nth_error_app2 in Ha by (fold n; lia). fold n in Ha. rewrite Nat.sub_diag in Ha. injection Ha as <-.
    unfold wf_line. cbn. repeat split; try (intros; contradiction); try (intros; discriminate).
    + eexists. split; [rewrite nth_error_app2 by (fold n; lia); fold n; rewrite Nat.sub_diag; reflexivity|reflexivity].
    + left; reflexivity.
Qed.

Lemma node_ind2 : forall P : node -> Prop, (forall d, P (NElem d)) -> (forall l, Forall P l -> P (NList l)) -> forall n, P n.
Proof.
  intros P H1 H2. fix IH 1. intros [d|l]; [apply H1|]. apply H2.
  induction l as [|n l IHl]; constructor; [apply IH|exact IHl].
Qed.

Lemma create_list_eq : forall ns h self b,
  (fix go (h : heap) (ns : list node) : run unit :=
     match ns with
     | [] => (h, Ok tt)
     | n :: r => match create_node h self b n with (h, Ok _) => go h r | (h, e) => (h, e) end
     end) h ns = create_nodes h self b ns.
Proof.
  induction ns as [|n ns IH]; intros h self b; cbn; [reflexivity|].
  destruct (create_node h self b n) as [h' [u|e|]]; auto.
Qed.

Lemma wf_create : forall n h self b, wf h -> wf (fst (create_node h self b n)).
Proof.
  induction n as [d|l IH] using node_ind2; intros h self b W; cbn [create_node].
  - destruct (text_of (dget string_dec d "name"%string) KeyError); [|exact W|exact W].
    destruct (text_of (dget string_dec d "type"%string) KeyError); [|exact W|exact W].
    apply wf_add_element. exact W.
  - pose proof (wf_add_beamline h self None W) as W1.
    destruct (add_beamline h self None) as [h1 [u|e|]]; [|exact W1|exact W1]. cbn [fst] in W1.
    destruct (nth_error (lines h1) self) as [ls|]; [|exact W1].
    destruct (last_ref ls) as [[e|b']|]; [exact W1| |exact W1].
    rewrite create_list_eq. clear - IH W1. revert h1 W1. induction IH as [|n ns Hn Hns IH2]; intros h1 W1; cbn [create_nodes]; [exact W1|].
    pose proof (Hn h1 self b' W1) as W2. destruct (create_node h1 self b' n) as [h2 [u|e|]]; cbn [fst] in *; [apply IH2; exact W2|exact W2|exact W2].
Qed.
Lemma wf_creates : forall ns h self b, wf h -> wf (fst (create_nodes h self b ns)).
Proof.
  induction ns as [|n ns IH]; intros h self b W; cbn [create_nodes]; [exact W|].
  pose proof (wf_create n h self b W) as W2. destruct (create_node h self b n) as [h2 [u|e|]]; cbn [fst] in *; [apply IH; exact W2|exact W2|exact W2].
Qed.

Lemma wf_step : forall h o, wf h -> wf (fst (step h o)).
Proof.
  intros h o W. destruct o; cbn [step].
  - apply wf_new_line; exact W.
  - apply wf_add_element; exact W.
  - apply wf_add_beamline; exact W.
  - unfold edit_by_name. destruct (nth_error (lines h) a); [apply wf_edit; exact W|exact W].
  - unfold edit_by_index. destruct (nth_error (lines h) a); [|exact W].
    destruct (zip ps vs) as [|x y]; [exact W|]. destruct (py_index (l_seq l) i); [apply wf_edit; exact W|exact W].
  - unfold load_beamline. destruct (nth_error (lines h) a); [|exact W]. destruct (l_seq l); [apply wf_creates; exact W|exact W].
Qed.

Lemma wf_history : forall ops, wf (history ops).
Proof.
  intros ops. unfold history. generalize wf_empty. generalize empty_heap.
  induction ops as [|o ops IH]; intros h W; cbn; [exact W|]. apply IH. apply wf_step. exact W.
Qed.

(* ---------------- flattening ---------------- *)
Lemma flatten_nil : forall f h, flatten (S f) h [] = Ok [].
Proof. reflexivity. Qed.
Lemma flatten_RE : forall f h e r, flatten (S f) h (RE e :: r) = do l <- flatten (S f) h r; Ok (e :: l).
Proof. reflexivity. Qed.
Lemma flatten_RL : forall f h b r, flatten (S f) h (RL b :: r) =
  match nth_error (lines h) b with
  | None => Err NameError
  | Some l => do l1 <- flatten f h (l_seq l); do l2 <- flatten (S f) h r; Ok (l1 ++ l2)
  end.
Proof. reflexivity. Qed.

(** References of a sequence point below [m] lines from the end. *)
Definition deep (h : heap) (m : nat) (s : list ref) : Prop :=
  forall b, In (RL b) s -> (List.length (lines h) < b + m + 1)%nat /\ exists lb, nth_error (lines h) b = Some lb.

Lemma flatten_ok : forall fuel h s m, wf h -> (m < fuel)%nat -> deep h m s -> exists l, flatten fuel h s = Ok l /\ expands h s l.
Proof.
  induction fuel as [|fuel IH]; intros h s m W Hm D; [lia|].
  induction s as [|[e|b] r IHr].
  - exists []. split; [reflexivity|constructor].
  - destruct IHr as (l & E & X); [intros b I; apply D; right; exact I|].
    exists (e :: l). rewrite flatten_RE, E. split; [reflexivity|constructor; exact X].
  - destruct IHr as (l2 & E2 & X2); [intros b' I; apply D; right; exact I|].
    destruct (D b (or_introl eq_refl)) as (Lb & lb & Hb).
    rewrite flatten_RL, Hb, E2.
    destruct m as [|m].
    { assert (b < List.length (lines h))%nat by (apply nth_error_Some; congruence). lia. }
    destruct (IH h (l_seq lb) m W ltac:(lia)) as (l1 & E1 & X1).
    + intros b' I. destruct W as [W K]. destruct (W b lb Hb) as (_ & W2 & _). destruct (W2 _ I) as (Lt & lb' & Hb' & _).
      split; [lia|exists lb'; exact Hb'].
    + rewrite E1. exists (l1 ++ l2). split; [reflexivity|]. eapply x_line; [|exact X1|exact X2].
      unfold sequence. rewrite Hb. reflexivity.
Qed.

Lemma gbe_ok : forall h a l, wf h -> nth_error (lines h) a = Some l ->
  exists es, get_beamline_elements h a = Ok es /\ expands h (l_seq l) es.
Proof.
  intros h a l W Ha. unfold get_beamline_elements. rewrite Ha.
  apply (flatten_ok _ h (l_seq l) (List.length (lines h)) W); [lia|].
  intros b I. destruct W as [W K]. destruct (W a l Ha) as (_ & W2 & _). destruct (W2 _ I) as (Lt & lb & Hb & _). split; [lia|exists lb; exact Hb].
Qed.

Lemma expands_fun : forall h s l, expands h s l -> forall l', expands h s l' -> l = l'.
Proof.
  intros h s l H. induction H; intros l' H'; inversion H'; subst; auto.
  - f_equal. auto.
  - f_equal; [|auto]. apply IHexpands1. congruence.
Qed.

Lemma expands_app : forall h s t l m, expands h s l -> expands h t m -> expands h (s ++ t) (l ++ m).
Proof.
  intros h s t l m H. induction H; intros T; cbn; auto.
  - constructor; auto.
  - rewrite <- app_assoc. econstructor; eauto.
Qed.

(** Elements of a line are in the expansion of every line containing it, hence of the top. *)
Lemma expands_in : forall h s l, expands h s l -> forall e, In (RE e) s -> In e l.
Proof.
  intros h s l H. induction H; intros e0 I; [destruct I| |].
  - destruct I as [I|I]; [injection I as ->; left; reflexivity|right; auto].
  - destruct I as [I|I]; [discriminate|]. apply in_app_iff; right; auto.
Qed.
Lemma expands_sub : forall h s l, expands h s l -> forall b t m, In (RL b) s -> sequence h b = Some t -> expands h t m -> incl m l.
Proof.
  intros h s l H. induction H; intros b0 t m I Hs X; [destruct I| |].
  - destruct I as [I|I]; [discriminate|]. apply incl_tl. eapply IHexpands; eauto.
  - destruct I as [I|I].
    + injection I as ->. rewrite H in Hs. injection Hs as ->. rewrite (expands_fun _ _ _ X _ H0). apply incl_appl, incl_refl.
    + apply incl_appr. eapply IHexpands2; eauto.
Qed.

Lemma in_top : forall n h a l es, (a <= n)%nat -> wf h -> nth_error (lines h) a = Some l -> expands h (l_seq l) es ->
  exists lt ts, nth_error (lines h) (l_top l) = Some lt /\ expands h (l_seq lt) ts /\ incl es ts.
Proof.
  induction n as [|n IH]; intros h a l es Ln W Ha X; destruct W as [W K]; destruct (W a l Ha) as (_ & _ & _ & _ & _ & W6).
  - destruct W6 as [->|(p & lp & Hp & I)]; [exists l, es; repeat split; auto; apply incl_refl|].
    destruct (W p lp Hp) as (_ & W2 & _). destruct (W2 _ I) as (Lt & _). lia.
  - destruct W6 as [->|(p & lp & Hp & I)]; [exists l, es; repeat split; auto; apply incl_refl|].
    destruct (W p lp Hp) as (_ & W2 & _). destruct (W2 _ I) as (Lt & lb & Hb & Tb). rewrite Ha in Hb. injection Hb as <-.
    destruct (gbe_ok h p lp (conj W K) Hp) as (ps & _ & Xp).
    destruct (IH h p lp ps ltac:(lia) (conj W K) Hp Xp) as (lt & ts & A & B & C).
    exists lt, ts. rewrite Tb. repeat split; auto. eapply incl_tran; [|exact C].
    eapply (expands_sub _ _ _ Xp); [exact I| |exact X]. unfold sequence. rewrite Ha. reflexivity.
Qed.

(* ---------------- lengths ---------------- *)
Lemma length_num : forall h e v acc, (forall el, nth_error (elems h) e = Some el -> keys_ok (e_params el)) ->
  length_is h e v -> add_length h acc e = Ok (acc + v).
Proof.
  intros h e v acc K (el & He & C). unfold add_length, element_at in *. rewrite He. pose proof (K _ He) as Ko.
  destruct C as [(k & S & I)|[N ->]].
  - assert (agn_get (e_params el) "L" = Some (VNum v)).
    { apply agn_get_in; [exact Ko|]. exists k. split; [|exact I]. apply same_name_lower. apply same_name_lower in S. congruence. }
    rewrite H. reflexivity.
  - assert (agn_get (e_params el) "L" = None).
    { apply agn_get_none; [exact Ko|]. intros k' v' I S. apply (N _ _ I). apply same_name_lower. apply same_name_lower in S. congruence. }
    rewrite H. f_equal. ring.
Qed.

Lemma total_app : forall a b, total (a ++ b) = total a + total b.
Proof. unfold total. induction a as [|x a IH]; intros b; cbn [fold_right app]; [ring|]. rewrite IH. ring. Qed.

Lemma sum_lengths_ok : forall h, wf h -> forall l vs acc, Forall2 (length_is h) l vs -> sum_lengths h acc l = Ok (acc + total vs).
Proof.
  intros h [W K] l vs acc H. revert acc. induction H as [|e v l vs Hv Hl IH]; intros acc; cbn [sum_lengths edge_loop].
  - f_equal. unfold total. cbn. ring.
  - rewrite (length_num h e v acc (K e) Hv). cbn [rbind]. rewrite IH. f_equal. unfold total. cbn [fold_right]. ring.
Qed.

Lemma edge_loop_found : forall h, wf h -> forall before e after vs acc, ~ In e before -> Forall2 (length_is h) before vs ->
  edge_loop h e acc (before ++ e :: after) = Ok (acc + total vs).
Proof.
  intros h [W K] before e after vs acc N H. revert acc N. induction H as [|x v l vs Hv Hl IH]; intros acc N; cbn [edge_loop app].
  - rewrite Nat.eqb_refl. f_equal. unfold total. cbn. ring.
  - destruct (x =? e)%nat eqn:E; [apply Nat.eqb_eq in E; subst; exfalso; apply N; left; reflexivity|].
    rewrite (length_num h x v acc (K x) Hv). cbn [rbind]. rewrite IH by (intros I; apply N; right; exact I). f_equal. unfold total. cbn [fold_right]. ring.
Qed.
Lemma edge_loop_absent : forall h, wf h -> forall l e vs acc, ~ In e l -> Forall2 (length_is h) l vs ->
  edge_loop h e acc l = Ok (acc + total vs).
Proof.
  intros h [W K] l e vs acc N H. revert acc N. induction H as [|x v l vs Hv Hl IH]; intros acc N; cbn [sum_lengths edge_loop].
  - f_equal. unfold total. cbn. ring.
  - destruct (x =? e)%nat eqn:E; [apply Nat.eqb_eq in E; subst; exfalso; apply N; left; reflexivity|].
    rewrite (length_num h x v acc (K x) Hv). cbn [rbind]. rewrite IH by (intros I; apply N; right; exact I). f_equal. unfold total. cbn [fold_right]. ring.
Qed.

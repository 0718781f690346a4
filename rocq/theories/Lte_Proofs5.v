(** Lemmas about line definitions: the beamline that is filled. *)
From Coq Require Import List Reals Bool Arith String Ascii ZArith Lia.
From Verif Require Import PyBase PyDict PyText Line_Model Lte_Model Lte_Spec Line_Proofs Lte_Proofs Lte_Proofs2 Lte_Proofs3 Lte_Proofs4.
From Verif Require Line_Proofs2.
Import ListNotations.

Lemma str_inj : forall a b, str a = str b -> a = b.
Proof. intros a b H. unfold str in H. apply (f_equal list_ascii_of_string) in H. rewrite !list_ascii_of_string_of_list_ascii in H. exact H. Qed.

(* ------------------------------------------------------------------ *)
Definition rls (s : list ref) : list nat := flat_map (fun r => match r with RL b => [b] | RE _ => [] end) s.
Definition res_ (s : list ref) : list nat := flat_map (fun r => match r with RE b => [b] | RL _ => [] end) s.
Definition inner (subs : list line) (b : nat) : list nat := match nth_error subs (b - 1) with Some l => res_ (l_seq l) | None => [] end.
Definition flat (s : list ref) (subs : list line) : list nat := flat_map (fun r => match r with RE a => [a] | RL b => inner subs b end) s.

Definition good0 (es : list entry) (h : heap) (out used : list text) (flag : bool) : Prop :=
  exists l0 subs, lines h = l0 :: subs /\
    (forall l, In l subs -> rls (l_seq l) = []) /\
    rls (l_seq l0) = List.seq 1 (List.length subs) /\
    (forall n, ~ In n used -> dget name_dec (l_lines l0) (Some (str n)) = None) /\
    (forall nm a, dget string_dec (l_elements l0) nm = Some a -> exists el n, nm = str n /\ nth_error (elems h) a = Some el /\ is_element es n el) /\
    Forall2 (fun a n => dget string_dec (l_elements l0) (str n) = Some a) (flat (l_seq l0) subs) out /\
    (flag = true -> exists pre, l_seq l0 = pre ++ [RL (List.length subs)]).

Lemma good0_false : forall es h out used f, good0 es h out used f -> good0 es h out used false.
Proof. intros es h out used f (l0 & subs & A & B & C & D & E & F & G). exists l0, subs. repeat (split; [assumption|]). discriminate. Qed.

Lemma rls_app : forall a b, rls (a ++ b) = rls a ++ rls b.
Proof. intros. unfold rls. apply flat_map_app. Qed.
Lemma res_app : forall a b, res_ (a ++ b) = res_ a ++ res_ b.
Proof. intros. unfold res_. apply flat_map_app. Qed.
Lemma flat_seq_app : forall a b s, flat (a ++ b) s = flat a s ++ flat b s.
Proof. intros. unfold flat. apply flat_map_app. Qed.
Lemma flat_ext : forall s subs subs', (forall b, In b (rls s) -> inner subs b = inner subs' b) -> flat s subs = flat s subs'.
Proof.
  induction s as [|[a|b] s IH]; intros subs subs' H; [reflexivity| |].
  - cbn. f_equal. apply IH. exact H.
  - cbn. rewrite (H b) by (left; reflexivity). f_equal. apply IH. intros c I. apply H. right; exact I.
Qed.

Lemma is_element_line : forall es n el b, is_element es n el -> is_element es n (with_e_line el b).
Proof. intros es n el b (d & A & B & C & D & E). exists d. repeat split; assumption. Qed.

Lemma nth_app_last : forall {A} (l : list A) x, nth_error (l ++ [x]) (List.length l) = Some x.
Proof. intros A l x. rewrite nth_error_app2 by lia. rewrite Nat.sub_diag. reflexivity. Qed.
Lemma seq_last : forall m, (1 <= m)%nat -> exists k, List.seq 1 m = k ++ [m] /\ ~ In m k.
Proof.
  intros [|m] L; [lia|]. exists (List.seq 1 m). split; [apply seq_S|]. intros I. apply in_seq in I. lia.
Qed.

Definition ready (es : list entry) (n : text) (ty : string) (ps : params) : Prop :=
  exists el, new_element (str n) ty ps = Ok el /\ is_element es n el.

(** The heap once the element is there and its owner is set. *)
Definition registered (es : list entry) (h h1 : heap) (l0 l1 : line) (subs : list line) (n : text) (a : nat) : Prop :=
  lines h1 = l1 :: subs /\ l_seq l1 = l_seq l0 /\ l_lines l1 = l_lines l0 /\ dget string_dec (l_elements l1) (str n) = Some a /\
  (forall nm b, dget string_dec (l_elements l0) nm = Some b -> dget string_dec (l_elements l1) nm = Some b) /\
  (forall nm b, dget string_dec (l_elements l1) nm = Some b -> exists el n, nm = str n /\ nth_error (elems h1) b = Some el /\ is_element es n el).

Lemma register_step : forall es h l0 subs n ty ps, lines h = l0 :: subs -> ready es n ty ps ->
  (forall nm a, dget string_dec (l_elements l0) nm = Some a -> exists el n, nm = str n /\ nth_error (elems h) a = Some el /\ is_element es n el) ->
  exists h1 l1 a, the_element h 0 l0 (str n) ty ps = (fst (the_element h 0 l0 (str n) ty ps), Ok a) /\
    h1 = upd_elem (fst (the_element h 0 l0 (str n) ty ps)) a (fun el => with_e_line el (l_top l0)) /\
    registered es h h1 l0 l1 subs n a.
Proof.
  intros es h l0 subs n ty ps L (el & NE & IE) D. unfold the_element.
  destruct (dget string_dec (l_elements l0) (str n)) as [a|] eqn:G.
  - exists (upd_elem h a (fun el => with_e_line el (l_top l0))), l0, a. cbn [fst]. split; [reflexivity|]. split; [reflexivity|].
    split; [exact L|]. split; [reflexivity|]. split; [reflexivity|]. split; [exact G|]. split; [auto|].
    intros nm b Gb. destruct (D nm b Gb) as (el2 & n2 & E1 & E2 & E3). cbn [upd_elem elems].
    destruct (Nat.eq_dec a b) as [<-|Nab].
    + exists (with_e_line el2 (l_top l0)), n2. split; [exact E1|]. split; [apply (upd_same _ _ (fun el => with_e_line el (l_top l0))); exact E2|apply is_element_line; exact E3].
    + exists el2, n2. split; [exact E1|]. split; [rewrite upd_other by exact Nab; exact E2|exact E3].
  - rewrite NE. cbn [fst].
    set (a := List.length (elems h)).
    exists (upd_elem (upd_line {| elems := elems h ++ [el]; lines := lines h |} 0 (register_element (str n) a)) a (fun el => with_e_line el (l_top l0))), (register_element (str n) a l0), a.
    split; [reflexivity|]. split; [reflexivity|].
    split; [cbn [upd_elem upd_line lines]; rewrite L; reflexivity|]. split; [reflexivity|]. split; [reflexivity|].
    cbn [register_element l_elements].
    split; [apply dget_dset_same|]. split.
    + intros nm b Gb. rewrite dget_dset_other; [exact Gb|]. intros ->. congruence.
    + intros nm b Gb. cbn [upd_elem upd_line elems].
      destruct (string_dec nm (str n)) as [->|Nn].
      * rewrite dget_dset_same in Gb. injection Gb as <-. exists (with_e_line el (l_top l0)), n. split; [reflexivity|].
        split; [|apply is_element_line; exact IE]. apply (upd_same _ _ (fun el => with_e_line el (l_top l0))). apply nth_app_last.
      * rewrite dget_dset_other in Gb by (intros ->; apply Nn; reflexivity). destruct (D nm b Gb) as (el2 & n2 & E1 & E2 & E3).
        exists el2, n2. split; [exact E1|]. split; [|exact E3].
        assert (Lb : (b < List.length (elems h))%nat) by (apply nth_error_Some; congruence).
        rewrite upd_other by (unfold a; lia). rewrite nth_error_app1 by exact Lb. exact E2.
Qed.

Lemma good0_element : forall es h out used flag n ty ps, good0 es h out used flag -> ready es n ty ps ->
  exists h', add_element h 0 (str n) ty ps flag = (h', Ok tt) /\ good0 es h' (out ++ [n]) used flag.
Proof.
  intros es h out used flag n ty ps (l0 & subs & L & A & B & C & D & E & F) R.
  destruct (register_step es h l0 subs n ty ps L R D) as (h1 & l1 & a & TE & Hh & RG).
  unfold add_element. rewrite L. cbn [nth_error]. rewrite TE. cbv zeta. rewrite <- Hh. clear TE Hh R.
  destruct RG as (L1 & S1 & N1 & Ga & Gm & Gi).
  assert (E' : Forall2 (fun b m => dget string_dec (l_elements l1) (str m) = Some b) (flat (l_seq l0) subs) out).
  { apply (forall2_weaken (fun b m => dget string_dec (l_elements l0) (str m) = Some b)); [|exact E]. intros b m. apply Gm. }
  destruct flag.
  - destruct (F eq_refl) as (pre & P). unfold last_ref. rewrite P, rev_app_distr. cbn [rev app].
    eexists. split; [reflexivity|].
    set (m := List.length subs) in *.
    assert (Rl : rls pre ++ [m] = List.seq 1 m) by (rewrite <- B, P, rls_app; reflexivity).
    assert (Lm : (1 <= m)%nat). { destruct m; [|lia]. cbn in Rl. destruct (rls pre); discriminate. }
    destruct (seq_last m Lm) as (k & Ek & Nk). rewrite Ek in Rl. apply app_inj_tail in Rl. destruct Rl as [Rl _].
    exists l1, (upd subs (m - 1) (append_ref (RE a))).
    assert (Q : exists l, nth_error subs (m - 1) = Some l).
    { destruct (nth_error subs (m - 1)) eqn:X; [eauto|]. apply nth_error_None in X. fold m in X. lia. }
    destruct Q as (lm & Q).
    split; [|split; [|split; [|split; [|split; [|split]]]]].
    + cbn [upd_line lines]. rewrite L1. destruct m as [|m']; [lia|]. cbn [upd]. rewrite Nat.sub_succ, Nat.sub_0_r. reflexivity.
    + intros l I. apply In_nth_error in I. destruct I as (i & I). destruct (Nat.eq_dec (m - 1) i) as [Hi|Hi]; [|rewrite upd_other in I by exact Hi].
      * rewrite <- Hi in I. rewrite (upd_same _ _ _ lm Q) in I. injection I as <-. cbn [append_ref l_seq]. rewrite rls_app, (A lm) by (eapply nth_error_In; exact Q). reflexivity.
      * apply A. eapply nth_error_In. exact I.
    + rewrite upd_length. fold m. rewrite S1. exact B.
    + rewrite N1. exact C.
    + exact Gi.
    + rewrite S1, P. rewrite flat_seq_app. cbn [flat flat_map]. rewrite app_nil_r.
      rewrite (flat_ext pre _ subs).
      2:{ intros b I. rewrite Rl in I. unfold inner. rewrite upd_other; [reflexivity|].
          assert (Ib : In b (List.seq 1 m)) by (rewrite Ek; apply in_app_iff; left; exact I). apply in_seq in Ib.
          intros Ne. apply Nk. replace m with b by lia. exact I. }
      assert (Ei : inner (upd subs (m - 1) (append_ref (RE a))) m = inner subs m ++ [a]).
      { unfold inner. rewrite (upd_same _ _ _ lm Q), Q. cbn [append_ref l_seq]. rewrite res_app. reflexivity. }
      rewrite Ei. rewrite P, flat_seq_app in E'. cbn [flat flat_map] in E'. rewrite app_nil_r in E'. rewrite app_assoc.
      apply Forall2_app; [exact E'|]. constructor; [exact Ga|constructor].
    + intros _. exists pre. rewrite upd_length. fold m. rewrite S1. exact P.
  - eexists. split; [reflexivity|]. exists (append_ref (RE a) l1), subs.
    split; [|split; [|split; [|split; [|split; [|split]]]]].
    + cbn [upd_line lines]. rewrite L1. reflexivity.
    + exact A.
    + cbn [append_ref l_seq]. rewrite S1, rls_app, B. cbn. apply app_nil_r.
    + cbn [append_ref l_lines]. rewrite N1. exact C.
    + exact Gi.
    + cbn [append_ref l_seq l_elements]. rewrite S1, flat_seq_app. apply Forall2_app; [exact E'|]. constructor; [exact Ga|constructor].
    + discriminate.
Qed.

Lemma good0_line : forall es h out used flag n, good0 es h out used flag -> ~ In n used ->
  exists h', add_beamline h 0 (Some (str n)) = (h', Ok tt) /\ good0 es h' out (used ++ [n]) true.
Proof.
  intros es h out used flag n (l0 & subs & L & A & B & C & D & E & F) N.
  assert (H0 : nth_error (lines h) 0 = Some l0) by (rewrite L; reflexivity).
  rewrite (add_beamline_new h 0 l0 (Some (str n)) H0 (C n N)).
  eexists. split; [reflexivity|]. rewrite L. cbn [upd app List.length].
  exists (append_ref (RL (S (List.length subs))) (register_line (Some (str n)) (S (List.length subs)) l0)).
  exists (subs ++ [{| l_name := Some (str n); l_elements := []; l_lines := []; l_seq := []; l_top := l_top l0 |}]).
  split; [reflexivity|]. rewrite app_length. cbn [List.length]. rewrite Nat.add_1_r.
  split; [|split; [|split; [|split; [|split]]]].
  - intros l I. apply in_app_iff in I. destruct I as [I|[<-|[]]]; [apply A; exact I|reflexivity].
  - cbn [append_ref register_line l_seq]. rewrite rls_app, B. rewrite seq_S. reflexivity.
  - intros m M. cbn [append_ref register_line l_lines]. rewrite dget_dset_other.
    + apply C. intros I. apply M. apply in_app_iff. left; exact I.
    + intros Q. injection Q as Q. apply str_inj in Q. apply M. apply in_app_iff. right. left. congruence.
  - exact D.
  - cbn [append_ref register_line l_seq l_elements]. rewrite flat_seq_app. cbn [flat flat_map]. rewrite app_nil_r.
    assert (Z : inner (subs ++ [{| l_name := Some (str n); l_elements := []; l_lines := []; l_seq := []; l_top := l_top l0 |}]) (S (List.length subs)) = []).
    { unfold inner. rewrite Nat.sub_succ, Nat.sub_0_r, nth_app_last. reflexivity. }
    rewrite Z, app_nil_r. rewrite (flat_ext _ _ subs); [exact E|].
    intros b I. rewrite B in I. apply in_seq in I. unfold inner. rewrite nth_error_app1 by lia. reflexivity.
  - intros _. exists (l_seq l0). reflexivity.
Qed.

Lemma flatten_plain : forall h f s, rls s = [] -> flatten (S f) h s = Ok (res_ s).
Proof.
  intros h f. induction s as [|[a|b] s IH]; intros H; [reflexivity| |discriminate].
  rewrite flatten_RE, IH by exact H. reflexivity.
Qed.
Lemma flatten_good : forall h l0 subs f s, lines h = l0 :: subs -> (forall l, In l subs -> rls (l_seq l) = []) ->
  (forall b, In b (rls s) -> (1 <= b /\ b <= List.length subs)%nat) -> flatten (S (S f)) h s = Ok (flat s subs).
Proof.
  intros h l0 subs f s L A. induction s as [|[a|b] s IH]; intros H; [reflexivity| |].
  - rewrite flatten_RE, IH by exact H. reflexivity.
  - rewrite flatten_RL. destruct (H b) as [H1 H2]; [left; reflexivity|].
    destruct (nth_error subs (b - 1)) as [l|] eqn:Q; [|apply nth_error_None in Q; lia].
    rewrite L. destruct b as [|b]; [lia|]. cbn [nth_error]. rewrite Nat.sub_succ, Nat.sub_0_r in Q. rewrite Q.
    rewrite flatten_plain by (apply A; eapply nth_error_In; exact Q). rewrite IH by (intros c I; apply H; right; exact I).
    cbn [rbind flat flat_map]. unfold inner. rewrite Nat.sub_succ, Nat.sub_0_r, Q. reflexivity.
Qed.
Lemma good0_flat : forall es h out used flag, good0 es h out used flag ->
  exists as_, get_beamline_elements h 0 = Ok as_ /\ Forall2 (fun a n => exists el, nth_error (elems h) a = Some el /\ is_element es n el) as_ out.
Proof.
  intros es h out used flag (l0 & subs & L & A & B & C & D & E & F). unfold get_beamline_elements. rewrite L. cbn [nth_error List.length].
  exists (flat (l_seq l0) subs). split.
  - apply (flatten_good h l0); [exact L|exact A|]. intros b I. rewrite B in I. apply in_seq in I. lia.
  - apply (forall2_weaken (fun a n => dget string_dec (l_elements l0) (str n) = Some a)); [|exact E].
    intros a n G. destruct (D _ _ G) as (el & m & E1 & E2 & E3). apply str_inj in E1. subst m. eauto.
Qed.

(** with the invariant of beamlines, and one line for each use *)
Definition good (es : list entry) (h : heap) (out used : list text) (flag : bool) : Prop :=
  good0 es h out used flag /\ wf h /\ List.length (lines h) = S (List.length used) /\ Line_Proofs2.types_ok h.
Lemma upd_count : forall {A} (l : list A) i f, List.length (upd l i f) = List.length l.
Proof. induction l as [|x l IH]; intros [|i] f; cbn; auto. Qed.
Lemma good_false : forall es h out used f, good es h out used f -> good es h out used false.
Proof. intros es h out used f [G W]. split; [exact (good0_false _ _ _ _ _ G)|exact W]. Qed.
Lemma add_element_count : forall h a n ty ps s, List.length (lines (fst (add_element h a n ty ps s))) = List.length (lines h).
Proof.
  intros h a n ty ps s. unfold add_element, the_element. destruct (nth_error (lines h) a) as [l|]; [|reflexivity]. destruct (dget string_dec (l_elements l) n) as [e|].
  - destruct s; [destruct (last_ref l) as [[x|b]|]|]; cbn; rewrite ?upd_count; reflexivity.
  - destruct (new_element n ty ps) as [el|x|]; [|reflexivity..]. destruct s; [destruct (last_ref l) as [[x|b]|]|]; cbn; rewrite ?upd_count; reflexivity.
Qed.
Lemma good_element : forall es h out used flag n ty ps, good es h out used flag -> ready es n ty ps ->
  exists h', add_element h 0 (str n) ty ps flag = (h', Ok tt) /\ good es h' (out ++ [n]) used flag.
Proof.
  intros es h out used flag n ty ps (G & W & C & Ty) R. destruct (good0_element es h out used flag n ty ps G R) as (h' & E & G'). exists h'. split; [exact E|]. split; [exact G'|].
  pose proof (wf_add_element h 0 (str n) ty ps flag W) as W'. pose proof (add_element_count h 0 (str n) ty ps flag) as C'. pose proof (Line_Proofs2.types_add_element h 0 (str n) ty ps flag Ty) as Ty'. rewrite E in W', C', Ty'.
  split; [exact W'|]. cbn [fst] in C'. split; [now rewrite C'|exact Ty'].
Qed.
Lemma good_line : forall es h out used flag n, good es h out used flag -> ~ In n used ->
  exists h', add_beamline h 0 (Some (str n)) = (h', Ok tt) /\ good es h' out (used ++ [n]) true.
Proof.
  intros es h out used flag n (G & W & C & Ty) N. destruct (good0_line es h out used flag n G N) as (h' & E & G'). exists h'. split; [exact E|]. split; [exact G'|].
  pose proof (wf_add_beamline h 0 (Some (str n)) W) as W'. pose proof (Line_Proofs2.types_add_beamline h 0 (Some (str n)) Ty) as Ty'. rewrite E in W', Ty'. split; [exact W'|]. split; [|exact Ty']. clear Ty' W'. destruct G as (l0 & subs & A & _ & _ & D & _).
  unfold add_beamline in E. rewrite A in E. cbn [nth_error] in E. rewrite (D n N) in E. cbn in E. injection E as <-. cbn [lines upd_line]. rewrite ?upd_count, !app_length, ?upd_count.
  rewrite A in *. cbn in *. rewrite ?upd_count, ?app_length. cbn. lia.
Qed.
Lemma good_flat : forall es h out used flag, good es h out used flag ->
  exists as_, get_beamline_elements h 0 = Ok as_ /\ Forall2 (fun a n => exists el, nth_error (elems h) a = Some el /\ is_element es n el) as_ out.
Proof. intros es h out used flag [G _]. exact (good0_flat _ _ _ _ _ G). Qed.

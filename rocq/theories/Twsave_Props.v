(** * Claim C144: saving and loading an imported TraceWin deck. *)
From Coq Require Import List Reals Bool Arith String Ascii ZArith Lia Lra.
From Verif Require Import PyBase PyDict PyText Line_Model Line_Spec Line_Proofs Line_Proofs2 Lte_Spec Trace_Model Trace_Spec Trace_Proofs Trace_Proofs2 Trace_Proofs3.
From Verif Require Trace_Props Twmat_Props.
Import ListNotations.
Open Scope R_scope.

(* ------------------------------------------------------------------ *)
(** ** Specification *)
(** The beamline saved, and loaded into a new beamline *)
Definition saved_and_loaded (h : heap) (a : nat) (name : option string) (h' : heap) (b : nat) : Prop :=
  exists data, save_beamline h a = Ok data /\ b = snd (new_line h name) /\ load_beamline (fst (new_line h name)) b data = (h', Ok tt).

(* ------------------------------------------------------------------ *)
(** ** Proofs *)
Definition shown (h : heap) (e : nat) (m : made) : Prop :=
  exists el, element_at h e = Some el /\ e_name el = m_name m /\ e_type el = snd (fst m) /\ e_params el = assigns [] (kwargs (snd m)).
Lemma there : forall nm ms, Forall2 (at_ (heap_of nm ms)) (seq 0 (List.length ms)) (map element_of ms).
Proof.
  intros nm ms. assert (G : forall r pre, ms = pre ++ r -> Forall2 (at_ (heap_of nm ms)) (seq (List.length pre) (List.length r)) (map element_of r)).
  { induction r as [|m r IH]; intros pre E; [constructor|]. cbn [List.length seq map]. constructor.
    - unfold at_, element_at, heap_of. cbn [elems]. rewrite E, nth_error_map, nth_error_app2, Nat.sub_diag by lia. reflexivity.
    - specialize (IH (pre ++ [m])). rewrite app_length in IH. cbn [List.length] in IH. rewrite Nat.add_1_r in IH. apply IH. rewrite <- app_assoc. exact E. }
  apply (G ms []). reflexivity.
Qed.
Lemma looks_flat : forall h A els t, Forall2 (at_ h) A els -> looks h (map RE A) t -> t = map (fun el => TE (e_name el) (e_type el) (e_params el)) els.
Proof.
  intros h A els t F. revert t. induction F as [|a el A els H F IH]; intros t L; inversion L; subst; [reflexivity|]. cbn [map]. unfold at_ in H.
  match goal with X : element_at h a = Some ?y |- _ => rewrite H in X; injection X as <- end. f_equal. apply IH. assumption.
Qed.
Lemma looks_made : forall h ms s, looks h s (map (fun el => TE (e_name el) (e_type el) (e_params el)) (map element_of ms)) -> exists es, s = map RE es /\ Forall2 (shown h) es ms.
Proof.
  intros h. induction ms as [|m ms IH]; intros s L; cbn [map] in L; inversion L; subst; [exists []; split; [reflexivity|constructor]|].
  match goal with X : looks h ?r _ |- _ => destruct (IH r X) as (es & -> & F) end. match goal with X : element_at h ?e = Some _ |- _ => exists (e :: es) end.
  split; [reflexivity|]. constructor; [|exact F]. eexists. split; [eassumption|]. cbn [element_of e_name e_type e_params] in *. repeat split; assumption.
Qed.
Lemma shown_at : forall h es ms i e, Forall2 (shown h) es ms -> nth_error es i = Some e -> exists m, nth_error ms i = Some m /\ shown h e m.
Proof.
  intros h es ms i e F. revert i. induction F as [|a m es ms H F IH]; intros [|i] E; try discriminate; cbn in *; [injection E as <-; exists m; split; [reflexivity|exact H]|apply IH; exact E].
Qed.
Lemma shown_apart : forall h es ms, Forall2 (shown h) es ms -> NoDup (map m_name ms) ->
  NoDup es /\ forall e e' el el', In e es -> In e' es -> element_at h e = Some el -> element_at h e' = Some el' -> e_name el = e_name el' -> e = e'.
Proof.
  intros h es ms F N.
  assert (P : forall i j e e' el el', nth_error es i = Some e -> nth_error es j = Some e' -> element_at h e = Some el -> element_at h e' = Some el' -> e_name el = e_name el' -> i = j).
  { intros i j e e' el el' I J E E' Q. destruct (shown_at _ _ _ _ _ F I) as (m & M & x & X & X1 & _). destruct (shown_at _ _ _ _ _ F J) as (m' & M' & y & Y & Y1 & _).
    rewrite E in X. injection X as <-. rewrite E' in Y. injection Y as <-. apply (nth_nodup (map m_name ms) i j (m_name m) N); rewrite nth_error_map; [rewrite M|rewrite M']; cbn; congruence. }
  split.
  - apply NoDup_nth_error. intros i j Li E. destruct (nth_error es i) as [e|] eqn:I; [|apply nth_error_None in I; lia]. symmetry in E.
    destruct (shown_at _ _ _ _ _ F I) as (m & _ & x & X & _). exact (P i j e e x x I E X X eq_refl).
  - intros e e' el el' I J E E' Q. apply In_nth_error in I, J. destruct I as (i & I). destruct J as (j & J). rewrite (P i j e e' el el' I J E E' Q) in I. congruence.
Qed.
Lemma shown_thing : forall h h' e e' m, shown h e m -> shown h' e' m -> is_thing h e (m_thing m) -> is_thing h' e' (m_thing m).
Proof.
  intros h h' e e' m (x & X & _ & X2 & X3) (y & Y & _ & Y2 & Y3) (el & E & T1 & V). rewrite X in E. injection E as <-. exists y. split; [exact Y|]. split; [congruence|].
  intros k. specialize (V k). rewrite Y3, <- X3. exact V.
Qed.
Lemma shown_here : forall nm ms, Forall2 (shown (heap_of nm ms)) (seq 0 (List.length ms)) ms.
Proof.
  intros nm ms. pose proof (there nm ms) as F. revert F. generalize (seq 0 (List.length ms)) as A. generalize (heap_of nm ms). intros h. induction ms as [|m ms IH]; intros A F; cbn [map] in F; inversion F; subst; [apply Forall2_nil|apply Forall2_cons].
  - eexists. split; [eassumption|]. repeat split.
  - apply IH. assumption.
Qed.
Lemma things_moved : forall h h' es es' ms, Forall2 (shown h) es ms -> Forall2 (shown h') es' ms -> Forall2 (is_thing h) es (map m_thing ms) -> Forall2 (is_thing h') es' (map m_thing ms).
Proof.
  intros h h' es es' ms F. revert es'. induction F as [|e m es ms H F IH]; intros es' F' G; inversion F' as [|e' ? es2 ? H' F2]; subst; [exact (Forall2_nil _)|]. cbn [map] in *. inversion G; subst. apply Forall2_cons; [apply (shown_thing h h' e e' m); assumption|apply IH; assumption].
Qed.
Lemma assigned_from : forall l d k v, In (k, v) (assigns d l) -> In (k, v) d \/ exists k0, In k0 (map fst l) /\ lower k0 = k.
Proof.
  induction l as [|[k0 v0] l IH]; intros d k v I; [left; exact I|]. cbn [assigns fold_left fst snd] in I. fold (assigns (agn_set d k0 v0) l) in I. destruct (IH _ _ _ I) as [J|(k1 & J & E)].
  - unfold agn_set in J. apply dset_in in J. destruct J as [J|J]; [injection J as -> _; right; exists k0; split; [left; reflexivity|reflexivity]|left; exact J].
  - right. exists k1. split; [right; exact J|exact E].
Qed.
Lemma under_names : forall ns vs k, In k (map fst (under ns vs)) -> In k (map fst ns).
Proof. induction ns as [|[n f] ns IH]; intros [|v vs] k I; try contradiction. cbn in *. destruct I as [I|I]; [left; exact I|right; exact (IH vs k I)]. Qed.
Definition taken : list string := ["name"; "type"; "self"; "element_name"; "element_type"]%string.
Definition free (k : string) : bool := negb (existsb (String.eqb (lower k)) taken).
Lemma free_ok : forall k, free k = true -> ~ In (lower k) taken.
Proof. intros k F I. unfold free in F. apply negb_true_iff in F. assert (X : existsb (String.eqb (lower k)) taken = true) by (apply existsb_exists; exists (lower k); split; [exact I|apply String.eqb_refl]). congruence. Qed.
Lemma free_things : forall k vs t key, k <> FieldMap -> In t (things k vs) -> In key (map fst (snd t)) -> free key = true.
Proof.
  assert (Q : forall ns vs key, forallb free (map fst ns) = true -> In key (map fst (under ns vs)) -> free key = true) by (intros ns vs key F I; rewrite forallb_forall in F; apply F; eapply under_names; exact I).
  assert (Z : forall (l : list (string * R)) key, forallb free (map fst l) = true -> In key (map fst l) -> free key = true) by (intros l key F I; rewrite forallb_forall in F; apply F; exact I).
  assert (One : forall (ty : string) ns vs (t : thing) key, forallb free (map fst ns) = true -> In t [(ty, under ns vs)] -> In key (map fst (snd t)) -> free key = true) by (intros ty ns vs t key F [<-|[]] I; eapply Q; eassumption).
  intros k vs t key N I J. destruct k; try contradiction; cbn [things] in I.
  - eapply One; [|exact I|exact J]; reflexivity.
  - eapply One; [|exact I|exact J]; reflexivity.
  - destruct vs as [|l [|q1 [|q2 [|g [|b1 [|b2 [|vo [|ph r]]]]]]]]; try (eapply One; [|exact I|exact J]; reflexivity).
    destruct I as [<-|[<-|[<-|[]]]]; (eapply Z; [|exact J]; reflexivity).
  - eapply One; [|exact I|exact J]; reflexivity.
  - destruct I as [<-|[]]. destruct J.
  - eapply One; [|exact I|exact J]; reflexivity.
Qed.

(* ------------------------------------------------------------------ *)
(** ** Theorems *)
(** Full statement: every imported deck is the same after saving and loading.  Missing: field maps
    (refuted below). *)
Theorem C144_same_partial : forall es name new, Forall entry_ok es -> comments_inside es -> (forall c, In c (cards es) -> c_kind c <> FieldMap) ->
  let ts := flat_map (fun c => things (c_kind c) (card_values c)) (cards es) in
  exists p h' b, tracewin (map entry_text es) name = (p, Ok tt) /\ consists (p_heap p) (p_line p) ts /\
    saved_and_loaded (p_heap p) (p_line p) new h' b /\ consists h' b ts.
Proof.
  intros es name new F C N ts. destruct (deck_steps name es (Trace_Props.entries_fixed _ F) C) as (p & ms & E & St & Tt).
  rewrite Trace_Props.flat_map_seen in Tt by (apply cards_form; exact F). fold ts in Tt.
  pose proof (Twmat_Props.sound_deck (map entry_text es) name) as [W Ty]. rewrite E in W, Ty. cbn [fst] in W, Ty.
  pose proof (state_consists _ _ _ St) as Co. rewrite Tt in Co. destruct St as (Hh & L0 & _ & _ & Nd). rewrite Hh, L0 in *.
  destruct (roundtrip (heap_of name ms) 0 (seq 0 (List.length ms)) [] [] (map element_of ms) [] [] new W Ty) as (data & h' & s & t & Sv & Ld & Sh & Lk & Lk').
  - cbn [map app]. rewrite app_nil_r. reflexivity.
  - left. split; reflexivity.
  - apply there.
  - constructor.
  - rewrite app_nil_r. intros x y Ix Iy Q. apply in_map_iff in Ix, Iy. destruct Ix as (m & <- & Im). destruct Iy as (m' & <- & Im'). cbn [element_of e_name] in Q.
    apply In_nth_error in Im, Im'. destruct Im as (i & Im). destruct Im' as (j & Im'). assert (i = j) by (apply (nth_nodup (map m_name ms) i j (m_name m) Nd); rewrite nth_error_map; [rewrite Im|rewrite Im']; cbn; congruence).
    subst j. rewrite Im in Im'. injection Im' as <-. split; reflexivity.
  - intros x y [].
  - cbn [app]. rewrite app_nil_r. intros x Ix k v I. apply in_map_iff in Ix. destruct Ix as (m & <- & Im). cbn [element_of e_params] in I. apply assigned_from in I. destruct I as [[]|(k0 & I & <-)].
    apply free_ok. assert (It : In (m_thing m) ts) by (rewrite <- Tt; apply in_map; exact Im). unfold ts in It. apply in_flat_map in It. destruct It as (c & Ic & It).
    apply (free_things _ _ _ k0 (N c Ic) It). unfold kwargs in I. rewrite map_map in I. exact I.
  - cbn [map app] in Lk. rewrite app_nil_r in Lk. rewrite (looks_flat _ _ _ _ (there name ms) Lk) in Lk'. destruct (looks_made _ _ _ Lk') as (es' & -> & Fs).
    exists p, h', (snd (new_line (heap_of name ms) new)). rewrite Hh, L0. refine (conj E (conj Co (conj _ _))); [exists data; auto|].
    destruct (shown_apart _ _ _ Fs Nd) as [N1 N2]. exists es'. refine (conj Sh (conj N1 (conj _ N2))).
    rewrite <- Tt. apply (things_moved (heap_of name ms) h' (seq 0 (List.length ms)) es' ms (shown_here name ms) Fs). apply things_nth. intros i m Em. exact Em.
Qed.
Print Assumptions C144_same_partial.
(** the deck of C48: a drift, a quadrupole, a frequency and a DTL cell *)
Example C144_applies : Forall entry_ok Trace_Props.sample_entries /\ comments_inside Trace_Props.sample_entries /\ forall c, In c (cards Trace_Props.sample_entries) -> c_kind c <> FieldMap.
Proof. destruct Trace_Props.C48_applies as (F & C & _). refine (conj F (conj C _)). intros c I. cbn in I. repeat (destruct I as [<-|I]; [discriminate|]). destruct I. Qed.

(** A field map loses its first number, the parameter TYPE, whatever the numbers are. *)
Definition lacks (h : heap) (e : nat) (k : string) : Prop := exists el, element_at h e = Some el /\ agn_get (e_params el) k = None.
Lemma field_map_load : forall name n new v vs,
  let h := heap_of name [(n, "field_map"%string, under field_map_names (v :: vs))] in
  exists h', saved_and_loaded h 0 new h' 1 /\ has_number h 0 "TYPE" v /\ sequence h' 1 = Some [RE 1] /\ lacks h' 1 "TYPE".
Proof.
  intros name n new v vs h.
  destruct vs as [|v2 [|v3 [|v4 [|v5 [|v6 [|v7 [|v8 [|v9 r]]]]]]]]; (eexists; split; [eexists; split; [reflexivity|split; reflexivity]|]; split; [eexists; split; reflexivity|]; split; [reflexivity|]; eexists; split; reflexivity).
Qed.
Theorem C144_field_map_refuted : forall c name new v vs, card_ok c -> c_kind c = FieldMap -> card_values c = v :: vs ->
  exists p h', tracewin [card_text c] name = (p, Ok tt) /\ sequence (p_heap p) (p_line p) = Some [RE 0] /\ has_number (p_heap p) 0 "TYPE" v /\
    saved_and_loaded (p_heap p) (p_line p) new h' 1 /\ sequence h' 1 = Some [RE 1] /\ lacks h' 1 "TYPE".
Proof.
  intros c name new v vs H K V. assert (F : Forall entry_ok [Card c]) by (constructor; [exact H|constructor]).
  assert (C : comments_inside [Card c]) by (intros a pad rest b Y; destruct a as [|x [|y a]]; discriminate Y).
  destruct (deck_steps name [Card c] (Trace_Props.entries_fixed _ F) C) as (p & ms & E & St & Tt).
  rewrite Trace_Props.flat_map_seen in Tt by (apply cards_form; exact F). cbn [cards flat_map app] in Tt. rewrite K, V, app_nil_r in Tt. cbn [things] in Tt.
  destruct ms as [|[[n ty] d] [|m ms]]; try discriminate Tt. cbn [map m_thing fst snd] in Tt. injection Tt as -> ->. destruct St as (Hh & L0 & _).
  destruct (field_map_load name n new v vs) as (h' & A & B & D & G). exists p, h'. rewrite Hh, L0. split; [exact E|]. split; [reflexivity|]. auto.
Qed.
Print Assumptions C144_field_map_refuted.
(** FIELD_MAP 100 500 -35.5 *)
Example C144_field_map_applies : exists c, card_ok c /\ c_kind c = FieldMap /\ card_text c = T "FIELD_MAP 100 500 -35.5" /\ card_values c <> [].
Proof.
  exists (Trace_Props.simple FieldMap "FIELD_MAP" [Trace_Props.num [1; 0; 0]%nat []; Trace_Props.num [5; 0; 0]%nat []; Trace_Props.neg (Trace_Props.num [3; 5]%nat [5]%nat)]).
  split; [Trace_Props.card_is|]. split; [reflexivity|]. split; [reflexivity|discriminate].
Qed.

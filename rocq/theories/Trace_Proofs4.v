From Coq Require Import List Reals Bool Arith String Ascii ZArith Lia Lra.
From Verif Require Import PyBase PyDict PyText Line_Model Line_Spec Line_Proofs Line_Proofs2 Lte_Spec Lte_Proofs Trace_Model Trace_Spec Trace_Proofs Trace_Proofs2 Trace_Proofs3.
Import ListNotations.
Open Scope R_scope.

(* ---------------- failures ---------------- *)
Lemma sanitize_end : forall a pad rest b, blank_line pad -> Forall blank_line b -> sanitize (a ++ (pad ++ T ";" ++ rest) :: b) = Err IndexError.
Proof.
  intros a pad rest b P B. induction a as [|l a IH]; cbn [app sanitize].
  - assert (X : sanitize b = Ok []).
    { induction B as [|x b Hx Hb IHb]; [reflexivity|]. cbn [sanitize]. rewrite IHb. cbn [rbind]. apply sanitize_blank. exact Hx. }
    rewrite X. cbn [rbind]. apply sanitize_comment. exact P.
  - rewrite IH. reflexivity.
Qed.
Lemma sanitize_app : forall a b x, sanitize b = Ok x -> Forall (entry_form fixed_point) a -> (forall p pad rest q, a = p ++ CommentLine pad rest :: q -> x <> [] \/ exists c, In (Card c) q) ->
  (forall y r, x = y :: r -> cut y = y) -> sanitize (map entry_text a ++ b) = Ok (map body (cards a) ++ x).
Proof.
  induction a as [|e a IH]; intros b x Sb F C Cy; [exact Sb|]. inversion F as [|? ? F1 F2]; subst. cbn [map app sanitize].
  rewrite (IH b x Sb F2); [|intros p pad rest q E; apply (C (e :: p) pad rest q); rewrite E; reflexivity|exact Cy]. cbn [rbind]. destruct e as [c|l|pad rest]; cbn [entry_text].
  - rewrite sanitize_card by exact F1. reflexivity.
  - rewrite sanitize_blank by exact F1. reflexivity.
  - rewrite sanitize_comment by exact F1. change (cards (CommentLine pad rest :: a)) with (cards a). pose proof (cards_form _ _ F2) as Fc.
    destruct (C [] pad rest a eq_refl) as [N|(c & Ic)].
    + destruct (cards a) as [|c0 cs]; cbn [map app].
      * destruct x as [|y r]; [contradiction|]. rewrite (Cy y r eq_refl). reflexivity.
      * inversion Fc; subst. rewrite cut_body by assumption. reflexivity.
    + apply cards_in in Ic. destruct (cards a) as [|c0 cs]; [destruct Ic|]. cbn [map app]. inversion Fc; subst. rewrite cut_body by assumption. reflexivity.
Qed.
Lemma tw_lines_app : forall a b p, tw_lines p (a ++ b) = and_then (tw_lines p a) (fun p => tw_lines p b).
Proof. induction a as [|l a IH]; intros b p; [reflexivity|]. cbn [app tw_lines]. destruct (tw_line p l) as [p1 [u|x|]]; cbn [and_then]; auto. Qed.

(* ---------------- the frequency ---------------- *)
Definition calm (el : element) : Prop := e_type el = "freq"%string \/ forall v, agn_get (e_params el) "frequency" = Some v -> v = VNum 1.
Definition calm_heap (h : heap) : Prop := forall e el, nth_error (elems h) e = Some el -> calm el.
Definition calm_params (ps : params) : Prop := forall k v, In (k, v) ps -> same_name "frequency" k -> v = VNum 1.
Lemma calm_new : forall ps v, calm_params ps -> agn_get (assigns [] ps) "frequency" = Some v -> v = VNum 1.
Proof.
  intros ps v C H. destruct (last_value_exists "frequency" ps) as (o & L). rewrite (last_value_get _ _ _ _ L) in H.
  destruct L as [l N|l1 k' w l2 S N]; [discriminate H|]. injection H as <-. apply (C k' w); [|exact S]. apply in_app_iff. right; left; reflexivity.
Qed.
Lemma calm_upd_line : forall h a f, calm_heap h -> calm_heap (upd_line h a f).
Proof. intros h a f H. exact H. Qed.
Lemma calm_add : forall p name ty ps, calm_heap (p_heap p) -> (interpret_element ty = "freq"%string \/ calm_params ps) -> calm_heap (p_heap (fst (add p name ty ps))).
Proof.
  intros p name ty ps H C. unfold add, add_element. destruct (nth_error (lines (p_heap p)) (p_line p)) as [l|]; [|exact H].
  unfold the_element.
  assert (U : forall h e t, calm_heap h -> calm_heap (upd_elem h e (fun el => with_e_line el t))).
  { intros h e t Hh x el E. unfold upd_elem in E. cbn in E. rewrite upd_nth in E. destruct (e =? x)%nat; [|exact (Hh x el E)].
    destruct (nth_error (elems h) x) as [y|] eqn:Q; [|discriminate]. cbn in E. injection E as <-. exact (Hh x y Q). }
  destruct (dget string_dec (l_elements l) name) as [e|].
  - cbn. apply (U (p_heap p)). exact H.
  - unfold new_element. destruct (existsb _ ps); [exact H|]. cbn -[upd_elem]. apply calm_upd_line. apply U. apply calm_upd_line.
    intros x el E. cbn in E. destruct (Nat.lt_ge_cases x (List.length (elems (p_heap p)))) as [Lt|Ge].
    + rewrite nth_error_app1 in E by exact Lt. exact (H x el E).
    + rewrite nth_error_app2 in E by exact Ge. destruct (x - List.length (elems (p_heap p)))%nat as [|k]; [|destruct k; discriminate]. cbn in E. injection E as <-.
      destruct C as [C|C]; [left; exact C|]. right. cbn. intros v G. apply (calm_new ps v C). exact G.
Qed.
Lemma add_freq : forall p name ty ps, p_freq (fst (add p name ty ps)) = p_freq p.
Proof. intros. unfold add. destruct (add_element _ _ _ _ _ _). reflexivity. Qed.
Definition inert (p : parser) : Prop := p_freq p = None /\ calm_heap (p_heap p).
Lemma inert_add : forall p name ty ps, inert p -> (interpret_element ty = "freq"%string \/ calm_params ps) -> inert (fst (add p name ty ps)).
Proof. intros p name ty ps [A B] C. split; [rewrite add_freq; exact A|apply calm_add; assumption]. Qed.
Lemma inert_then : forall s f, inert (fst s) -> (forall p, inert p -> inert (fst (f p))) -> inert (fst (and_then s f)).
Proof. intros [p [u|x|]] f H K; cbn in *; auto. Qed.
Lemma inert_need : forall {A} p (r : res A) f, inert p -> (forall x, r = Ok x -> inert (fst (f x))) -> inert (fst (need p r f)).
Proof. intros A p [x|x|] f H K; cbn; auto. Qed.
Ltac calm_list := intros ? ? Hin Hs; cbn in Hin;
  repeat (destruct Hin as [Hin|Hin]; [injection Hin as <- <-; first [reflexivity|apply same_name_lower in Hs; discriminate Hs]|]); destruct Hin.
Lemma read_keys : forall names values d, read_values names values = Ok d -> incl (map fst d) names.
Proof.
  induction names as [|n names IH]; intros values d H; [cbn in H; injection H as <-; intros x []|].
  destruct values as [|v values]; cbn in H; [injection H as <-; intros x []|]. destruct (py_float v) as [r|]; [|discriminate].
  destruct (read_values names values) as [d0| |] eqn:E; cbn in H; try discriminate. injection H as <-. cbn.
  intros x [<-|I]; [left; reflexivity|right; exact (IH _ _ E x I)].
Qed.
Lemma convert_keys : forall t d, map fst (convert_units t d) = map fst d.
Proof. intros t d. unfold convert_units. rewrite map_map. reflexivity. Qed.
Lemma kwargs_keys : forall d, map fst (kwargs d) = map fst d.
Proof. intros d. unfold kwargs. rewrite map_map. reflexivity. Qed.
Definition no_frequency (names : list string) : bool := forallb (fun n => negb (String.eqb (lower n) "frequency")) names.
Lemma calm_names : forall d names, incl (map fst d) names -> no_frequency names = true -> calm_params (kwargs d).
Proof.
  intros d names I N k v J S. exfalso. apply same_name_lower in S. unfold no_frequency in N. rewrite forallb_forall in N.
  assert (K : In k names) by (apply I; rewrite <- kwargs_keys; apply (in_map fst) in J; exact J). apply N in K. rewrite <- S in K. discriminate K.
Qed.
Lemma inert_dtl : forall p name d, inert p -> inert (fst (handle_dtl_cell p name d)).
Proof.
  intros p name d H. unfold handle_dtl_cell. do 6 (apply inert_need; [exact H|intros ? _]).
  apply inert_then; [apply inert_add; [exact H|right; calm_list]|]. intros p1 H1. apply inert_need; [exact H1|intros ? _].
  apply inert_then; [apply inert_add; [exact H1|right]|].
  - destruct H1 as [-> _]. calm_list.
  - intros p2 H2. apply inert_add; [exact H2|right; calm_list].
Qed.
Lemma inert_handle : forall p ty name d, inert p -> ~ In "frequency"%string (map fst d) -> inert (fst (handle p ty name d)).
Proof.
  intros p ty name d H N. unfold handle. destruct (String.eqb ty "dtl_cel"); [apply inert_dtl; exact H|].
  destruct (String.eqb ty "freq").
  { unfold handle_freq, key. replace (dget string_dec d "frequency"%string) with (@None R) by (symmetry; apply dget_none; exact N). exact H. }
  destruct H as [F C]. destruct (String.eqb ty "ncells"); [unfold handle_ncells; rewrite F; exact (conj F C)|].
  destruct (String.eqb ty "field_map"); [unfold handle_field_map; rewrite F; exact (conj F C)|exact (conj F C)].
Qed.
Lemma classes : forall ty cl, dget string_dec tw_classifiers ty = Some cl -> In cl (map snd tw_classifiers).
Proof. intros ty cl H. apply dget_in in H. apply (in_map snd) in H. exact H. Qed.
Lemma class_names : forall cl names, In cl (map snd tw_classifiers) -> dget string_dec tw_elements cl = Some names ->
  (interpret_element cl = "freq"%string \/ no_frequency names = true) /\ ~ In "frequency"%string names.
Proof.
  intros cl names I D. cbn in I.
  repeat (destruct I as [<-|I]; [cbn in D; injection D as <-; split; [first [left; reflexivity|right; reflexivity]|]; cbn; intuition discriminate|]). destruct I.
Qed.
Lemma inert_line : forall p l, inert p -> inert (fst (tw_line p l)).
Proof.
  intros p l H. unfold tw_line. cbn [next_name].
  set (p1 := {| p_heap := p_heap p; p_line := p_line p; p_count := S (p_count p); p_freq := p_freq p |}).
  assert (H1 : inert p1) by exact H.
  destruct (split_ws l) as [|w ws]; [exact H1|]. destruct (dget string_dec tw_classifiers (str (lowert w))) as [cl|] eqn:Dc; [|exact H1].
  destruct (dget string_dec tw_elements cl) as [names|] eqn:De; [|exact H1].
  destruct (class_names cl names (classes _ _ Dc) De) as [Cn Nf].
  apply inert_need; [exact H1|]. intros d Rd. apply read_keys in Rd.
  match goal with |- context [handle ?x _ _ _] => set (p2 := x) end.
  assert (H2 : inert p2) by (unfold p2; destruct (List.length names =? _)%nat; exact H1). clearbody p2.
  assert (Kd : incl (map fst (convert_units tw_conversions d)) names) by (rewrite convert_keys; exact Rd).
  pose proof (inert_handle p2 (str (lowert w)) (element_name (p_count p)) (convert_units tw_conversions d) H2) as H3.
  assert (H4 : inert (fst (handle p2 (str (lowert w)) (element_name (p_count p)) (convert_units tw_conversions d)))) by (apply H3; intros I; apply Nf, Kd, I). clear H3.
  destruct (handle p2 _ _ _) as [p3 [u|x|]]; cbn [fst] in *; auto.
  destruct x; cbn [fst]; auto. apply inert_add; [exact H4|]. destruct Cn as [Cn|Cn]; [left; exact Cn|right]. apply (calm_names _ names); assumption.
Qed.
Lemma inert_lines : forall ls p, inert p -> inert (fst (tw_lines p ls)).
Proof. induction ls as [|l ls IH]; intros p H; [exact H|]. cbn [tw_lines]. apply inert_then; [apply inert_line; exact H|exact IH]. Qed.
Lemma inert_deck : forall deck nm, inert (fst (tracewin deck nm)).
Proof.
  intros deck nm. unfold tracewin. cbn [new_line empty_heap lines elems List.length app]. apply inert_need.
  - split; [reflexivity|]. intros e el H. destruct e; discriminate H.
  - intros ls _. apply inert_lines. split; [reflexivity|]. intros e el H. destruct e; discriminate H.
Qed.

(* ---------------- lengths ---------------- *)
Lemma last_value_fun : forall k (l : list (string * value)) o1 o2, last_value k l o1 -> last_value k l o2 -> o1 = o2.
Proof.
  intros k l o1 o2 H1 H2. pose proof (last_value_get k l o1 [] H1) as A. pose proof (last_value_get k l o2 [] H2) as B.
  destruct o1, o2; cbn in *; congruence.
Qed.
Definition values_of (ps : list (string * R)) : list (string * value) := map (fun kv => (fst kv, VNum (snd kv))) ps.
Lemma values_key : forall ps k w, In (k, w) (values_of ps) -> In k (map fst ps).
Proof. intros ps k w H. unfold values_of in H. apply in_map_iff in H. destruct H as ([k0 r] & E & I). injection E as <- _. apply (in_map fst) in I. exact I. Qed.
(** the length of a thing *)
Definition long (t : thing) (v : R) : Prop := last_value "L" (values_of (snd t)) (Some (VNum v)) \/ (last_value "L" (values_of (snd t)) None /\ v = 0).
Lemma add_length_thing : forall h acc e t v, is_thing h e t -> long t v -> add_length h acc e = Ok (acc + v).
Proof.
  intros h acc e t v (el & E & _ & L) Hv. unfold add_length. unfold element_at in E. rewrite E. specialize (L "L"%string).
  destruct Hv as [Hv|[Hv ->]].
  - rewrite (last_value_fun _ _ _ _ L Hv). reflexivity.
  - rewrite (last_value_fun _ _ _ _ L Hv). f_equal. ring.
Qed.
Lemma sum_things : forall h es ts, Forall2 (is_thing h) es ts -> forall vs acc, Forall2 long ts vs -> sum_lengths h acc es = Ok (acc + total vs).
Proof.
  intros h es ts H. induction H as [|e t es ts He Hr IH]; intros vs acc L; inversion L as [|? v ? vs' Lv Lr]; subst; cbn [sum_lengths].
  - f_equal. unfold total. cbn. ring.
  - rewrite (add_length_thing h acc e t v He Lv). cbn [rbind]. rewrite (IH vs' _ Lr). f_equal. unfold total. cbn. ring.
Qed.
Lemma flatten_elems : forall f h es, flatten (S f) h (map RE es) = Ok es.
Proof. intros f h. induction es as [|e es IH]; [reflexivity|]. cbn [map]. rewrite flatten_RE, IH. reflexivity. Qed.
Lemma length_consists : forall h a ts vs, consists h a ts -> Forall2 long ts vs -> length_of h a = Ok (total vs).
Proof.
  intros h a ts vs (es & S & _ & F & _) L. unfold length_of, get_beamline_elements. unfold sequence in S. destruct (nth_error (lines h) a) as [l|]; [|discriminate]. injection S as S.
  rewrite S, flatten_elems. cbn [rbind]. rewrite (sum_things h es ts F vs 0 L). f_equal. ring.
Qed.
Lemma long_first : forall ty x t vs, forallb (fun n => negb (String.eqb (lower n) "l")) (map fst t) = true -> long (ty, ("L"%string, x) :: under t vs) x.
Proof.
  intros ty x t vs F. left. apply (lv_some "L"%string [] "L"%string (VNum x)); [apply same_name_lower; reflexivity|].
  intros k w I S. apply same_name_lower in S. rewrite forallb_forall in F. fold (values_of (under t vs)) in I.
  assert (J : In k (map fst t)) by (apply (under_keys t vs); exact (values_key _ _ _ I)).
  apply F in J. rewrite <- S in J. discriminate J.
Qed.
Lemma long_none : forall ty ps, forallb (fun n => negb (String.eqb (lower n) "l")) (map fst ps) = true -> long (ty, ps) 0.
Proof.
  intros ty ps F. right. split; [|reflexivity]. constructor. intros k w I S. apply same_name_lower in S. rewrite forallb_forall in F.
  assert (J : In k (map fst ps)) by (exact (values_key _ _ _ I)).
  apply F in J. rewrite <- S in J. discriminate J.
Qed.
Lemma under_free : forall t vs, forallb (fun n => negb (String.eqb (lower n) "l")) (map fst t) = true -> forallb (fun n => negb (String.eqb (lower n) "l")) (map fst (under t vs)) = true.
Proof. intros t vs F. rewrite forallb_forall in *. intros k I. apply F. apply (under_keys t vs). exact I. Qed.
Lemma long_here : forall ty l1 k x l2, same_name "L" k -> forallb (fun n => negb (String.eqb (lower n) "l")) (map fst l2) = true -> long (ty, l1 ++ (k, x) :: l2) x.
Proof.
  intros ty l1 k x l2 S F. left. unfold values_of. cbn [snd]. rewrite map_app. cbn [map fst snd]. apply lv_some; [exact S|].
  intros k' w I S'. apply same_name_lower in S'. rewrite forallb_forall in F. fold (values_of l2) in I.
  assert (J : In k' (map fst l2)) by (exact (values_key _ _ _ I)).
  apply F in J. rewrite <- S' in J. discriminate J.
Qed.
Lemma card_long : forall k vs, exists ws, Forall2 long (things k vs) ws /\ total ws = card_length k vs.
Proof.
  assert (one : forall t v, long t v -> exists ws, Forall2 long [t] ws /\ total ws = v).
  { intros t v L. exists [v]. split; [constructor; [exact L|constructor]|]. unfold total. cbn. ring. }
  intros k vs. destruct k.
  - destruct vs as [|v vs]; [exists [0]; split; [constructor; [apply long_none; reflexivity|constructor]|unfold total; cbn; ring]|]. apply one. apply long_first. reflexivity.
  - destruct vs as [|v vs]; [exists [0]; split; [constructor; [apply long_none; reflexivity|constructor]|unfold total; cbn; ring]|]. apply one. apply long_first. reflexivity.
  - destruct vs as [|v1 vs]; [exists [0]; split; [constructor; [apply long_none; reflexivity|constructor]|unfold total; cbn; ring]|].
    destruct vs as [|v2 [|v3 [|v4 [|v5 [|v6 [|v7 [|v8 vs]]]]]]].
    1-7: apply one; match goal with |- long (_, under _ (?x :: ?r)) _ => exact (long_first "dtl_cell" (mm x) (("LQ1"%string, mm) :: ("LQ2"%string, mm) :: map as_is ["GC"; "B1"; "B2"; "VOLT"; "PHASE"; "R"; "P"; "BETA_S"; "T_S"; "KTS"; "K2TS"]%string) r eq_refl) end.
    exists [mm v2; mm (v1 - v2 - v3); mm v3]. split; [|unfold total; cbn [fold_right card_length]; unfold mm; field].
    constructor; [apply (long_here _ [("k1"%string, v5)]); [apply same_name_lower; reflexivity|reflexivity]|].
    constructor; [apply (long_here _ []); [apply same_name_lower; reflexivity|reflexivity]|].
    constructor; [apply (long_here _ [("k1"%string, v6)]); [apply same_name_lower; reflexivity|reflexivity]|]. constructor.
  - replace (card_length NCells vs) with 0 by (destruct vs; reflexivity). apply one. apply long_none. apply under_free. reflexivity.
  - replace (card_length SyncPhase vs) with 0 by (destruct vs; reflexivity). apply one. apply long_none. reflexivity.
  - replace (card_length Freq vs) with 0 by (destruct vs; reflexivity). apply one. apply long_none. apply (under_free [as_is "FREQUENCY"]). reflexivity.
  - destruct vs as [|v1 [|v2 vs]]; [apply one; apply long_none; reflexivity|apply one; apply long_none; reflexivity|].
    apply one. apply (long_here _ [("TYPE"%string, v1)]); [apply same_name_lower; reflexivity|]. apply under_free. reflexivity.
Qed.
Lemma cards_long : forall (vals : card -> list R) cs, exists ws, Forall2 long (flat_map (fun c => things (c_kind c) (vals c)) cs) ws /\ total ws = total (map (fun c => card_length (c_kind c) (vals c)) cs).
Proof.
  intros vals. induction cs as [|c cs (ws & F & E)]; [exists []; split; [constructor|reflexivity]|].
  destruct (card_long (c_kind c) (vals c)) as (w1 & F1 & E1). exists (w1 ++ ws). cbn [flat_map map]. split; [apply Forall2_app; assumption|].
  rewrite total_app, E, E1. reflexivity.
Qed.

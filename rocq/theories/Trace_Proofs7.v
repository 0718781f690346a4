From Coq Require Import List Reals Bool Arith String Ascii ZArith Lia Lra.
From Verif Require Import PyBase PyDict PyText Line_Model Line_Spec Line_Proofs Line_Proofs2 Json_Proofs Lte_Spec Lte_Proofs Trace_Model Trace_Spec Trace_Proofs Trace_Proofs2 Trace_Proofs3 Trace_Proofs4 Trace_Proofs5 Trace_Proofs6.
Import ListNotations.
Open Scope R_scope.

Lemma low_semicolon : forall c, low c = semicolon -> c = semicolon.
Proof. intros [[] [] [] [] [] [] [] []] H; vm_compute in H; try discriminate H; reflexivity. Qed.
Lemma low_ws : forall c, is_ws (low c) = is_ws c.
Proof. intros [[] [] [] [] [] [] [] []]; reflexivity. Qed.
Lemma cut_cons : forall c s, cut (c :: s) = if Ascii.eqb c semicolon then [] else c :: cut s.
Proof. intros c s. unfold cut. cbn [find1]. destruct (Ascii.eqb c semicolon); [reflexivity|]. destruct (find1 semicolon s); reflexivity. Qed.
Lemma cut_app : forall x y, ~ In semicolon x -> cut (x ++ y) = x ++ cut y.
Proof.
  induction x as [|c x IH]; intros y N; [reflexivity|]. cbn [app]. rewrite cut_cons. destruct (Ascii.eqb_spec c semicolon) as [->|_]; [exfalso; apply N; left; reflexivity|].
  rewrite IH by (intros I; apply N; right; exact I). reflexivity.
Qed.
Lemma cut_cut : forall x, cut (cut x) = cut x.
Proof. induction x as [|c x IH]; [reflexivity|]. rewrite cut_cons. destruct (Ascii.eqb c semicolon) eqn:E; [reflexivity|]. rewrite cut_cons, E, IH. reflexivity. Qed.
Lemma gap_lower : forall s, gap s -> gap (cut (lowert s)).
Proof.
  intros s [->|(c & r & -> & W)]; [left; reflexivity|]. right. exists c, (cut (lowert r)). split; [|exact W].
  unfold lowert. cbn [map]. rewrite (ws_low c W). rewrite cut_cons. destruct (Ascii.eqb_spec c semicolon) as [->|_]; [discriminate W|reflexivity].
Qed.
Lemma sanitize_strange : forall pad w rest done, blank_line pad -> strange w -> 
  sanitize_line (pad ++ w ++ rest) done = Ok ((pad ++ lowert w ++ cut (lowert rest)) :: done).
Proof.
  intros pad w rest done P (N & C & _). unfold sanitize_line. rewrite !lowert_app. rewrite (lowert_blank pad P).
  assert (Nw : ~ In semicolon (lowert w)).
  { intros I. unfold lowert in I. apply in_map_iff in I. destruct I as (c & E & I). apply low_semicolon in E. destruct (C c I) as [_ X]. contradiction. }
  rewrite drop_ws_app by (apply blank_of; exact P). destruct w as [|c w]; [contradiction|]. cbn [lowert map app]. fold (lowert w).
  cbn [drop_ws]. destruct (C c (or_introl eq_refl)) as [W S0]. rewrite low_ws, W. destruct (Ascii.eqb_spec (low c) semicolon) as [E|_]; [apply low_semicolon in E; contradiction|].
  f_equal. f_equal. rewrite cut_app.
  - f_equal. change (low c :: lowert w ++ lowert rest) with (lowert (c :: w) ++ lowert rest). rewrite cut_app by exact Nw. reflexivity.
  - intros I. pose proof (blank_of _ P) as B. unfold blank in B. rewrite forallb_forall in B. specialize (B _ I). discriminate B.
Qed.
Lemma strange_line : forall p pad w rest, blank_line pad -> strange w -> gap rest -> 
  exists p', tw_line p (pad ++ lowert w ++ cut (lowert rest)) = (p', Err KeyError) /\ p_heap p' = p_heap p /\ p_line p' = p_line p.
Proof.
  intros p pad w rest P (N & C & K) G. unfold tw_line. cbn [next_name].
  destruct (split_head pad (lowert w) (cut (lowert rest))) as (tl & ->).
  - apply blank_of; exact P.
  - intros c I. unfold lowert in I. apply in_map_iff in I. destruct I as (d & <- & I). rewrite low_ws. apply (C d I).
  - destruct w; [contradiction|discriminate].
  - apply gap_lower. exact G.
  - assert (D : dget string_dec tw_classifiers (str (lowert (lowert w))) = None).
    { apply dget_none. intros I. assert (L : lowert (lowert w) = lowert w).
      { unfold lowert. rewrite map_map. apply map_ext. intros [[] [] [] [] [] [] [] []]; reflexivity. }
      rewrite L in I. rewrite str_lowert in I.
      assert (X : forall k, lower (str w) <> kind_word k).
      { intros k E. apply (K k). apply same_name_lower. change (string_of_list_ascii w) with (str w). rewrite E. destruct k; reflexivity. }
      destruct I as [I|[I|[I|[I|[I|[I|[I|[]]]]]]]]; symmetry in I; revert I; [apply (X Drift)|apply (X Quad)|apply (X DtlCell)|apply (X NCells)|apply (X SyncPhase)|apply (X Freq)|apply (X FieldMap)]. }
    rewrite D. eexists. split; [reflexivity|]. split; reflexivity.
Qed.
Lemma strange_deck : forall nm a pad w rest b, Forall (entry_form fixed_point) a -> blank_line pad -> strange w -> gap rest ->
  Forall (entry_form fixed_point) b -> comments_inside b ->
  exists p, tracewin (map entry_text a ++ (pad ++ w ++ rest) :: map entry_text b) nm = (p, Err KeyError) /\
    consists (p_heap p) (p_line p) (flat_map (fun c => things (c_kind c) (seen_values c)) (cards a)).
Proof.
  intros nm a pad w rest b Fa P W G Fb Cb. unfold tracewin. cbn [new_line empty_heap lines elems List.length app].
  set (l := pad ++ lowert w ++ cut (lowert rest)).
  assert (Cl : cut l = l).
  { destruct W as (N & C & _). unfold l. rewrite cut_app.
    - f_equal. rewrite cut_app; [rewrite cut_cut; reflexivity|]. intros I. unfold lowert in I. apply in_map_iff in I. destruct I as (c & E & I). apply low_semicolon in E. destruct (C c I) as [_ X]. contradiction.
    - intros I. pose proof (blank_of _ P) as B. unfold blank in B. rewrite forallb_forall in B. specialize (B _ I). discriminate B. }
  rewrite (sanitize_app a _ (l :: map body (cards b))); [| |exact Fa| |].
  - cbn [need]. match goal with |- context [tw_lines ?p _] => assert (St : state nm [] p) end.
    { refine (conj eq_refl (conj eq_refl (conj eq_refl (conj _ (NoDup_nil _))))). intros m []. }
    rewrite tw_lines_app. destruct (cards_steps nm (cards a) [] _ St (cards_form _ _ Fa)) as (p & ms & E & S0 & Tt). rewrite E. cbn [and_then tw_lines].
    destruct (strange_line p pad w rest P W G) as (p' & E' & H1 & H2). fold l in E'. rewrite E'. cbn [and_then]. exists p'. split; [reflexivity|].
    rewrite H1, H2, <- Tt. eapply state_consists. exact S0.
  - cbn [sanitize]. rewrite (sanitize_entries b Fb Cb). cbn [rbind]. apply sanitize_strange; assumption.
  - intros p0 pad0 rest0 q _. left. discriminate.
  - intros y r E. injection E as <- _. exact Cl.
Qed.

(** an element added under a free name *)
Lemma add_thing : forall p l name ty d, nth_error (lines (p_heap p)) (p_line p) = Some l -> dget string_dec (l_elements l) name = None ->
  existsb (fun kv => reserved (fst kv)) (kwargs d) = false -> interpret_element ty = ty ->
  exists p' l' e, add p name ty (kwargs d) = (p', Ok tt) /\ p_line p' = p_line p /\ p_freq p' = p_freq p /\
    nth_error (lines (p_heap p')) (p_line p) = Some l' /\ l_elements l' = dset string_dec (l_elements l) name e /\
    l_seq l' = l_seq l ++ [RE e] /\ is_thing (p_heap p') e (ty, d) /\ forall x t, is_thing (p_heap p) x t -> is_thing (p_heap p') x t.
Proof.
  intros p l name ty d Hl D Rs It. unfold add, add_element. rewrite Hl. unfold the_element. rewrite D. unfold new_element. rewrite Rs, It.
  eexists. eexists. exists (List.length (elems (p_heap p))). split; [reflexivity|]. cbn [with_heap p_heap p_line p_freq].
  refine (conj eq_refl (conj eq_refl (conj _ (conj _ (conj _ (conj _ _)))))).
  - cbn [upd_line upd_elem lines]. rewrite !upd_nth, Nat.eqb_refl, Hl. reflexivity.
  - reflexivity.
  - reflexivity.
  - unfold is_thing, element_at. cbn [upd_line upd_elem elems]. rewrite upd_end. rewrite nth_error_app2 by lia. rewrite Nat.sub_diag. cbn [nth_error].
    eexists. split; [reflexivity|]. split; [reflexivity|]. intros k. cbn [with_e_line e_params fst snd].
    change (map (fun kv => (fst kv, VNum (snd kv))) d) with (kwargs d).
    destruct (last_value_exists k (kwargs d)) as [o L]. change (fold_left _ (kwargs d) []) with (assigns [] (kwargs d)). rewrite (last_value_get k _ o [] L). destruct o; exact L.
  - intros x t (el & E & T0 & L). exists el. refine (conj _ (conj T0 L)). unfold element_at in *. cbn [upd_line upd_elem elems]. rewrite upd_end.
    rewrite nth_error_app1; [exact E|]. apply nth_error_Some. congruence.
Qed.
Lemma append_inj : forall a b c : string, String.append a b = String.append a c -> b = c.
Proof. induction a as [|x a IH]; intros b c H; [exact H|]. cbn in H. injection H as H. apply IH. exact H. Qed.

Lemma minus_value : forall l, fixed_point l -> l_sign l = Some true -> frac_digits l = [] -> literal_value (seen l) = - literal_value l.
Proof. intros l [_ E] S0 F. unfold seen, literal_value. rewrite F, E, S0. cbn. unfold frac_digits. cbn. ring. Qed.

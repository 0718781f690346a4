(** * Claim C140: the transfer matrix of an imported elegant lattice. *)
From Coq Require Import List Reals Bool Arith String Ascii ZArith Lia Lra.
From Verif Require Import PyBase PyDict PyText Line_Model Line_Spec Line_Proofs Line_Proofs2 Lte_Model Lte_Spec Lte_Proofs Lte_Proofs2 Lte_Proofs3 Lte_Proofs4 Lte_Proofs5 Lte_Proofs6 Lte_Props Ltelen_Props.
From Verif Require Json_Model Json_Spec Json_Props Towarp_Props.
Import ListNotations.
Open Scope R_scope.

(* ------------------------------------------------------------------ *)
(** ** Specification *)
(** The matrix for a type: those of quadrupoles and drifts, in the variables K1 and L. *)
Definition type_matrix (ty : string) (m : smat) : Prop :=
  ty = "quadrupole"%string /\ (forall v, m v = quad_matrix v) \/ ty = "drift"%string /\ (forall v, m v = drift_matrix v).
Definition has_matrix (ty : string) : Prop := ty = "quadrupole"%string \/ ty = "drift"%string.
(** The type of a name of the file *)
Definition defined_as (es : list entry) (n : text) (ty : string) : Prop := exists d, In (Define d) es /\ d_name d = n /\ str (d_type d) = ty.

(* ------------------------------------------------------------------ *)
(** ** Proofs *)
Lemma one_matrix : forall h e el, wf h -> nth_error (elems h) e = Some el -> has_matrix (e_type el) -> exists m, element_matrix h (RE e) = Ok m /\ type_matrix (e_type el) m.
Proof.
  intros h e el W He T. assert (X : exists m, element_matrix h (RE e) = Ok m) by (cbn; rewrite He; unfold matrices; destruct T as [->| ->]; cbn; eexists; reflexivity).
  destruct X as (m & X). exists m. split; [exact X|]. destruct (element_matrix_ok h (RE e) m W X) as (e' & el' & m0 & Q & He' & M & V). injection Q as <-.
  unfold element_at in He'. rewrite He in He'. injection He' as <-. unfold matrices in M. destruct T as [T|T]; rewrite T in *; cbn in M; injection M as <-; [left|right]; auto.
Qed.
Lemma all_matrices : forall h addrs tys, wf h -> Forall2 (fun a ty => exists el, nth_error (elems h) a = Some el /\ e_type el = ty /\ has_matrix ty) addrs tys ->
  exists ms, mapres (element_matrix h) (map RE addrs) = Ok ms /\ Forall2 type_matrix tys ms.
Proof.
  intros h addrs tys W F. induction F as [|a ty addrs tys (el & He & <- & T) F IH]; [exists []; split; [reflexivity|constructor]|].
  destruct IH as (ms & E & G). destruct (one_matrix h a el W He T) as (m & Em & Tm). exists (m :: ms). cbn [map mapres]. rewrite Em. cbn [rbind]. rewrite E. cbn. split; [reflexivity|constructor; assumption].
Qed.
Lemma line_matrix : forall h l addrs tys, wf h -> nth_error (lines h) 0 = Some l -> l_seq l = map RE addrs -> tys <> [] ->
  Forall2 (fun a ty => exists el, nth_error (elems h) a = Some el /\ e_type el = ty /\ has_matrix ty) addrs tys ->
  exists M ms, generate_matrix h 0 = Ok M /\ Forall2 type_matrix tys ms /\ forall v i j, (i < 4)%nat -> (j < 4)%nat -> M v i j = product (map (fun m => m v) ms) i j.
Proof.
  intros h l addrs tys W Hl Sq Ne F. destruct (all_matrices h addrs tys W F) as (ms & E & G). unfold generate_matrix. rewrite Hl, Sq, E. cbn [rbind].
  destruct (concatenate ms) as [M|x|] eqn:C.
  - exists M, ms. split; [reflexivity|]. split; [exact G|]. exact (concatenate_product ms M C).
  - exfalso. unfold concatenate in C. destruct (rev ms) eqn:R; [|discriminate]. apply (f_equal (@rev smat)) in R. rewrite rev_involutive in R. subst ms. inversion G; subst. contradiction.
  - exfalso. unfold concatenate in C. destruct (rev ms) eqn:R; discriminate.
Qed.
(** what stands first decides *)
Lemma stops_at : forall h l pre r post x, wf h -> nth_error (lines h) 0 = Some l -> l_seq l = map RE pre ++ r :: post ->
  (forall a, In a pre -> exists el, nth_error (elems h) a = Some el /\ has_matrix (e_type el)) -> element_matrix h r = Err x -> generate_matrix h 0 = Err x.
Proof.
  intros h l pre r post x W Hl Sq P E. unfold generate_matrix. rewrite Hl, Sq.
  assert (Q : mapres (element_matrix h) (map RE pre ++ r :: post) = Err x); [|now rewrite Q].
  clear Sq. induction pre as [|a pre IH]; cbn [map app mapres]; [now rewrite E|].
  destruct (P a (or_introl eq_refl)) as (el & He & T). destruct (one_matrix h a el W He T) as (m & Em & _). rewrite Em. cbn [rbind]. rewrite IH; [reflexivity|intros b I; apply P; now right].
Qed.
Lemma no_matrix : forall h e el, nth_error (elems h) e = Some el -> ~ has_matrix (e_type el) -> element_matrix h (RE e) = Err KeyError.
Proof.
  intros h e el He N. cbn. rewrite He. unfold matrices. destruct (String.eqb_spec (e_type el) "quadrupole") as [Q|_]; [now destruct N; left|].
  destruct (String.eqb_spec (e_type el) "drift") as [Q|_]; [now destruct N; right|reflexivity].
Qed.
Lemma only_elements : forall s, rls s = [] -> s = map RE (res_ s).
Proof. induction s as [|[e|b] s IH]; intros H; cbn in *; [reflexivity|f_equal; auto|discriminate]. Qed.
Lemma first_line : forall s, rls s <> [] -> exists pre b post, s = map RE pre ++ RL b :: post.
Proof.
  induction s as [|[e|b] s IH]; intros H; cbn in H; [congruence| |exists [], b, s; reflexivity].
  destruct (IH H) as (pre & b & post & ->). exists (e :: pre), b, post. reflexivity.
Qed.
Lemma flat_only : forall addrs subs, flat (map RE addrs) subs = addrs.
Proof. induction addrs as [|a addrs IH]; intros subs; cbn; [reflexivity|f_equal; apply IH]. Qed.
Lemma flat_app : forall s t subs, flat (s ++ t) subs = flat s subs ++ flat t subs.
Proof. intros. unfold flat. apply flat_map_app. Qed.
Lemma defined_once : forall es d d', lattice_ok es -> In (Define d) es -> In (Define d') es -> d_name d = d_name d' -> d = d'.
Proof.
  intros es d d' [_ ND] X Y E. assert (Q : Define d = Define d'); [|congruence]. revert ND X Y E. induction es as [|e es IH]; intros ND X Y E; [destruct X|].
  cbn [map] in ND. inversion ND as [|? ? N1 N2]; subst. destruct X as [->|X], Y as [Y|Y]; [congruence| | |apply IH; assumption].
  - exfalso. apply N1. cbn [entry_name]. rewrite E. apply (in_map entry_name) in Y. exact Y.
  - exfalso. apply N1. subst e. cbn [entry_name]. rewrite <- E. apply (in_map entry_name) in X. exact X.
Qed.
Lemma type_found : forall es n ty el, lattice_ok es -> defined_as es n ty -> is_element es n el -> e_type el = ty.
Proof.
  intros es n ty el L (d & I & N & <-) (d' & I' & N' & _ & Ty & _). rewrite Ty. rewrite (defined_once es d' d L I' I); [reflexivity|congruence].
Qed.
Lemma types_found : forall es h addrs els tys, lattice_ok es -> Forall2 (defined_as es) els tys -> (forall ty, In ty tys -> has_matrix ty) ->
  Forall2 (fun a n => exists el, nth_error (elems h) a = Some el /\ is_element es n el) addrs els ->
  Forall2 (fun a ty => exists el, nth_error (elems h) a = Some el /\ e_type el = ty /\ has_matrix ty) addrs tys.
Proof.
  intros es h addrs els tys L D T F. revert tys D T. induction F as [|a n addrs els (el & He & Is) F IH]; intros tys D T; inversion D as [|? ty ? tys' D1 D2]; subst; constructor.
  - exists el. split; [exact He|]. split; [exact (type_found es n ty el L D1 Is)|apply T; now left].
  - apply IH; [exact D2|intros t I; apply T; now right].
Qed.

(* ------------------------------------------------------------------ *)
(** ** Theorems *)
(** Full statement: every imported lattice of drifts and quadrupoles has a transfer matrix, the
    product of those of its elements in order.  Missing: lines in lines, the names that elegant has
    for the types, and the numbers of the elements (refuted below and in C40).  Proved: lines
    without lines in them, elements of the types drift and quadrupole, the matrix in the variables
    K1 and L. *)
Theorem C140_flat_partial : forall es sel before items tail els tys beamline_name show,
  lattice_ok es -> In (Line sel before items tail) es -> unfolds es items els [] -> lowert beamline_name = bare sel ->
  Forall2 (defined_as es) els tys -> (forall ty, In ty tys -> has_matrix ty) -> els <> [] ->
  exists k h M ms, (forall fuel, (k <= fuel)%nat -> import fuel show (map entry_text es) beamline_name = (h, Ok tt)) /\
    generate_matrix h 0 = Ok M /\ Forall2 type_matrix tys ms /\ forall v i j, (i < 4)%nat -> (j < 4)%nat -> M v i j = product (map (fun m => m v) ms) i j.
Proof.
  intros es sel before items tail els tys bn show L I U E D T Ne. destruct (import_ok es sel before items tail els [] bn show L I U (NoDup_nil _) E) as (k & h & R & G).
  destruct (good_flat _ _ _ _ _ G) as (addrs & G1 & F). destruct G as ((l0 & subs & Ln & _ & Rl & _) & W & C & _). rewrite Ln in C. cbn in C. injection C as C. destruct subs; [|discriminate].
  cbn in Rl. pose proof (only_elements _ Rl) as Sq. assert (Q : res_ (l_seq l0) = addrs).
  { unfold get_beamline_elements in G1. rewrite Ln in G1. cbn [nth_error] in G1. rewrite Sq in G1. clear - G1. revert addrs G1. generalize (res_ (l_seq l0)). intros s.
    generalize (List.length [l0]). intros n. cbn [flatten]. induction s as [|e s IH]; intros addrs G1; cbn in G1; [now injection G1|].
    match type of G1 with (do l <- ?g; _) = _ => destruct g as [l'|x|] eqn:Z end; try discriminate. cbn in G1. injection G1 as <-. f_equal. now apply IH. }
  rewrite Q in Sq. destruct (line_matrix h l0 addrs tys W) as (M & ms & GM & TM & P); [rewrite Ln; reflexivity|exact Sq| |exact (types_found es h addrs els tys L D T F)|].
  - intros ->. inversion D; subst. contradiction.
  - exists k, h, M, ms. auto.
Qed.
Print Assumptions C140_flat_partial.

(** A line in the line: there is no matrix. *)
Theorem C140_lines_refuted : forall es sel before items tail els uses tys beamline_name show,
  lattice_ok es -> In (Line sel before items tail) es -> unfolds es items els uses -> NoDup uses -> lowert beamline_name = bare sel ->
  Forall2 (defined_as es) els tys -> (forall ty, In ty tys -> has_matrix ty) -> uses <> [] ->
  exists k h, (forall fuel, (k <= fuel)%nat -> import fuel show (map entry_text es) beamline_name = (h, Ok tt)) /\ generate_matrix h 0 = Err AttributeError.
Proof.
  intros es sel before items tail els uses tys bn show L I U ND E D T Ne. destruct (import_ok es sel before items tail els uses bn show L I U ND E) as (k & h & R & G).
  exists k, h. split; [exact R|]. destruct G as ((l0 & subs & Ln & _ & Rl & _ & El & Fl & _) & W & C & _). rewrite Ln in C. cbn in C. injection C as C.
  destruct (first_line (l_seq l0)) as (pre & b & post & Sq); [rewrite Rl; destruct subs; [destruct uses; [contradiction|discriminate]|discriminate]|].
  apply (stops_at h l0 pre (RL b) post); [exact W|rewrite Ln; reflexivity|exact Sq| |reflexivity].
  rewrite Sq, flat_app, flat_only in Fl. apply Forall2_app_inv_l in Fl. destruct Fl as (o1 & o2 & F1 & _ & ->). apply Forall2_app_inv_l in D. destruct D as (t1 & t2 & D1 & _ & ->).
  clear - F1 D1 T El L. revert t1 D1 T. induction F1 as [|a n pre o1 A F1 IH]; intros t1 D1 T c J; [contradiction|]. inversion D1 as [|? ty ? t1' X Y]; subst. destruct J as [<-|J].
  - destruct (El _ _ A) as (el & n' & Sn & He & Is). apply str_inj in Sn. subst n'. exists el. split; [exact He|]. rewrite (type_found es n ty el L X Is). apply T. now left.
  - apply (IH t1' Y); [intros t K; apply T; now right|exact J].
Qed.
Print Assumptions C140_lines_refuted.

(** No element has one of the two types, as in every elegant file that writes quad and drif, or
    edrift, kquad, sbend: there is no matrix, whatever the line. *)
Theorem C140_types_refuted : forall es sel before items tail els uses tys beamline_name show,
  lattice_ok es -> In (Line sel before items tail) es -> unfolds es items els uses -> NoDup uses -> lowert beamline_name = bare sel ->
  Forall2 (defined_as es) els tys -> (forall ty, In ty tys -> ~ has_matrix ty) -> els <> [] ->
  exists k h, (forall fuel, (k <= fuel)%nat -> import fuel show (map entry_text es) beamline_name = (h, Ok tt)) /\
    (generate_matrix h 0 = Err KeyError \/ generate_matrix h 0 = Err AttributeError).
Proof.
  intros es sel before items tail els uses tys bn show L I U ND E D T Ne. destruct (import_ok es sel before items tail els uses bn show L I U ND E) as (k & h & R & G).
  exists k, h. split; [exact R|]. destruct G as ((l0 & subs & Ln & _ & Rl & _ & El & Fl & _) & W & C & _).
  destruct (l_seq l0) as [|[e|b] s] eqn:Sq.
  - cbn in Fl. inversion Fl; subst. contradiction.
  - left. cbn [flat flat_map app] in Fl. inversion Fl as [|? n ? els' A B]; subst. inversion D as [|? ty ? tys' X Y]; subst. destruct (El _ _ A) as (el & n' & Sn & He & Is). apply str_inj in Sn. subst n'.
    apply (stops_at h l0 [] (RE e) s KeyError W); [rewrite Ln; reflexivity|exact Sq|intros a []|]. apply (no_matrix h e el He). rewrite (type_found es n ty el L X Is). apply T. now left.
  - right. apply (stops_at h l0 [] (RL b) s AttributeError W); [rewrite Ln; reflexivity|exact Sq|intros a []|reflexivity].
Qed.
Print Assumptions C140_types_refuted.

(** Lattices from records: Sirepo writes the types of elegant in full, so none has a matrix. *)
Theorem C140_records_refuted : forall M k es, Json_Spec.one_meaning M -> Json_Spec.free_keys M -> Json_Spec.lines_named_once M -> Json_Spec.back_flat M ->
  In k (Json_Model.m_lines M) -> Json_Spec.expansion M (Json_Model.jl_items k) es -> es <> [] ->
  (forall e, In e es -> ~ has_matrix (strip (lower (Json_Model.je_type e)))) ->
  exists enough, forall limit, (enough <= limit)%nat -> exists h a, Json_Model.parse_json limit M (Json_Model.jl_name k) = Ok (h, a) /\
    (generate_matrix h a = Err KeyError \/ generate_matrix h a = Err AttributeError).
Proof.
  intros M k es O Fk Nm Bf Ik H Ne T. destruct (Json_Props.C45_expansion_partial M k es O Fk Nm Bf Ik H) as (n & Q). exists n. intros limit L. destruct (Q limit L) as (h & a & addrs & P & G & F).
  exists h, a. split; [exact P|]. unfold get_beamline_elements in G. unfold generate_matrix. destruct (nth_error (lines h) a) as [l|]; [|discriminate]. cbn [flatten] in G.
  destruct (l_seq l) as [|[e|b] s]; [|left|right; reflexivity].
  - injection G as <-. inversion F; subst. contradiction.
  - match type of G with (do l <- ?g; _) = _ => destruct g as [l'|x|] eqn:Z end; try discriminate. cbn in G. injection G as <-. inversion F as [|? j ? es' (x & Hx & Nx & Tx & _) F']; subst.
    cbn [mapres]. rewrite (no_matrix h e x Hx); [reflexivity|]. rewrite Tx. apply T. now left.
Qed.
Print Assumptions C140_records_refuted.

(** Cases: a drift, a quadrupole and the drift again, flat, and with the quadrupole in a line; the
    same with the type quad; records. *)
Definition typed (n ty : string) : definition := {| d_written := T n; d_before := T " "; d_type := T ty; d_after := []; d_params := [] |}.
Definition q_items : list item := [One (name "d"); One (name "q"); One (name "d")].
Definition r_items : list item := [One (name "d"); One (name "cell")].
Definition cell_of : list item := [One (name "q"); One (name "d")].
Definition fodo (dt qt : string) : list entry :=
  [Define (typed "d" dt); Define (typed "q" qt); Line (T "cell") (T " ") cell_of [newline]; Line (T "flat") (T " ") q_items [newline]; Line (T "deep") (T " ") r_items [newline]].
Lemma fodo_ok : forall dt qt, In (dt, qt) [("drift", "quadrupole"); ("drif", "quad")]%string -> lattice_ok (fodo dt qt).
Proof.
  assert (Ln : forall w items, In (w, items) [("cell"%string, cell_of); ("flat"%string, q_items); ("deep"%string, r_items)] -> entry_ok (Line (T w) (T " ") items [newline])).
  { intros w items I. destruct I as [I|[I|[I|[]]]]; injection I as <- <-;
    (split; [apply lower_by; vm_compute; reflexivity|]; split; [apply identifier_by; [discriminate|reflexivity]|]; split; [apply blank_by; reflexivity|]; split; [apply blank_by; reflexivity|];
     split; [discriminate|]; split; [|left; reflexivity]; repeat (constructor; [apply name_by; (discriminate || reflexivity)|]); constructor). }
  assert (Df : forall n ty, In (n, ty) [("d", "drift"); ("q", "quadrupole"); ("d", "drif"); ("q", "quad")]%string -> entry_ok (Define (typed n ty))).
  { intros n ty I. destruct I as [I|[I|[I|[I|[]]]]]; injection I as <- <-;
    (split; [apply lower_by; vm_compute; reflexivity|]; split; [|intros p []];
      split; [apply identifier_by; [discriminate|reflexivity]|]; split; [apply blank_by; reflexivity|]; split; [apply blank_by; reflexivity|];
      split; [apply identifier_by; [discriminate|reflexivity]|]; split; [constructor|]; split; [constructor|left; reflexivity]). }
  intros dt qt I. split.
  - destruct I as [I|[I|[]]]; injection I as <- <-;
    (constructor; [apply Df; cbn; tauto|]; constructor; [apply Df; cbn; tauto|]; repeat (constructor; [apply Ln; cbn; tauto|]); constructor).
  - cbn. repeat constructor; cbn; intuition discriminate.
Qed.
Lemma fodo_flat : forall dt qt, unfolds (fodo dt qt) q_items [T "d"; T "q"; T "d"] [].
Proof.
  intros dt qt. apply (unfolds_element _ (name "d") (typed "d" dt)); [left; reflexivity|reflexivity|]. apply (unfolds_element _ (name "q") (typed "q" qt)); [right; left; reflexivity|reflexivity|].
  apply (unfolds_element _ (name "d") (typed "d" dt)); [left; reflexivity|reflexivity|constructor].
Qed.
Lemma fodo_deep : forall dt qt, unfolds (fodo dt qt) r_items [T "d"; T "q"; T "d"] [T "cell"].
Proof.
  intros dt qt. apply (unfolds_element _ (name "d") (typed "d" dt)); [left; reflexivity|reflexivity|].
  apply (unfolds_line (fodo dt qt) (name "cell") (T "cell") (T " ") cell_of [newline] [] [T "q"; T "d"] [] [] []); [cbn; tauto|reflexivity|reflexivity| |constructor].
  apply (unfolds_element _ (name "q") (typed "q" qt)); [right; left; reflexivity|reflexivity|]. apply (unfolds_element _ (name "d") (typed "d" dt)); [left; reflexivity|reflexivity|constructor].
Qed.
Lemma fodo_types : forall dt qt, Forall2 (defined_as (fodo dt qt)) [T "d"; T "q"; T "d"] [str (T dt); str (T qt); str (T dt)].
Proof.
  intros dt qt. assert (D : defined_as (fodo dt qt) (T "d") (str (T dt))) by (exists (typed "d" dt); split; [left; reflexivity|split; reflexivity]).
  assert (Q : defined_as (fodo dt qt) (T "q") (str (T qt))) by (exists (typed "q" qt); split; [right; left; reflexivity|split; reflexivity]). repeat constructor; assumption.
Qed.
Example C140_applies : forall show,
  (exists k h M ms, (forall fuel, (k <= fuel)%nat -> import fuel show (map entry_text (fodo "drift" "quadrupole")) (T "flat") = (h, Ok tt)) /\
    generate_matrix h 0 = Ok M /\ Forall2 type_matrix ["drift"; "quadrupole"; "drift"]%string ms /\ forall v i j, (i < 4)%nat -> (j < 4)%nat -> M v i j = product (map (fun m => m v) ms) i j) /\
  (exists k h, (forall fuel, (k <= fuel)%nat -> import fuel show (map entry_text (fodo "drift" "quadrupole")) (T "deep") = (h, Ok tt)) /\ generate_matrix h 0 = Err AttributeError) /\
  (exists k h, (forall fuel, (k <= fuel)%nat -> import fuel show (map entry_text (fodo "drif" "quad")) (T "flat") = (h, Ok tt)) /\
    (generate_matrix h 0 = Err KeyError \/ generate_matrix h 0 = Err AttributeError)) /\
  (exists enough, forall limit, (enough <= limit)%nat -> exists h a, Json_Model.parse_json limit Towarp_Props.ring "CELL" = Ok (h, a) /\
    (generate_matrix h a = Err KeyError \/ generate_matrix h a = Err AttributeError)).
Proof.
  intros show.
  assert (T1 : forall ty, In ty [str (T "drift"); str (T "quadrupole"); str (T "drift")] -> has_matrix ty) by (intros ty [<-|[<-|[<-|[]]]]; [right|left|right]; reflexivity).
  assert (T2 : forall ty, In ty [str (T "drif"); str (T "quad"); str (T "drif")] -> ~ has_matrix ty) by (intros ty [<-|[<-|[<-|[]]]] [X|X]; discriminate).
  split; [|split; [|split]].
  - apply (C140_flat_partial (fodo "drift" "quadrupole") (T "flat") (T " ") q_items [newline] [T "d"; T "q"; T "d"] _ (T "flat") show (fodo_ok "drift" "quadrupole" ltac:(cbn; tauto)));
      [cbn; tauto|apply fodo_flat|reflexivity|apply fodo_types|exact T1|discriminate].
  - apply (C140_lines_refuted (fodo "drift" "quadrupole") (T "deep") (T " ") r_items [newline] [T "d"; T "q"; T "d"] [T "cell"] _ (T "deep") show (fodo_ok "drift" "quadrupole" ltac:(cbn; tauto)) ltac:(cbn; tauto) (fodo_deep _ _) ltac:(repeat constructor; intros []) eq_refl (fodo_types _ _) T1).
    discriminate.
  - apply (C140_types_refuted (fodo "drif" "quad") (T "flat") (T " ") q_items [newline] [T "d"; T "q"; T "d"] [] _ (T "flat") show (fodo_ok "drif" "quad" ltac:(cbn; tauto)) ltac:(cbn; tauto) (fodo_flat _ _) ltac:(constructor) eq_refl (fodo_types _ _) T2).
    discriminate.
  - destruct Towarp_Props.ring_ok as (O & Fk & Nm & Bf).
    apply (C140_records_refuted Towarp_Props.ring (Json_Props.ln 20 "CELL" [1; 2; 3]%Z) [Towarp_Props.q1; Towarp_Props.d1; Towarp_Props.b1] O Fk Nm Bf).
    + cbn. tauto.
    + repeat (apply Json_Spec.ex_elem; [cbn; tauto|reflexivity|]). constructor.
    + discriminate.
    + intros e [<-|[<-|[<-|[]]]] [X|X]; vm_compute in X; discriminate.
Qed.

(** * Claim C141: saving and loading an imported lattice. *)
From Coq Require Import List Reals Bool Arith String Ascii ZArith Lia Lra.
From Verif Require Import PyBase PyDict PyText Line_Model Line_Spec Line_Proofs Line_Proofs2 Lte_Model Lte_Spec Lte_Proofs Lte_Proofs2 Lte_Proofs3 Lte_Proofs4 Lte_Proofs5 Lte_Proofs6 Lte_Props Ltelen_Props Immat_Props.
Import ListNotations.
Open Scope R_scope.

(* ------------------------------------------------------------------ *)
(** ** Specification *)
(** A beamline has the elements that the names stand for in the file, in order. *)
Definition has_elements (es : list entry) (h : heap) (a : nat) (els : list text) : Prop :=
  exists addrs, get_beamline_elements h a = Ok addrs /\ Forall2 (fun e n => exists el, nth_error (elems h) e = Some el /\ is_element es n el) addrs els.
(** Saved, and loaded into a new beamline *)
Definition saved_and_loaded (h : heap) (name : option string) (h' : heap) (b : nat) : Prop :=
  exists data, save_beamline h 0 = Ok data /\ b = snd (new_line h name) /\ load_beamline (fst (new_line h name)) b data = (h', Ok tt).
(** No parameter of the elements is called name or type. *)
Definition free_names (es : list entry) (els : list text) : Prop :=
  forall d p, In (Define d) es -> In (d_name d) els -> In p (d_params d) -> p_key p <> T "name" /\ p_key p <> T "type".

(* ------------------------------------------------------------------ *)
(** ** Proofs *)
Fixpoint leaves (t : tree) : list (string * string * params) :=
  match t with TE n ty ps => [(n, ty, ps)] | TL l => flat_map leaves l end.
Definition shown (h : heap) (e : nat) (x : string * string * params) : Prop :=
  exists el, nth_error (elems h) e = Some el /\ x = (e_name el, e_type el, e_params el).
Lemma looks_leaves : forall h s t, looks h s t -> forall l, expands h s l -> Forall2 (shown h) l (flat_map leaves t).
Proof.
  intros h s t H. induction H as [|e el r t He H IH|b s r t1 t2 Sb H1 IH1 H2 IH2]; intros l X; inversion X; subst; cbn [flat_map leaves].
  - constructor.
  - cbn [app]. constructor; [exists el; split; [exact He|reflexivity]|auto].
  - match goal with S : sequence h b = Some _ |- _ => rewrite Sb in S; injection S as <- end. apply Forall2_app; auto.
Qed.
Lemma same_shown : forall es h h' l l' xs els, Forall2 (shown h) l xs -> Forall2 (shown h') l' xs ->
  Forall2 (fun e n => exists el, nth_error (elems h) e = Some el /\ is_element es n el) l els -> Forall2 (fun e n => exists el, nth_error (elems h') e = Some el /\ is_element es n el) l' els.
Proof.
  intros es h h' l l' xs els A. revert l' els. induction A as [|e x l xs (el & He & ->) A IH]; intros l' els B F; inversion B as [|e' ? l'' ? (el' & He' & Q) B']; subst; inversion F as [|? n ? els' (el2 & H2 & Is) F']; subst; constructor.
  - exists el'. split; [exact He'|]. rewrite He in H2. injection H2 as <-. destruct Is as (d & I & N & N1 & T1 & P1). injection Q as Q1 Q2 Q3. exists d. repeat split; congruence.
  - apply IH; assumption.
Qed.
Lemma one_line : forall s b, rls s = [b] -> exists A C, s = map RE A ++ [RL b] ++ map RE C.
Proof.
  induction s as [|[e|c] s IH]; intros b H; cbn in H; [discriminate| |].
  - destruct (IH b H) as (A & C & ->). exists (e :: A), C. reflexivity.
  - injection H as -> H. exists [], (res_ s). cbn. f_equal. now apply only_elements.
Qed.
Lemma elements_there : forall (h : heap) (P : element -> Prop) l, (forall e, In e l -> exists el, element_at h e = Some el /\ P el) -> exists els, Forall2 (at_ h) l els /\ forall x, In x els -> P x.
Proof.
  intros h P. induction l as [|e l IH]; intros H; [exists []; split; [constructor|intros x []]|]. destruct (H e (or_introl eq_refl)) as (el & He & Pe).
  destruct IH as (els & F & Q); [intros x I; apply H; now right|]. exists (el :: els). split; [constructor; assumption|]. intros x [<-|I]; auto.
Qed.

Lemma left_in : forall {A B} (R : A -> B -> Prop) l m, Forall2 R l m -> forall x, In x l -> exists y, In y m /\ R x y.
Proof. intros A B R l m F. induction F as [|a b l m H F IH]; intros x I; [contradiction|]. destruct I as [<-|I]; [exists b; split; [now left|exact H]|]. destruct (IH x I) as (y & J & K). exists y. split; [now right|exact K]. Qed.

(* ------------------------------------------------------------------ *)
(** ** Theorems *)
(** Full statement: every imported lattice is the same after saving and loading.  Missing: two or
    more lines in the line (refuted below), parameters called name or type (refuted in C39).
    Proved: at most one line in the line. *)
Theorem C141_same_partial : forall es sel before items tail els uses beamline_name show name,
  lattice_ok es -> In (Line sel before items tail) es -> unfolds es items els uses -> (List.length uses <= 1)%nat -> lowert beamline_name = bare sel -> free_names es els ->
  exists k h h' b, (forall fuel, (k <= fuel)%nat -> import fuel show (map entry_text es) beamline_name = (h, Ok tt)) /\
    has_elements es h 0 els /\ saved_and_loaded h name h' b /\ has_elements es h' b els.
Proof.
  intros es sel before items tail els uses bn show name L I U Ul E Fr.
  assert (ND : NoDup uses) by (destruct uses as [|u [|v uses]]; [constructor|repeat constructor; intros []|cbn in Ul; lia]).
  destruct (import_ok es sel before items tail els uses bn show L I U ND E) as (k & h & R & G). destruct (good_flat _ _ _ _ _ G) as (addrs & G1 & F).
  destruct G as ((l0 & subs & Ln & Fs & Rl & _ & El & Fl & _) & W & C & Ty). rewrite Ln in C. cbn in C. injection C as C.
  assert (Hl : nth_error (lines h) 0 = Some l0) by (rewrite Ln; reflexivity). destruct (gbe_ok h 0 l0 W Hl) as (addrs' & G2 & X). rewrite G1 in G2. injection G2 as <-.
  set (P := fun el => exists n, In n els /\ is_element es n el).
  assert (PA : forall e, In e addrs -> exists el, element_at h e = Some el /\ P el).
  { intros e J. destruct (left_in _ _ _ F e J) as (n & Jn & el & He & Is). exists el. split; [exact He|]. now exists n. }
  assert (Cons : forall xs, (forall x, In x xs -> P x) -> consistent xs).
  { intros xs Px x y Ix Iy Q. destruct (Px x Ix) as (n & _ & d & I1 & N1 & M1 & T1 & P1). destruct (Px y Iy) as (m & _ & d' & I2 & N2 & M2 & T2 & P2).
    assert (n = m) by (apply str_inj; congruence). subst m. assert (Dd : d = d') by (apply (defined_once es d d' L I1 I2); congruence). subst d'. split; congruence. }
  assert (Pl : forall x, P x -> plain x).
  { intros x (n & In_ & d & Id & Nd & _ & _ & Px) key v Iv. rewrite Px in Iv. unfold params_of in Iv. apply in_map_iff in Iv. destruct Iv as (p & Q & Ip). injection Q as <- _.
    assert (Jd : In (d_name d) els) by (now rewrite Nd). destruct (Fr d p Id Jd Ip) as [K1 K2]. destruct L as [Lo _]. rewrite Forall_forall in Lo. pose proof (Lo _ Id) as (_ & _ & K3). specialize (K3 p Ip).
    assert (Z : forall w, str (p_key p) = w -> p_key p = T w) by (intros w <-; unfold str, T; now rewrite list_ascii_of_string_of_list_ascii).
    intros [Q|[Q|[Q|[Q|[Q|[]]]]]]; symmetry in Q; apply Z in Q; try contradiction; apply K3; rewrite Q; cbn; tauto. }
  assert (Sh : exists A subl Cc elsA elsB elsC, l_seq l0 = map RE A ++ subl ++ map RE Cc /\
    (subl = [] /\ elsB = [] \/ exists b B, subl = [RL b] /\ sequence h b = Some (map RE B) /\ Forall2 (at_ h) B elsB) /\
    Forall2 (at_ h) A elsA /\ Forall2 (at_ h) Cc elsC /\ forall x, In x (elsA ++ elsB ++ elsC) -> P x).
  { assert (All : forall s l, expands h s l -> forall e, In (RE e) s -> In e l).
    { intros s l Y. induction Y as [|e r l Y IH|b s r l1 l2 Sb Y1 IH1 Y2 IH2]; intros e' J; [contradiction| |].
      - destruct J as [J|J]; [injection J as <-; now left|right; auto].
      - destruct J as [J|J]; [discriminate|]. apply in_app_iff. right. auto. }
    assert (Sub : forall s l, expands h s l -> forall b q, In (RL b) s -> sequence h b = Some q -> forall e, In (RE e) q -> In e l).
    { intros s l Y. induction Y as [|e r l Y IH|b s r l1 l2 Sb Y1 IH1 Y2 IH2]; intros b' q J Sq e' Je; [contradiction| |].
      - destruct J as [J|J]; [discriminate|right; eauto].
      - apply in_app_iff. destruct J as [J|J]; [injection J as <-|right; eauto]. left. rewrite Sb in Sq. injection Sq as <-. exact (All _ _ Y1 e' Je). }
    destruct subs as [|l1 [|l2 subs]]; [| |cbn in C; lia].
    - cbn in Rl. pose proof (only_elements _ Rl) as Sq. destruct (elements_there h P (res_ (l_seq l0))) as (elsA & FA & QA).
      { intros e J. apply PA. apply (All _ _ X). rewrite Sq. now apply in_map. }
      exists (res_ (l_seq l0)), [], [], elsA, [], []. split; [cbn; now rewrite app_nil_r|]. split; [left; split; reflexivity|]. split; [exact FA|]. split; [constructor|]. intros x J. rewrite !app_nil_r in J. auto.
    - cbn in Rl. destruct (one_line _ _ Rl) as (A & Cc & Sq). pose proof (only_elements _ (Fs l1 (or_introl eq_refl))) as Sq1.
      assert (S1 : sequence h 1 = Some (map RE (res_ (l_seq l1)))) by (unfold sequence; rewrite Ln; cbn [nth_error]; now rewrite <- Sq1).
      destruct (elements_there h P A) as (elsA & FA & QA). { intros e J. apply PA. apply (All _ _ X). rewrite Sq. apply in_app_iff. left. now apply in_map. }
      destruct (elements_there h P Cc) as (elsC & FC & QC). { intros e J. apply PA. apply (All _ _ X). rewrite Sq. apply in_app_iff. right. right. now apply in_map. }
      destruct (elements_there h P (res_ (l_seq l1))) as (elsB & FB & QB).
      { intros e J. apply PA. apply (Sub _ _ X 1%nat (map RE (res_ (l_seq l1)))); [rewrite Sq; apply in_app_iff; right; now left|exact S1|now apply in_map]. }
      exists A, [RL 1], Cc, elsA, elsB, elsC. split; [exact Sq|]. split; [right; exists 1%nat, (res_ (l_seq l1)); auto|]. split; [exact FA|]. split; [exact FC|].
      intros x J. apply in_app_iff in J. destruct J as [J|J]; [auto|]. apply in_app_iff in J. destruct J; auto. }
  destruct Sh as (A & subl & Cc & elsA & elsB & elsC & Sq & Hsub & FA & FC & PE).
  destruct (roundtrip h 0 A Cc subl elsA elsB elsC name W Ty) as (data & h' & s & t & Sv & Ld & Sh & Lk & Lk'); auto.
  - unfold sequence. rewrite Hl. cbn [option_map]. now rewrite Sq.
  - apply Cons. intros x J. apply PE. apply in_app_iff in J. rewrite !in_app_iff. tauto.
  - apply Cons. intros x J. apply PE. rewrite !in_app_iff. tauto.
  - exists k, h, h', (snd (new_line h name)). split; [exact R|]. split; [exists addrs; auto|]. split; [exists data; auto|].
    assert (W' : wf h').
    { unfold load_beamline in Ld. destruct (nth_error (lines (fst (new_line h name))) (snd (new_line h name))) as [ll|]; [|discriminate].
      pose proof (wf_new_line h name W) as W1. destruct (l_seq ll).
      - pose proof (wf_creates data (fst (new_line h name)) (snd (new_line h name)) (snd (new_line h name)) W1) as W2. rewrite Ld in W2. exact W2.
      - injection Ld as <-. exact W1. }
    unfold sequence in Sh. destruct (nth_error (lines h') (snd (new_line h name))) as [lb|] eqn:Hb; [|discriminate]. cbn [option_map] in Sh. injection Sh as Sb.
    destruct (gbe_ok h' _ lb W' Hb) as (addrs2 & G2 & X2). exists addrs2. split; [exact G2|]. rewrite Sb in X2. rewrite Sq in X.
    exact (same_shown es h h' addrs addrs2 (flat_map leaves t) els (looks_leaves h _ t Lk _ X) (looks_leaves h' s t Lk' _ X2) F).
Qed.
Print Assumptions C141_same_partial.

(** Two lines in a line: the elements come twice. *)
Definition names_at (h : heap) (a : nat) : option (list string) :=
  match get_beamline_elements h a with Ok l => Some (flat_map (fun e => match nth_error (elems h) e with Some x => [e_name x] | None => [] end) l) | _ => None end.
Theorem C141_two_lines_refuted : exists k h h' b,
  (forall fuel, (k <= fuel)%nat -> import fuel no_show (file_of ["d: drift"; "q: quad"; "one: line=(d)"; "two: line=(q)"; "main: line=(one,two)"]%string) (T "main") = (h, Ok tt)) /\
  names_at h 0 = Some ["d"; "q"]%string /\ saved_and_loaded h None h' b /\ names_at h' b = Some ["d"; "q"; "d"; "q"]%string.
Proof.
  exists 30%nat. do 3 eexists. split; [intros fuel H; replace fuel with (30 + (fuel - 30))%nat by lia; vm_compute; reflexivity|]. split; [reflexivity|].
  split; [eexists; split; [reflexivity|split; reflexivity]|reflexivity].
Qed.
Print Assumptions C141_two_lines_refuted.

(** A case: the lines of C140. *)
Example C141_applies : forall show name,
  (exists k h h' b, (forall fuel, (k <= fuel)%nat -> import fuel show (map entry_text (fodo "drif" "quad")) (T "deep") = (h, Ok tt)) /\
    has_elements (fodo "drif" "quad") h 0 [T "d"; T "q"; T "d"] /\ saved_and_loaded h name h' b /\ has_elements (fodo "drif" "quad") h' b [T "d"; T "q"; T "d"]) /\
  (exists k h h' b, (forall fuel, (k <= fuel)%nat -> import fuel show (map entry_text (fodo "drif" "quad")) (T "flat") = (h, Ok tt)) /\
    has_elements (fodo "drif" "quad") h 0 [T "d"; T "q"; T "d"] /\ saved_and_loaded h name h' b /\ has_elements (fodo "drif" "quad") h' b [T "d"; T "q"; T "d"]).
Proof.
  intros show name.
  assert (Fr : free_names (fodo "drif" "quad") [T "d"; T "q"; T "d"]) by (intros d p [I|[I|[I|[I|[I|[]]]]]] _ J; try discriminate; injection I as <-; destruct J).
  split.
  - apply (C141_same_partial (fodo "drif" "quad") (T "deep") (T " ") r_items [newline] [T "d"; T "q"; T "d"] [T "cell"] (T "deep") show name (fodo_ok "drif" "quad" ltac:(cbn; tauto)) ltac:(cbn; tauto) (fodo_deep _ _)); [cbn; lia|reflexivity|exact Fr].
  - apply (C141_same_partial (fodo "drif" "quad") (T "flat") (T " ") q_items [newline] [T "d"; T "q"; T "d"] [] (T "flat") show name (fodo_ok "drif" "quad" ltac:(cbn; tauto)) ltac:(cbn; tauto) (fodo_flat _ _)); [cbn; lia|reflexivity|exact Fr].
Qed.

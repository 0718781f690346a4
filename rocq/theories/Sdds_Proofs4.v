(** Lemmas for the SDDS claims: all the pages of a binary file. *)
From Coq Require Import List Bool Arith Ascii String ZArith Reals Lia.
From Verif Require Import PyBase PyText Lte_Spec Sdds_Model Sdds_Spec Sdds_Proofs Sdds_Proofs2 Sdds_Proofs3.
Import ListNotations.
Open Scope Z_scope.

(** the pages before the last one asked for *)
Definition stop (sel : option (list Z)) (i : Z) : bool := match sel with Some (x :: l) => fold_right Z.max x l <? i | _ => false end.
Fixpoint upto (sel : option (list Z)) (i : Z) (pgs : list page) : list page :=
  match pgs with [] => [] | pg :: r => if stop sel i then [] else pg :: upto sel (i + 1) r end.
Definition scanned (r : reader) (sel : option (list Z)) (i : Z) (pgs : list page) : list page :=
  if r_varlen r then upto sel i pgs else chosen sel i pgs.

Lemma max_ge : forall l x y, In y (x :: l) -> y <= fold_right Z.max x l.
Proof.
  induction l as [|z l IH]; intros x y [->|I]; cbn in *; try contradiction; try lia.
  - specialize (IH y y (or_introl eq_refl)). lia.
  - destruct I as [->|I]; [lia|]. specialize (IH x y (or_intror I)). lia.
Qed.
Lemma stop_asked : forall sel i j, stop sel i = true -> i <= j -> asked sel j = false.
Proof.
  intros [[|x l]|] i j S L; try discriminate. cbn [stop] in S. apply Z.ltb_lt in S. cbn [asked].
  apply not_true_is_false. intros H. apply existsb_exists in H. destruct H as [y [I E]]. apply Z.eqb_eq in E. subst y.
  apply max_ge in I. lia.
Qed.
Lemma stop_chosen : forall sel pgs i j, stop sel i = true -> i <= j -> chosen sel j pgs = [].
Proof.
  induction pgs as [|pg pgs IH]; intros i j S L; [reflexivity|]. cbn [chosen]. rewrite (stop_asked sel i j) by assumption.
  apply (IH i); [assumption|lia].
Qed.
Lemma past_stop : forall sel i, sel <> Some [] -> past sel i = Ok (stop sel i).
Proof. intros [[|x l]|] i N; try reflexivity. contradiction. Qed.

Definition shown (src : source) (pgs : list page) : Prop := buffered src = true \/ Forall seen pgs.

Lemma end_of_nothing : forall src position, ahead src position [] -> file_end src position = true.
Proof.
  intros [f|ls|f ptr] position A; cbn in *; [|contradiction|].
  - destruct A as [B E]. apply (f_equal (@List.length ascii)) in E. rewrite skipn_length in E. cbn in E. apply Z.leb_le. lia.
  - destruct A as [_ [_ ->]]. reflexivity.
Qed.
Lemma flines_head : forall c s, exists l ls, flines (c :: s) = (c :: l) :: ls.
Proof. intros c s. cbn [flines]. destruct (Ascii.eqb c newline); [eauto|]. destruct (flines s); eauto. Qed.
Lemma end_before_page : forall ps cs pg src position s, ahead src position (bytes ps cs pg ++ s) -> buffered src = true \/ seen pg ->
  file_end src position = false.
Proof.
  intros ps cs pg src position s A H. unfold bytes, page_bytes in A. unfold seen in H.
  set (n := Z.of_nat (List.length (pg_rows pg))) in *. remember (little 4 n) as b. destruct b as [|b0 [|b1 b]]; try discriminate.
  rewrite <- !app_assoc in A. cbn [app] in A.
  destruct src as [f|ls|f ptr]; cbn in *; [|contradiction|].
  - destruct A as [B E]. apply (f_equal (@List.length ascii)) in E. rewrite skipn_length in E. cbn in E. apply Z.leb_gt. lia.
  - destruct A as [_ [_ ->]]. destruct H as [H|H]; [discriminate|].
    match goal with |- context [flines (?c :: ?t)] => destruct (flines_head c t) as [l [ls ->]] end. cbn. rewrite H. reflexivity.
Qed.


Lemma loop_pages : forall r ps cs sel, set_up r ps cs -> names_ok ps cs -> sel <> Some [] ->
  forall pgs fuel i g, Forall (sound (r_max r) ps cs) pgs -> ahead (g_source g) (g_position g) (List.concat (map (bytes ps cs) pgs)) ->
  shown (g_source g) pgs -> (sel = None \/ r_varlen r = true \/ buffered (g_source g) = true) -> (List.length pgs < fuel)%nat ->
  exists g', page_loop fuel r sel i g = Some (g', Ok tt) /\
    g_pages g' = g_pages g ++ param_pages ps (chosen sel i pgs) /\ g_rows g' = g_rows g ++ col_pages cs (scanned r sel i pgs).
Proof.
  intros r ps cs sel SU NO NE. induction pgs as [|pg pgs IH]; intros fuel i g SO A SH OK FU; (destruct fuel as [|fuel]; [cbn in FU; lia|]).
  - cbn [map List.concat] in A. assert (X : page_turn r sel i g = (g, Ok false)).
    { unfold page_turn. rewrite past_stop by assumption. destruct (stop sel i); [reflexivity|]. now rewrite (end_of_nothing _ _ A). }
    exists g. cbn [page_loop]. rewrite X. unfold scanned, param_pages, col_pages. cbn. destruct (r_varlen r); cbn; rewrite !app_nil_r; auto.
  - destruct (stop sel i) eqn:ST.
    + exists g. assert (X : page_turn r sel i g = (g, Ok false)) by (unfold page_turn; rewrite past_stop, ST by assumption; reflexivity).
      cbn [page_loop]. rewrite X. rewrite (stop_chosen sel (pg :: pgs) i i) by (assumption || lia).
      assert (U : scanned r sel i (pg :: pgs) = []).
      { unfold scanned. rewrite (stop_chosen sel (pg :: pgs) i i) by (assumption || lia). cbn [upto]. rewrite ST. now destruct (r_varlen r). }
      rewrite U. cbn. rewrite !app_nil_r. auto.
    + cbn [map List.concat] in A. inversion SO as [|? ? S1 S2]; subst.
      assert (FE : file_end (g_source g) (g_position g) = false).
      { eapply end_before_page; [exact A|]. destruct SH as [H|H]; [now left|right; now inversion H]. }
      assert (OK' : wanted sel i = true \/ r_varlen r = true \/ buffered (g_source g) = true).
      { destruct OK as [-> | OK]; [now left|now right]. }
      assert (PA : past sel i = Ok false) by (rewrite past_stop, ST by assumption; reflexivity).
      destruct (turn_page r ps cs pg sel i g (List.concat (map (bytes ps cs) pgs)) SU NO S1 A FE PA OK') as [g1 [E1 [P1 [R1 [A1 B1]]]]].
      destruct (IH fuel (i + 1) g1 S2 A1) as [g2 [E2 [P2 R2]]].
      { destruct SH as [H|H]; [left; congruence|right; now inversion H]. }
      { rewrite B1. assumption. }
      { cbn in FU; lia. }
      exists g2. cbn [page_loop]. rewrite E1. split; [assumption|]. rewrite P2, R2, P1, R1. change (wanted sel i) with (asked sel i).
      split.
      * cbn [chosen]. unfold add_if. destruct (asked sel i); [|reflexivity]. unfold param_pages. cbn [map]. now rewrite <- app_assoc.
      * unfold scanned, taken. cbn [chosen upto]. rewrite ST. change (wanted sel i) with (asked sel i). unfold add_if, col_pages.
        destruct (r_varlen r).
        -- rewrite orb_true_r. cbn [andb filter]. destruct (has_rows cs pg); [|reflexivity]. cbn [map]. now rewrite <- app_assoc.
        -- rewrite orb_false_r. destruct (asked sel i); [|reflexivity]. cbn [andb filter]. destruct (has_rows cs pg); [|reflexivity]. cbn [map]. now rewrite <- app_assoc.
Qed.

(* ------------------------------------------------------------------ *)
(** read() on an opened reader. What was read before stays in the lists. *)
Lemma concat_same : forall n l, Forall (fun x => rows_of x = Some n) l -> concat_pages l = Ok l.
Proof.
  intros n [|x l] F; [reflexivity|]. cbn. inversion F as [|? ? E F']; subst.
  replace (forallb (same_rows x) l) with true; [reflexivity|]. symmetry. apply forallb_forall. intros y I. rewrite Forall_forall in F'.
  unfold same_rows. rewrite E, (F' y I). apply Nat.eqb_refl.
Qed.

Definition start (r : reader) : Z := if r_buffer r then if r_ascii r then Z.of_nat (r_count r) else r_pointer r else 0.
Lemma start_ahead : forall r ps cs d, set_up r ps cs -> skipn (Z.to_nat (r_pointer r)) (r_file r) = d -> 0 <= r_pointer r <= Z.of_nat (List.length (r_file r)) ->
  ahead (source_of r) (start r) d /\ buffered (source_of r) = r_buffer r.
Proof.
  intros r ps cs d SU E B. unfold source_of, start. rewrite (su_ascii _ _ _ SU). destruct (r_buffer r); cbn; auto.
Qed.

Lemma read_lists : forall r ps cs sel pgs fuel, set_up r ps cs -> names_ok ps cs -> sel <> Some [] ->
  0 <= r_pointer r <= Z.of_nat (List.length (r_file r)) ->
  skipn (Z.to_nat (r_pointer r)) (r_file r) = List.concat (map (bytes ps cs) pgs) -> Forall (sound (r_max r) ps cs) pgs ->
  (r_buffer r = true \/ Forall seen pgs) -> (sel = None \/ r_varlen r = true \/ r_buffer r = true) -> (List.length pgs < fuel)%nat ->
  exists g', page_loop fuel r sel 0 {| g_pages := r_pages r; g_rows := r_rows r; g_source := source_of r; g_position := start r |} = Some (g', Ok tt) /\
    g_pages g' = r_pages r ++ param_pages ps (chosen sel 0 pgs) /\ g_rows g' = r_rows r ++ col_pages cs (scanned r sel 0 pgs).
Proof.
  intros r ps cs sel pgs fuel SU NO NE B E SO SH OK FU. destruct (start_ahead r ps cs _ SU E B) as [A BU].
  apply (loop_pages r ps cs sel SU NO NE pgs fuel 0 {| g_pages := r_pages r; g_rows := r_rows r; g_source := source_of r; g_position := start r |});
    cbn [g_source g_position]; auto; unfold shown; rewrite BU; auto.
Qed.

Lemma chosen_in : forall sel pgs i pg, In pg (chosen sel i pgs) -> In pg pgs.
Proof. induction pgs as [|q pgs IH]; intros i pg I; [contradiction|]. cbn in I. destruct (asked sel i); [destruct I as [->|I]|]; [now left| |]; right; eapply IH; eassumption. Qed.
Lemma upto_in : forall sel pgs i pg, In pg (upto sel i pgs) -> In pg pgs.
Proof. induction pgs as [|q pgs IH]; intros i pg I; [contradiction|]. cbn in I. destruct (stop sel i); [contradiction|]. destruct I as [->|I]; [now left|right; eapply IH; eassumption]. Qed.
Lemma chosen_all : forall pgs i, chosen None i pgs = pgs.
Proof. induction pgs as [|q pgs IH]; intros i; [reflexivity|]. cbn. now rewrite IH. Qed.
Lemma upto_all : forall pgs i, upto None i pgs = pgs.
Proof. induction pgs as [|q pgs IH]; intros i; [reflexivity|]. cbn. now rewrite IH. Qed.
Lemma scanned_all : forall r pgs i, scanned r None i pgs = pgs.
Proof. intros. unfold scanned. rewrite chosen_all, upto_all. now destruct (r_varlen r). Qed.

(** a fresh reader *)
Lemma read_pages : forall r ps cs sel pgs fuel n, set_up r ps cs -> names_ok ps cs -> sel <> Some [] ->
  0 <= r_pointer r <= Z.of_nat (List.length (r_file r)) ->
  skipn (Z.to_nat (r_pointer r)) (r_file r) = List.concat (map (bytes ps cs) pgs) -> Forall (sound (r_max r) ps cs) pgs ->
  (r_buffer r = true \/ Forall seen pgs) -> (sel = None \/ r_varlen r = true \/ r_buffer r = true) -> (List.length pgs < fuel)%nat ->
  r_pages r = [] -> r_rows r = [] -> Forall (fun pg => has_rows cs pg = true -> same_length n pg) pgs ->
  exists r', read fuel r sel = Some (r', Ok tt) /\
    r_parameters r' = Some (param_pages ps (chosen sel 0 pgs)) /\
    r_columns r' = match cs with [] => r_columns r | _ => Some (col_pages cs (scanned r sel 0 pgs)) end /\
    r_pages r' = param_pages ps (chosen sel 0 pgs) /\ r_rows r' = col_pages cs (scanned r sel 0 pgs).
Proof.
  intros r ps cs sel pgs fuel n SU NO NE B E SO SH OK FU PG RW EQ.
  destruct (read_lists r ps cs sel pgs fuel SU NO NE B E SO SH OK FU) as [g' [L [P R]]].
  unfold read. fold (start r). rewrite L. rewrite PG in P. rewrite RW in R. cbn [app] in P, R.
  rewrite (concat_same 1) by (rewrite P; unfold param_pages; rewrite Forall_map; apply Forall_forall; intros; reflexivity).
  assert (CK : r_ckeys r = [] <-> cs = []).
  { rewrite (su_ckeys _ _ _ SU). destruct cs as [|c cs]; [tauto|]. split; [|discriminate]. destruct (groups_nonempty (map coded (c :: cs)) []) as [a [b ->]]. discriminate. }
  destruct (r_ckeys r) as [|k ks] eqn:KK.
  - destruct CK as [CK _]. rewrite (CK eq_refl) in *. eexists. split; [reflexivity|]. cbn. rewrite P, R. auto.
  - assert (C : cs <> []) by (intros C; apply CK in C; discriminate).
    rewrite (concat_same n).
    + eexists. split; [reflexivity|]. cbn. rewrite P, R. destruct cs; [contradiction|auto].
    + rewrite R. unfold col_pages. rewrite Forall_map. apply Forall_forall. intros pg I. apply filter_In in I. destruct I as [I H].
      assert (I' : In pg pgs) by (unfold scanned in I; destruct (r_varlen r); [eapply upto_in|eapply chosen_in]; eassumption).
      rewrite Forall_forall in EQ. cbn. now rewrite (EQ pg I' H).
Qed.

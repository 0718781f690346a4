(** Calls on beamlines that fail (C114): what they leave behind. [history ops] is the state after
    any sequence of calls; calls that raise leave what they had done. *)
From Coq Require Import List Reals Bool Arith String Ascii ZArith Lia Lra.
From Verif Require Import PyBase PyDict Line_Model Line_Spec Line_Proofs Line_Proofs2 Line_Motion Line_Props.
Import ListNotations.
Open Scope R_scope.

(** every beamline has the same sequence, and every element the same name, type and parameters *)
Definition looks_same (h h' : heap) : Prop :=
  (forall b s, sequence h b = Some s -> sequence h' b = Some s) /\
  (forall e el, element_at h e = Some el -> exists el', element_at h' e = Some el' /\ e_name el' = e_name el /\ e_type el' = e_type el /\ e_params el' = e_params el).

Lemma grows_content : forall h h', grows true h h' ->
  forall e el, element_at h e = Some el -> exists el', element_at h' e = Some el' /\ e_name el' = e_name el /\ e_type el' = e_type el /\ e_params el' = e_params el.
Proof. intros h h' [G _] e el H. destruct (G e el H) as (el' & A & B & C & D). exists el'. auto. Qed.
Lemma looks_same_refl : forall h, looks_same h h.
Proof. intros h. split; [auto|]. intros e el H. exists el. auto. Qed.
Lemma seq_some : forall h a l, nth_error (lines h) a = Some l -> sequence h a = Some (l_seq l).
Proof. intros h a l H. unfold sequence. now rewrite H. Qed.

(* ------------------------------------------------------------------ *)
(** Loading touches no beamline but its own and those it makes *)
Definition apart (n0 self : nat) (h h' : heap) : Prop :=
  (forall x, (x < n0)%nat -> x <> self -> sequence h' x = sequence h x) /\
  exists s', sequence h' self = Some s' /\ forall c, In (RL c) s' -> (n0 <= c)%nat.
Lemma apart_trans : forall n0 self h1 h2 h3, apart n0 self h1 h2 -> apart n0 self h2 h3 -> apart n0 self h1 h3.
Proof. intros n0 self h1 h2 h3 [A _] [B C]. split; [|exact C]. intros x L N. now rewrite B, A. Qed.

Lemma apart_add : forall h self b name ty ps s n0, wf h -> sequence h self = Some s -> (forall c, In (RL c) s -> (n0 <= c)%nat) -> b = self \/ (n0 <= b)%nat ->
  apart n0 self h (fst (add_element h b name ty ps false)).
Proof.
  intros h self b name ty ps s n0 W S C B. destruct (add_element h b name ty ps false) as [h' [[]|x|]] eqn:E; cbn [fst].
  - destruct (add_element_effect h b name ty ps false h' W E) as (l & s0 & b0 & e & el & Hl & Hs & Hb0 & Sq & _). destruct Hb0 as [[_ ->]|[X _]]; [|discriminate]. split.
    + intros x L N. rewrite Sq. destruct (Nat.eqb_spec b x) as [->|_]; [|reflexivity]. exfalso. lia.
    + rewrite Sq. destruct (b =? self)%nat.
      * rewrite S. eexists. split; [reflexivity|]. intros c I. apply in_app_or in I. destruct I as [I|[I|[]]]; [now apply C|discriminate].
      * exists s. auto.
  - pose proof (add_element_fail h b name ty ps false h' x E) as F. split; [intros y _ _; apply F|]. exists s. split; [now rewrite F|exact C].
  - unfold add_element in E. destruct (nth_error (lines h) b) as [l|]; [|discriminate]. unfold the_element in E. destruct (dget string_dec (l_elements l) name); [discriminate|].
    unfold new_element in E. destruct (existsb _ ps); discriminate.
Qed.
Lemma apart_line : forall h self s n0, wf h -> sequence h self = Some s -> (forall c, In (RL c) s -> (n0 <= c)%nat) -> (n0 <= List.length (lines h))%nat ->
  exists h' b ls, add_beamline h self None = (h', Ok tt) /\ apart n0 self h h' /\ nth_error (lines h') self = Some ls /\ last_ref ls = Some (RL b) /\ (n0 <= b)%nat.
Proof.
  intros h self s n0 W S C L. destruct (add_beamline_effect h self None W s S) as (h' & b & E & S' & _ & O & K). exists h', b.
  assert (NB : (n0 <= b)%nat).
  { destruct K as [[I _]|[N _]]; [now apply C|]. unfold sequence in N. destruct (nth_error (lines h) b) eqn:X; [discriminate|]. apply nth_error_None in X. lia. }
  destruct (seq_line _ _ _ S') as (ls & Hls & Q). exists ls. split; [exact E|]. split; [|split; [exact Hls|split; [|exact NB]]].
  - split; [intros x Lx N; apply O; [exact N|lia]|]. exists (s ++ [RL b]). split; [exact S'|]. intros c I. apply in_app_or in I. destruct I as [I|[I|[]]]; [now apply C|]. injection I as <-. exact NB.
  - unfold last_ref. rewrite Q, rev_app_distr. reflexivity.
Qed.
Lemma more_lines : forall h h', grows true h h' -> (List.length (lines h) <= List.length (lines h'))%nat.
Proof.
  intros h h' [_ G]. destruct (Nat.le_gt_cases (List.length (lines h)) (List.length (lines h'))) as [L|L]; [exact L|]. exfalso.
  destruct (nth_error (lines h) (List.length (lines h'))) as [l|] eqn:E; [|apply nth_error_None in E; lia]. destruct (G _ _ E) as (l' & X & _).
  assert (nth_error (lines h') (List.length (lines h')) <> None) by congruence. apply nth_error_Some in H. lia.
Qed.
Lemma apart_create : forall n h self b s n0, wf h -> sequence h self = Some s -> (forall c, In (RL c) s -> (n0 <= c)%nat) -> b = self \/ (n0 <= b)%nat -> (n0 <= List.length (lines h))%nat ->
  apart n0 self h (fst (create_node h self b n)).
Proof.
  induction n as [d|l IH] using node_ind2; intros h self b s n0 W S C B L; cbn [create_node].
  - assert (R : apart n0 self h h) by (split; [auto|]; exists s; auto).
    destruct (text_of (dget string_dec d "name"%string) KeyError); try exact R. destruct (text_of (dget string_dec d "type"%string) KeyError); try exact R. now apply (apart_add _ _ _ _ _ _ s).
  - destruct (apart_line h self s n0 W S C L) as (h1 & b' & ls & E & A & Hls & LR & NB). pose proof (wf_add_beamline h self None W) as W1. pose proof (more_lines _ _ (grows_add_beamline h self None)) as M1.
    rewrite E in *. cbn [fst] in W1, M1. rewrite Hls, LR, create_list_eq. eapply apart_trans; [exact A|]. destruct A as [_ (s1 & S1 & C1)]. assert (L1 : (n0 <= List.length (lines h1))%nat) by lia. clear - IH W1 S1 C1 NB L1.
    revert h1 s1 W1 S1 C1 L1. induction IH as [|n ns Hn Hns IH2]; intros h1 s1 W1 S1 C1 L1; cbn [create_nodes].
    + split; [auto|]. exists s1. auto.
    + pose proof (Hn h1 self b' s1 n0 W1 S1 C1 (or_intror NB) L1) as A. pose proof (wf_create n h1 self b' W1) as W2. pose proof (more_lines _ _ (grows_create n h1 self b')) as M2.
      destruct (create_node h1 self b' n) as [h2 [u|e|]]; cbn [fst] in *; [|exact A|exact A]. eapply apart_trans; [exact A|]. destruct A as [_ (s2 & S2 & C2)]. apply (IH2 h2 s2); auto. lia.
Qed.
Lemma apart_creates : forall ns h self b s n0, wf h -> sequence h self = Some s -> (forall c, In (RL c) s -> (n0 <= c)%nat) -> b = self \/ (n0 <= b)%nat -> (n0 <= List.length (lines h))%nat ->
  apart n0 self h (fst (create_nodes h self b ns)).
Proof.
  induction ns as [|n ns IH]; intros h self b s n0 W S C B L; cbn [create_nodes].
  - split; [auto|]. exists s. auto.
  - pose proof (apart_create n h self b s n0 W S C B L) as A. pose proof (wf_create n h self b W) as W2. pose proof (more_lines _ _ (grows_create n h self b)) as M2.
    destruct (create_node h self b n) as [h2 [u|e|]]; cbn [fst] in *; [|exact A|exact A]. eapply apart_trans; [exact A|]. destruct A as [_ (s2 & S2 & C2)]. apply (IH h2 self b s2); auto. lia.
Qed.

(* ================================================================== *)
(** C114 A call that fails changes nothing.
    Full statement: if a call on a beamline raises, all sequences and the names, types and parameters
    of all elements are as before. True of add_element, add_beamline and edits by position. An edit by
    name that meets a beamline of that name has edited the elements before it, and a load that raises
    keeps what it had loaded, after which a second load is passed over in silence (both refuted). *)
Theorem C114_unchanged_partial : forall ops o h' x, step (history ops) o = (h', Err x) ->
  match o with EditName _ _ _ _ | Load _ _ => True | _ => looks_same (history ops) h' end.
Proof.
  intros ops o h' x H. destruct o as [nm|a nm ty ps sub|a nm|a nm ps vs|a i ps vs|a d]; cbn [step] in H; try exact I.
  - discriminate.
  - split; [intros b s S; now rewrite (add_element_fail _ _ _ _ _ _ _ _ H)|]. apply grows_content. pose proof (grows_add_element (history ops) a nm ty ps sub) as G. now rewrite H in G.
  - unfold add_beamline in H. destruct (nth_error (lines (history ops)) a) as [l|]; [|injection H as <- _; apply looks_same_refl]. destruct (match dget name_dec (l_lines l) nm with Some b => _ | None => _ end). discriminate.
  - unfold edit_by_index in H. destruct (nth_error (lines (history ops)) a) as [l|]; [|injection H as <- _; apply looks_same_refl]. destruct (zip ps vs) as [|p pv]; [discriminate|].
    destruct (py_index (l_seq l) i) as [[e|b]|]; cbn [edit_positions] in H; [discriminate| |]; injection H as <- _; apply looks_same_refl.
Qed.
Print Assumptions C114_unchanged_partial.

(** The corrected call after a failed one need not do what it would have done alone: the failed one
    may have fixed what the name stands for. *)
Theorem C114_repeat_refuted : exists ops h1, add_element (history ops) 0 "q"%string "drift"%string [("L"%string, VNum 1)] true = (h1, Err IndexError) /\ looks_same (history ops) h1 /\
  (exists h2 el, add_element h1 0 "q"%string "quad"%string [("L"%string, VNum 2)] false = (h2, Ok tt) /\ sequence h2 0 = Some [RE 0] /\ element_at h2 0 = Some el /\
    e_type el = "drift"%string /\ agn_get (e_params el) "L" = Some (VNum 1)) /\
  (exists h2 el, add_element (history ops) 0 "q"%string "quad"%string [("L"%string, VNum 2)] false = (h2, Ok tt) /\ sequence h2 0 = Some [RE 0] /\ element_at h2 0 = Some el /\
    e_type el = "quad"%string /\ agn_get (e_params el) "L" = Some (VNum 2)).
Proof.
  exists [NewLine None]. eexists. split; [reflexivity|]. split.
  - split; [|intros [|e] el X; discriminate]. intros [|[|a]] s X; cbn in *; try exact X; discriminate.
  - split; do 2 eexists; repeat split; reflexivity.
Qed.
Print Assumptions C114_repeat_refuted.

(** What an edit by name leaves behind. *)
Lemma edit_app : forall xs ys h pv, edit_positions h pv (xs ++ ys) = match edit_positions h pv xs with (h1, Ok _) => edit_positions h1 pv ys | e => e end.
Proof.
  induction xs as [|[e|b] xs IH]; intros ys h pv; cbn [app edit_positions]; [reflexivity|apply IH|]. destruct pv; [apply IH|reflexivity].
Qed.
Theorem C114_edit_partial : forall ops a l before b lb after name ps vs, nth_error (lines (history ops)) a = Some l -> l_seq l = before ++ RL b :: after ->
  nth_error (lines (history ops)) b = Some lb -> l_name lb = Some name ->
  (forall c lc, In (RL c) before -> nth_error (lines (history ops)) c = Some lc -> l_name lc <> Some name) -> combine ps vs <> [] ->
  exists h', edit_by_name (history ops) a name ps vs = (h', Err AttributeError) /\ lines h' = lines (history ops) /\
    forall e el, element_at (history ops) e = Some el -> exists el', element_at h' e = Some el' /\
      (In (RE e) before /\ e_name el = name -> forall k o, last_value k (combine ps vs) o ->
         agn_get (e_params el') k = match o with Some v => Some v | None => agn_get (e_params el) k end) /\
      (~ (In (RE e) before /\ e_name el = name) -> el' = el).
Proof.
  intros ops a l before b lb after name ps vs Hl Hs Hb Hn N NE. unfold edit_by_name. rewrite Hl, zip_combine, Hs. set (h := history ops) in *. pose proof (wf_history ops) as [W K]. fold h in W, K.
  rewrite filter_app. cbn [filter ref_name]. rewrite Hb, Hn, String.eqb_refl, edit_app. set (f := filter _ before).
  assert (Inf : forall r, In r f <-> In r before /\ ref_name h r = Some name).
  { intros r. unfold f. rewrite filter_In. destruct (ref_name h r) as [n|]; [|split; intros [_ X]; discriminate].
    destruct (String.eqb_spec n name) as [->|Nn]; split; intros [A B]; try discriminate; split; auto; congruence. }
  destruct (edit_effect f h (combine ps vs)) as (h' & E & L & Len & X).
  { right. intros c I. apply Inf in I. destruct I as [I R]. destruct (W a l Hl) as (_ & W2 & _). destruct (W2 c) as (_ & lc & Hc & _); [rewrite Hs; apply in_or_app; now left|].
    cbn in R. rewrite Hc in R. exact (N c lc I Hc R). }
  exists h'. rewrite E. cbn [edit_positions]. destruct (combine ps vs) as [|p pv] eqn:CV; [contradiction|]. split; [reflexivity|]. split; [exact L|].
  intros e el He. destruct (X e el He) as (el' & He' & A & B). exists el'. split; [exact He'|].
  assert (InE : In (RE e) f <-> In (RE e) before /\ e_name el = name).
  { rewrite Inf. unfold ref_name, element_at in *. rewrite He. split; intros [P Q]; split; congruence. }
  split; [intros I; apply InE in I; destruct (A I) as (_ & _ & _ & P); exact P|]. intros I. apply B. intros J. apply I, InE, J.
Qed.
Print Assumptions C114_edit_partial.
Theorem C114_edit_refuted : exists ops a name h' e el el', edit_by_name (history ops) a name ["L"%string] [VNum 2] = (h', Err AttributeError) /\
  element_at (history ops) e = Some el /\ agn_get (e_params el) "L" = Some (VNum 1) /\ element_at h' e = Some el' /\ agn_get (e_params el') "L" = Some (VNum 2).
Proof.
  exists [NewLine None; AddElement 0 "cell"%string "drift"%string [("L"%string, VNum 1)] false; AddLine 0 (Some "cell"%string)], 0%nat, "cell"%string. eexists. exists 0%nat. do 2 eexists. repeat split; reflexivity.
Qed.
Print Assumptions C114_edit_refuted.

(** A load that raises leaves all other beamlines and the elements they have as they were. *)
Theorem C114_load_partial : forall ops a data h' x, load_beamline (history ops) a data = (h', Err x) ->
  (forall b s, b <> a -> sequence (history ops) b = Some s -> sequence h' b = Some s) /\
  (forall e el, element_at (history ops) e = Some el -> exists el', element_at h' e = Some el' /\ e_name el' = e_name el /\ e_type el' = e_type el /\ e_params el' = e_params el).
Proof.
  intros ops a data h' x H. unfold load_beamline in H. destruct (nth_error (lines (history ops)) a) as [l|] eqn:Hl; [|injection H as <- _; split; [auto|]; intros e el E; exists el; auto].
  destruct (l_seq l) eqn:S; [|discriminate]. split.
  - intros b s N Sb. assert (Lb : (b < List.length (lines (history ops)))%nat) by (apply nth_error_Some; unfold sequence in Sb; destruct (nth_error (lines (history ops)) b); [discriminate|discriminate]).
    destruct (apart_creates data (history ops) a a [] (List.length (lines (history ops))) (wf_history ops)) as [A _]; [rewrite (seq_some _ _ _ Hl); now rewrite S|intros c []|now left|lia|].
    rewrite H in A. cbn [fst] in A. now rewrite A.
  - apply grows_content. pose proof (grows_creates data (history ops) a a) as G. now rewrite H in G.
Qed.
Print Assumptions C114_load_partial.
(** A load that raises at its first entry can be repeated; one that raises later is not repeated. *)
Theorem C114_load_first : forall ops a d rest h' x, sequence (history ops) a = Some [] -> snd (create_node (history ops) a a (NElem d)) = Err x ->
  load_beamline (history ops) a (NElem d :: rest) = (h', Err x) -> sequence h' a = Some [].
Proof.
  intros ops a d rest h' x S F H. unfold load_beamline in H. destruct (seq_line _ _ _ S) as (l & Hl & Sl). rewrite Hl, Sl in H. cbn [create_nodes] in H.
  destruct (create_node (history ops) a a (NElem d)) as [h1 r] eqn:E. cbn [snd] in F. subst r. injection H as <-. cbn [create_node] in E.
  destruct (text_of (dget string_dec d "name"%string) KeyError); [|injection E as <- _; exact S|discriminate]. destruct (text_of (dget string_dec d "type"%string) KeyError); [|injection E as <- _; exact S|discriminate].
  rewrite (add_element_fail _ _ _ _ _ _ _ _ E). exact S.
Qed.
Print Assumptions C114_load_first.
Definition good_entry : node := NElem [("name"%string, VStr "d"%string); ("l"%string, VNum 1); ("type"%string, VStr "drift"%string)].
Definition bad_entry : node := NElem [("name"%string, VStr "q"%string)].
Definition mended_entry : node := NElem [("name"%string, VStr "q"%string); ("type"%string, VStr "quad"%string)].
Theorem C114_load_refuted : exists ops a h', load_beamline (history ops) a [good_entry; bad_entry] = (h', Err KeyError) /\ sequence (history ops) a = Some [] /\ sequence h' a = Some [RE 0] /\
  load_beamline h' a [good_entry; mended_entry] = (h', Ok tt) /\ exists h2, load_beamline (history ops) a [good_entry; mended_entry] = (h2, Ok tt) /\ sequence h2 a = Some [RE 0; RE 1].
Proof. exists [NewLine None], 0%nat. eexists. split; [reflexivity|]. split; [reflexivity|]. split; [reflexivity|]. split; [reflexivity|]. eexists. split; reflexivity. Qed.
Print Assumptions C114_load_refuted.
Definition two_lines : list op := [NewLine (Some "main"%string); AddElement 0 "d"%string "drift"%string [("L"%string, VNum 2)] false; NewLine None].
Example C114_applies : (exists h' x, step (history two_lines) (AddElement 0 "q"%string "quad"%string [] true) = (h', Err x)) /\
  (exists h', load_beamline (history two_lines) 1 [bad_entry; good_entry] = (h', Err KeyError)) /\ snd (create_node (history two_lines) 1 1 bad_entry) = Err KeyError /\
  sequence (history two_lines) 0 = Some [RE 0] /\ sequence (history two_lines) 1 = Some [] /\
  exists h', load_beamline (history two_lines) 1 [good_entry; NList [good_entry; bad_entry]] = (h', Err KeyError).
Proof.
  split; [do 2 eexists; vm_compute; reflexivity|]. split; [eexists; reflexivity|]. split; [reflexivity|]. split; [reflexivity|]. split; [reflexivity|].
  match goal with |- exists h', ?t = _ => assert (snd t = Err KeyError) by reflexivity; destruct t as [h' r]; exists h'; cbn in *; now subst end.
Qed.

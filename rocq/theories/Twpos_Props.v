(** * Claim C145: the positions of the elements of an imported TraceWin deck. *)
From Coq Require Import List Reals Bool Arith String Ascii ZArith Lia Lra.
From Verif Require Import PyBase PyDict PyText Line_Model Line_Spec Line_Proofs Line_Proofs2 Lte_Spec Trace_Model Trace_Spec Trace_Proofs Trace_Proofs2 Trace_Proofs3 Trace_Proofs4.
From Verif Require Trace_Props Twmat_Props Pos_Props.
Import ListNotations.
Open Scope R_scope.

(* ------------------------------------------------------------------ *)
(** ** Specification *)
(** the number of elements of cards, and their length in metres *)
Definition count (cs : list card) : nat := List.length (flat_map (fun c => things (c_kind c) (card_values c)) cs).
Definition long_as (cs : list card) : R := total (map (fun c => card_length (c_kind c) (card_values c)) cs).

(* ------------------------------------------------------------------ *)
(** ** Proofs *)
Lemma gbe_flat : forall h l addrs, wf h -> nth_error (lines h) 0 = Some l -> l_seq l = map RE addrs -> get_beamline_elements h 0 = Ok addrs.
Proof.
  intros h l addrs W Hl Sq. destruct (gbe_ok h 0 l W Hl) as (es & G & X). rewrite G. f_equal. rewrite Sq in X. clear - X. revert es X. induction addrs as [|a addrs IH]; intros es X; inversion X; subst; [reflexivity|]. f_equal. apply IH. assumption.
Qed.
Lemma lengths : forall h es ts ws, Forall2 (is_thing h) es ts -> Forall2 long ts ws -> Forall2 (fun a r => forall acc, add_length h acc a = Ok (acc + r)) es ws.
Proof.
  intros h es ts ws F. revert ws. induction F as [|e t es ts H F IH]; intros ws G; inversion G; subst; [apply Forall2_nil|apply Forall2_cons; [|apply IH; assumption]]. intros acc. eapply add_length_thing; eassumption.
Qed.
Lemma as_many : forall {A B} {R : A -> B -> Prop} {l m}, Forall2 R l m -> List.length l = List.length m.
Proof. intros A B R l m F. induction F; cbn; congruence. Qed.

(* ------------------------------------------------------------------ *)
(** ** Theorems *)
(** The first element of every card is where the cards before it end. *)
Theorem C145_cards : forall es name, Forall entry_ok es -> comments_inside es ->
  exists p addrs, tracewin (map entry_text es) name = (p, Ok tt) /\ get_beamline_elements (p_heap p) (p_line p) = Ok addrs /\ List.length addrs = count (cards es) /\
    (forall a b e, cards es = a ++ b -> nth_error addrs (count a) = Some e -> edge_of (p_heap p) e = Ok (long_as a)) /\
    length_of (p_heap p) (p_line p) = Ok (long_as (cards es)).
Proof.
  intros es name F C. destruct (deck_steps name es (Trace_Props.entries_fixed _ F) C) as (p & ms & E & St & Tt).
  rewrite Trace_Props.flat_map_seen in Tt by (apply cards_form; exact F).
  pose proof (Twmat_Props.sound_deck (map entry_text es) name) as [W _]. rewrite E in W. cbn [fst] in W.
  pose proof (state_consists _ _ _ St) as (addrs & Sq & Nd & Ft & _). rewrite Tt in Ft. destruct St as (_ & L0 & _). rewrite L0 in Sq. unfold sequence in Sq.
  destruct (nth_error (lines (p_heap p)) 0) as [l|] eqn:Ln; [|discriminate]. cbn [option_map] in Sq. injection Sq as Sq.
  pose proof (gbe_flat _ _ _ W Ln Sq) as G. exists p, addrs. rewrite L0. split; [exact E|]. split; [exact G|]. split; [exact (as_many Ft)|].
  assert (P : forall ws, Forall2 long (flat_map (fun c => things (c_kind c) (card_values c)) (cards es)) ws -> Pos_Props.placed (p_heap p) 0 addrs ws).
  { intros ws Fw. apply (Pos_Props.all_placed _ l); try assumption. exact (lengths _ _ _ _ Ft Fw). }
  split.
  - intros a b e Q He. destruct (cards_long card_values a) as (wa & Fa & Ea). destruct (cards_long card_values b) as (wb & Fb & _).
    destruct (P (wa ++ wb)) as [P1 _]; [rewrite Q, flat_map_app; apply Forall2_app; assumption|]. rewrite (P1 _ _ He). unfold long_as. rewrite <- Ea. f_equal. unfold count.
    rewrite (as_many Fa), firstn_app, Nat.sub_diag, firstn_all, app_nil_r. reflexivity.
  - destruct (cards_long card_values (cards es)) as (ws & Fw & Ew). destruct (P ws Fw) as [_ P2]. rewrite P2. unfold long_as. rewrite <- Ew. reflexivity.
Qed.
Print Assumptions C145_cards.
(** The parts of a DTL cell: its quadrupoles are at its ends, the cavity between them. *)
Theorem C145_cell : forall es name a c b l q1 q2 g b1 b2 v ph more, Forall entry_ok es -> comments_inside es ->
  cards es = a ++ c :: b -> c_kind c = DtlCell -> card_values c = l :: q1 :: q2 :: g :: b1 :: b2 :: v :: ph :: more ->
  exists p addrs e1 e2 e3, tracewin (map entry_text es) name = (p, Ok tt) /\ get_beamline_elements (p_heap p) (p_line p) = Ok addrs /\
    nth_error addrs (count a) = Some e1 /\ nth_error addrs (count a + 1) = Some e2 /\ nth_error addrs (count a + 2) = Some e3 /\
    edge_of (p_heap p) e1 = Ok (long_as a) /\ edge_of (p_heap p) e2 = Ok (long_as a + q1 / 1000) /\ edge_of (p_heap p) e3 = Ok (long_as a + (l - q2) / 1000).
Proof.
  intros es name a c b l q1 q2 g b1 b2 v ph more F C Q K V. destruct (deck_steps name es (Trace_Props.entries_fixed _ F) C) as (p & ms & E & St & Tt).
  rewrite Trace_Props.flat_map_seen in Tt by (apply cards_form; exact F).
  pose proof (Twmat_Props.sound_deck (map entry_text es) name) as [W _]. rewrite E in W. cbn [fst] in W.
  pose proof (state_consists _ _ _ St) as (addrs & Sq & Nd & Ft & _). rewrite Tt in Ft. destruct St as (_ & L0 & _). rewrite L0 in Sq. unfold sequence in Sq.
  destruct (nth_error (lines (p_heap p)) 0) as [l0|] eqn:Ln; [|discriminate]. cbn [option_map] in Sq. injection Sq as Sq.
  pose proof (gbe_flat _ _ _ W Ln Sq) as G.
  destruct (cards_long card_values a) as (wa & Fa & Ea). destruct (cards_long card_values b) as (wb & Fb & _).
  assert (Fc : Forall2 long (things (c_kind c) (card_values c)) [mm q1; mm (l - q1 - q2); mm q2]).
  { rewrite K, V. cbn [things]. constructor; [|constructor; [|constructor; [|constructor]]].
    - apply (long_here "quadrupole"%string [("k1"%string, b1)]); [apply same_name_lower; reflexivity|reflexivity].
    - apply (long_here "rfca"%string []); [apply same_name_lower; reflexivity|reflexivity].
    - apply (long_here "quadrupole"%string [("k1"%string, b2)]); [apply same_name_lower; reflexivity|reflexivity]. }
  assert (Fw : Forall2 long (flat_map (fun c => things (c_kind c) (card_values c)) (cards es)) (wa ++ [mm q1; mm (l - q1 - q2); mm q2] ++ wb)).
  { rewrite Q, flat_map_app. cbn [flat_map]. repeat (apply Forall2_app; [assumption|]). assumption. }
  destruct (Pos_Props.all_placed (p_heap p) l0 addrs _ W Ln G Nd (lengths _ _ _ _ Ft Fw)) as [P _].
  pose proof (as_many Ft) as Len. rewrite (as_many Fw) in Len. rewrite !app_length in Len. cbn [List.length] in Len.
  assert (Ca : count a = List.length wa) by exact (as_many Fa). rewrite Ca.
  assert (At : forall i, (i < 3)%nat -> exists e, nth_error addrs (List.length wa + i) = Some e /\ edge_of (p_heap p) e = Ok (long_as a + total (firstn i [mm q1; mm (l - q1 - q2); mm q2]))).
  { intros i Hi. destruct (nth_error addrs (List.length wa + i)) as [e|] eqn:He; [|apply nth_error_None in He; lia]. exists e. split; [reflexivity|]. rewrite (P _ _ He). f_equal.
    rewrite firstn_app_2, total_app, Ea. unfold long_as. f_equal. rewrite firstn_app. replace (i - 3)%nat with 0%nat by lia. cbn [List.length]. replace (i - 3)%nat with 0%nat by lia. cbn [firstn]. rewrite app_nil_r. reflexivity. }
  destruct (At 0%nat) as (e1 & H1 & X1); [lia|]. destruct (At 1%nat) as (e2 & H2 & X2); [lia|]. destruct (At 2%nat) as (e3 & H3 & X3); [lia|]. rewrite Nat.add_0_r in H1.
  exists p, addrs, e1, e2, e3. rewrite L0. split; [exact E|]. split; [exact G|]. split; [exact H1|]. split; [exact H2|]. split; [exact H3|].
  rewrite X1, X2, X3. cbn [firstn]. unfold total, mm. cbn [fold_right]. split; [f_equal; ring|]. split; f_equal; field.
Qed.
Print Assumptions C145_cell.

(** the deck of C48: a drift of 10.5, a quadrupole of 100, a frequency and a cell of 68.5 mm *)
Example C145_applies : let cs := cards Trace_Props.sample_entries in Forall entry_ok Trace_Props.sample_entries /\ comments_inside Trace_Props.sample_entries /\
  exists a c, cs = a ++ [c] /\ c_kind c = DtlCell /\ count a = 3%nat /\ count cs = 6%nat /\ exists l q1 q2 g b1 b2 v ph more, card_values c = l :: q1 :: q2 :: g :: b1 :: b2 :: v :: ph :: more.
Proof.
  intros cs. destruct Trace_Props.C48_applies as (F & C & _). split; [exact F|]. split; [exact C|]. exists (firstn 3 cs), (nth 3 cs (Trace_Props.simple Freq "freq" [])).
  split; [reflexivity|]. split; [reflexivity|]. split; [reflexivity|]. split; [reflexivity|]. do 9 eexists. reflexivity.
Qed.

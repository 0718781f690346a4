From Coq Require Import List Reals Bool Arith String Ascii ZArith Lia Lra.
From Verif Require Import PyBase PyDict PyText Line_Model Line_Spec Line_Proofs Lte_Spec Trace_Model Trace_Spec Trace_Proofs Trace_Proofs2.
Import ListNotations.
Open Scope R_scope.

(** a parser that has made these elements and has no frequency *)
Definition state (nm : string) (ms : list made) (p : parser) : Prop :=
  p_heap p = heap_of nm ms /\ p_line p = 0%nat /\ p_freq p = None /\ names_below (p_count p) ms /\ NoDup (map m_name ms).

Definition class (k : kind) : string :=
  match k with Drift => "drift" | Quad => "quadrupole" | DtlCell => "dtl_cell" | NCells => "rfca" | SyncPhase => "marker" | Freq => "freq" | FieldMap => "field_map" end.
Definition names_of (k : kind) : list string :=
  match k with
  | Drift => ["L"; "R"; "Ry"; "RX_SHIFT"; "RY_SHIFT"]
  | Quad => ["L"; "K1"; "R"; "THETA"; "G3U3"; "G4U4"; "G5U5"; "G6U6"; "GFR"]
  | DtlCell => ["L"; "LQ1"; "LQ2"; "GC"; "B1"; "B2"; "VOLT"; "PHASE"; "R"; "P"; "BETA_S"; "T_S"; "KTS"; "K2TS"]
  | NCells => ["MODE"; "N"; "BETA"; "VOLT"; "PHASE"; "R"; "P"; "KE0TI"; "KE0TO"; "DZI"; "DZO"]
  | SyncPhase => []
  | Freq => ["FREQUENCY"]
  | FieldMap => ["TYPE"; "L"; "PHASE"; "R"; "KB"; "KE"; "KI"; "KA"; "FILE"]
  end%string.
Definition table (k : kind) : list (string * (R -> R)) :=
  match k with
  | Drift => drift_names | Quad => quad_names | DtlCell => dtl_names | NCells => ncells_names | SyncPhase => []
  | Freq => [as_is "FREQUENCY"] | FieldMap => field_map_names
  end.
Lemma convert_zip : forall names vs, convert_units tw_conversions (combine names vs) =
  under (map (fun n => (n, fun v => match dget string_dec tw_conversions n with Some u => v * u | None => v end)) names) vs.
Proof. induction names as [|n names IH]; intros [|v vs]; cbn [map combine under convert_units fst snd]; try reflexivity. f_equal. apply IH. Qed.
Lemma convert_table : forall k vs, convert_units tw_conversions (combine (names_of k) vs) = under (table k) vs.
Proof. intros k vs. rewrite convert_zip. destruct k; reflexivity. Qed.

Lemma line_body : forall p c, card_form fixed_point c ->
  exists p2, p_heap p2 = p_heap p /\ p_line p2 = p_line p /\ p_freq p2 = p_freq p /\ (p_count p < p_count p2)%nat /\
  tw_line p (body c) = match handle p2 (kind_word (c_kind c)) (element_name (p_count p)) (under (table (c_kind c)) (seen_values c)) with
                       | (p3, Err KeyError) => add p3 (element_name (p_count p)) (class (c_kind c)) (kwargs (under (table (c_kind c)) (seen_values c)))
                       | s => s
                       end.
Proof.
  intros p c H. destruct (body_split c H) as (tl & Sp). unfold tw_line. cbn [next_name]. rewrite Sp.
  assert (Lw : str (lowert (T (kind_word (c_kind c)))) = kind_word (c_kind c)) by (destruct (c_kind c); reflexivity). rewrite Lw.
  assert (Dc : dget string_dec tw_classifiers (kind_word (c_kind c)) = Some (class (c_kind c))) by (destruct (c_kind c); reflexivity). rewrite Dc.
  assert (De : dget string_dec tw_elements (class (c_kind c)) = Some (names_of (c_kind c))) by (destruct (c_kind c); reflexivity). rewrite De.
  rewrite (findall_body c H). rewrite read_numbers by apply H. cbn [need]. rewrite convert_table. fold (seen_values c).
  eexists. refine (conj _ (conj _ (conj _ (conj _ eq_refl)))); match goal with |- context [if ?b then _ else _] => destruct b end; cbn; auto.
Qed.

Lemma state_add : forall nm ms p j s ty d, state nm ms p -> (forall m, In m ms -> m_name m <> String.append (element_name j) s) -> (j < p_count p)%nat -> suffix s ->
  existsb (fun kv => reserved (fst kv)) (kwargs d) = false -> interpret_element ty = ty ->
  exists p', add p (String.append (element_name j) s) ty (kwargs d) = (p', Ok tt) /\ state nm (ms ++ [(String.append (element_name j) s, ty, d)]) p' /\ p_count p' = p_count p.
Proof.
  intros nm ms p j s ty d (Hh & Hl & Hf & Hn & Hd) Fr Lj Sf Rs It. unfold add. rewrite Hh, Hl.
  assert (Nn : ~ In (String.append (element_name j) s) (map m_name ms)).
  { intros I. apply in_map_iff in I. destruct I as (m & E & I). exact (Fr m I E). }
  rewrite add_new by assumption. eexists. split; [reflexivity|]. split; [|reflexivity]. unfold state, with_heap. cbn.
  refine (conj eq_refl (conj Hl (conj Hf (conj _ _)))).
  - intros m I. apply in_app_iff in I. destruct I as [I|[<-|[]]]; [exact (Hn m I)|]. exists j, s. refine (conj Lj (conj Sf eq_refl)).
  - rewrite map_app. cbn [map]. apply NoDup_rev in Hd. rewrite <- rev_involutive. apply NoDup_rev. rewrite rev_app_distr. cbn [rev app]. constructor; [|exact Hd].
    intros I. apply in_rev in I. exact (Nn I).
Qed.
Lemma fresh_below : forall nm ms p j s, state nm ms p -> (p_count p <= j)%nat -> suffix s -> forall m, In m ms -> m_name m <> String.append (element_name j) s.
Proof.
  intros nm ms p j s (_ & _ & _ & Hn & _) L Sf m I E. apply (fresh_name _ ms j s Hn L Sf). rewrite <- E. apply in_map. exact I.
Qed.
Lemma under_keys : forall t vs, incl (map fst (under t vs)) (map fst t).
Proof.
  induction t as [|[n f] t IH]; intros vs x I; [destruct vs; exact I|]. destruct vs as [|v vs]; [destruct I|]. cbn in *.
  destruct I as [<-|I]; [left; reflexivity|right; apply (IH vs); exact I].
Qed.
Lemma table_free : forall k vs, existsb (fun kv => reserved (fst kv)) (kwargs (under (table k) vs)) = false.
Proof.
  intros k vs. destruct (existsb _ _) eqn:E; [|reflexivity]. exfalso. apply existsb_exists in E. destruct E as ([n v] & I & Rk).
  unfold kwargs in I. apply in_map_iff in I. destruct I as ([n' v'] & Q & I). injection Q as -> _. cbn [fst] in Rk.
  assert (J : In n (map fst (table k))) by (apply (under_keys _ vs); apply (in_map fst) in I; exact I).
  assert (F : forallb (fun n => negb (reserved n)) (map fst (table k)) = true) by (destruct k; reflexivity).
  rewrite forallb_forall in F. apply F in J. rewrite Rk in J. discriminate.
Qed.
Lemma key_absent : forall t vs k, ~ In k (map fst t) -> key (under t vs) k = Err KeyError.
Proof.
  intros t vs k N. unfold key. replace (dget string_dec (under t vs) k) with (@None R); [reflexivity|]. symmetry. apply dget_none.
  intros I. apply N. apply (under_keys t vs). exact I.
Qed.

Lemma state_later : forall nm ms p p2, state nm ms p -> p_heap p2 = p_heap p -> p_line p2 = p_line p -> p_freq p2 = p_freq p -> (p_count p <= p_count p2)%nat -> state nm ms p2.
Proof.
  intros nm ms p p2 (A & B & C & D & E) H1 H2 H3 L. unfold state. rewrite H1, H2, H3. refine (conj A (conj B (conj C (conj _ E)))).
  intros m I. destruct (D m I) as (i & s & X & Y). exists i, s. split; [lia|exact Y].
Qed.

Definition fallback (k : kind) (vs : list R) : Prop := things k vs = [(class k, under (table k) vs)].
Lemma fallback_step : forall nm ms p c, state nm ms p -> card_form fixed_point c -> fallback (c_kind c) (seen_values c) ->
  (forall p2 name, p_freq p2 = None -> handle p2 (kind_word (c_kind c)) name (under (table (c_kind c)) (seen_values c)) = (p2, Err KeyError)) ->
  exists p' new, tw_line p (body c) = (p', Ok tt) /\ state nm (ms ++ new) p' /\ map m_thing new = things (c_kind c) (seen_values c).
Proof.
  intros nm ms p c St H Fb Hh. destruct (line_body p c H) as (p2 & H1 & H2 & H3 & L & ->). rewrite Hh by (rewrite H3; apply St).
  assert (St2 : state nm ms p2) by (apply (state_later _ _ p); auto; lia).
  destruct (state_add nm ms p2 (p_count p) "" (class (c_kind c)) (under (table (c_kind c)) (seen_values c)) St2) as (p' & Ha & Hs & _); auto.
  - apply (fresh_below nm ms p); [exact St|lia|left; reflexivity].
  - left; reflexivity.
  - apply table_free.
  - destruct (c_kind c); reflexivity.
  - rewrite append_nil in Ha, Hs. exists p'. eexists. split; [exact Ha|]. split; [exact Hs|]. cbn. rewrite Fb. reflexivity.
Qed.

Lemma dtl_step : forall nm ms p c l lq1 lq2 gc b1 b2 volt phase r, state nm ms p -> card_form fixed_point c -> c_kind c = DtlCell ->
  seen_values c = l :: lq1 :: lq2 :: gc :: b1 :: b2 :: volt :: phase :: r ->
  exists p' new, tw_line p (body c) = (p', Ok tt) /\ state nm (ms ++ new) p' /\ map m_thing new = things (c_kind c) (seen_values c).
Proof.
  intros nm ms p c l lq1 lq2 gc b1 b2 volt phase r St H K V. destruct (line_body p c H) as (p2 & H1 & H2 & H3 & L & ->).
  assert (St2 : state nm ms p2) by (apply (state_later _ _ p); auto; lia).
  rewrite K, V. set (d := under (table DtlCell) (l :: lq1 :: lq2 :: gc :: b1 :: b2 :: volt :: phase :: r)).
  change (handle p2 (kind_word DtlCell) (element_name (p_count p)) d) with (handle_dtl_cell p2 (element_name (p_count p)) d). unfold handle_dtl_cell.
  change (key d "LQ1") with (Ok (mm lq1)). change (key d "LQ2") with (Ok (mm lq2)). change (key d "L") with (Ok (mm l)). change (key d "B1") with (Ok b1).
  change (key d "B2") with (Ok b2). change (key d "PHASE") with (Ok phase). change (key d "VOLT") with (Ok volt). cbn [need].
  set (n := p_count p) in *.
  destruct (state_add nm ms p2 n "_q1" "quadrupole" [("k1"%string, b1); ("l"%string, mm lq1)] St2) as (p3 & A3 & S3 & C3); auto.
  { apply (fresh_below nm ms p); [exact St|unfold n; lia|right; left; reflexivity]. }
  { right; left; reflexivity. }
  cbn [kwargs map fst snd] in A3. rewrite A3. cbn [and_then].
  destruct S3 as (S3a & S3b & S3c & S3d & S3e). rewrite S3c.
  assert (S3 : state nm (ms ++ [((element_name n ++ "_q1")%string, "quadrupole"%string, [("k1"%string, b1); ("l"%string, mm lq1)])]) p3) by (exact (conj S3a (conj S3b (conj S3c (conj S3d S3e))))).
  destruct (state_add nm _ p3 n "cav" "rfca" [("l"%string, mm l - mm lq1 - mm lq2); ("volt"%string, volt); ("phase"%string, phase + 90); ("frequency"%string, 1)] S3) as (p4 & A4 & S4 & C4); auto.
  { intros m I. apply in_app_iff in I. destruct I as [I|[<-|[]]].
    - revert m I. apply (fresh_below nm ms p); [exact St|unfold n; lia|right; right; left; reflexivity].
    - cbn. intros E. apply names_differ in E; [destruct E; discriminate|right; left; reflexivity|right; right; left; reflexivity]. }
  { rewrite C3; exact L. }
  { right; right; left; reflexivity. }
  cbn [kwargs map fst snd] in A4. rewrite A4. cbn [and_then].
  destruct (state_add nm _ p4 n "_q2" "quadrupole" [("k1"%string, b2); ("l"%string, mm lq2)] S4) as (p5 & A5 & S5 & C5); auto.
  { intros m I. apply in_app_iff in I. destruct I as [I|[<-|[]]]; [apply in_app_iff in I; destruct I as [I|[<-|[]]]|].
    - revert m I. apply (fresh_below nm ms p); [exact St|unfold n; lia|right; right; right; left; reflexivity].
    - cbn. intros E. apply names_differ in E; [destruct E; discriminate|right; left; reflexivity|right; right; right; left; reflexivity].
    - cbn. intros E. apply names_differ in E; [destruct E; discriminate|right; right; left; reflexivity|right; right; right; left; reflexivity]. }
  { rewrite C4, C3; exact L. }
  { right; right; right; left; reflexivity. }
  cbn [kwargs map fst snd] in A5. rewrite A5. exists p5. eexists. split; [reflexivity|]. rewrite <- !app_assoc in S5. split; [exact S5|].
  cbn. unfold m_thing. cbn. replace (mm l - mm lq1 - mm lq2) with (mm (l - lq1 - lq2)) by (unfold mm; field). reflexivity.
Qed.

Lemma card_step : forall nm ms p c, state nm ms p -> card_form fixed_point c ->
  exists p' new, tw_line p (body c) = (p', Ok tt) /\ state nm (ms ++ new) p' /\ map m_thing new = things (c_kind c) (seen_values c).
Proof.
  intros nm ms p c St H. destruct (c_kind c) eqn:K.
  - rewrite <- K. apply (fallback_step nm ms p c St H); rewrite K; [reflexivity|intros; reflexivity].
  - rewrite <- K. apply (fallback_step nm ms p c St H); rewrite K; [reflexivity|intros; reflexivity].
  - destruct (seen_values c) as [|v1 [|v2 [|v3 [|v4 [|v5 [|v6 [|v7 [|v8 r]]]]]]]] eqn:V; rewrite <- V, <- K.
    9: eapply dtl_step; eauto.
    all: apply (fallback_step nm ms p c St H); rewrite K, V; [reflexivity|intros; reflexivity].
  - rewrite <- K. apply (fallback_step nm ms p c St H); rewrite K; [reflexivity|]. intros p2 name F. change (handle_ncells p2 name (under (table NCells) (seen_values c)) = (p2, Err KeyError)). unfold handle_ncells. rewrite F. reflexivity.
  - rewrite <- K. apply (fallback_step nm ms p c St H); rewrite K; [|intros; reflexivity]. unfold fallback. destruct (seen_values c); reflexivity.
  - rewrite <- K. apply (fallback_step nm ms p c St H); rewrite K; [reflexivity|]. intros p2 name F. change (handle_freq p2 name (under (table Freq) (seen_values c)) = (p2, Err KeyError)). unfold handle_freq.
    rewrite key_absent; [reflexivity|]. cbn. intros [E|[]]. discriminate E.
  - rewrite <- K. apply (fallback_step nm ms p c St H); rewrite K; [reflexivity|]. intros p2 name F. change (handle_field_map p2 name (under (table FieldMap) (seen_values c)) = (p2, Err KeyError)). unfold handle_field_map. rewrite F. reflexivity.
Qed.

Lemma cards_steps : forall nm cs ms p, state nm ms p -> Forall (card_form fixed_point) cs ->
  exists p' new, tw_lines p (map body cs) = (p', Ok tt) /\ state nm (ms ++ new) p' /\ map m_thing new = flat_map (fun c => things (c_kind c) (seen_values c)) cs.
Proof.
  induction cs as [|c cs IH]; intros ms p St F; cbn [map tw_lines flat_map].
  - exists p, []. rewrite app_nil_r. refine (conj eq_refl (conj St eq_refl)).
  - inversion F as [|? ? F1 F2]; subst. destruct (card_step nm ms p c St F1) as (p1 & n1 & E1 & S1 & T1). rewrite E1. cbn [and_then].
    destruct (IH _ p1 S1 F2) as (p2 & n2 & E2 & S2 & T2). exists p2, (n1 ++ n2). rewrite app_assoc. refine (conj E2 (conj S2 _)). rewrite map_app, T1, T2. reflexivity.
Qed.
Lemma deck_steps : forall nm es, Forall (entry_form fixed_point) es -> comments_inside es ->
  exists p ms, tracewin (map entry_text es) nm = (p, Ok tt) /\ state nm ms p /\ map m_thing ms = flat_map (fun c => things (c_kind c) (seen_values c)) (cards es).
Proof.
  intros nm es F C. unfold tracewin. cbn [new_line empty_heap lines elems List.length app].
  rewrite (sanitize_entries es F C). cbn [need].
  match goal with |- context [tw_lines ?p _] => assert (St : state nm [] p) end.
  { refine (conj eq_refl (conj eq_refl (conj eq_refl (conj _ (NoDup_nil _))))). intros m []. }
  destruct (cards_steps nm (cards es) [] _ St (cards_form _ _ F)) as (p & ms & E & S & Tt). exists p, ms. refine (conj E (conj S Tt)).
Qed.

(* ---------------- what the beamline looks like ---------------- *)
Lemma nth_nodup : forall {A} (l : list A) i j x, NoDup l -> nth_error l i = Some x -> nth_error l j = Some x -> i = j.
Proof. intros A l i j x N Hi Hj. rewrite NoDup_nth_error in N. apply N; [apply nth_error_Some; congruence|congruence]. Qed.
Lemma things_nth : forall nm all, forall ms k, (forall i m, nth_error ms i = Some m -> nth_error all (k + i) = Some m) ->
  Forall2 (is_thing (heap_of nm all)) (seq k (List.length ms)) (map m_thing ms).
Proof.
  intros nm all. induction ms as [|m ms IH]; intros k H; cbn [List.length seq map]; [constructor|]. constructor.
  - exists (element_of m). unfold element_at. cbn [elems heap_of]. rewrite nth_error_map. specialize (H 0%nat m eq_refl). rewrite Nat.add_0_r in H. rewrite H.
    refine (conj eq_refl (conj eq_refl _)). intros q. cbn [e_params element_of]. fold (kwargs (snd (m_thing m))).
    destruct (last_value_exists q (kwargs (snd m))) as (o & Lo). rewrite (last_value_get q _ o [] Lo). destruct o; exact Lo.
  - apply IH. intros i x Hx. replace (S k + i)%nat with (k + S i)%nat by lia. apply H. exact Hx.
Qed.
Lemma state_consists : forall nm ms p, state nm ms p -> consists (p_heap p) (p_line p) (map m_thing ms).
Proof.
  intros nm ms p (Hh & Hl & _ & _ & Hd). rewrite Hh, Hl. exists (seq 0 (List.length ms)). refine (conj eq_refl (conj (seq_NoDup _ _) (conj _ _))).
  - apply things_nth. intros i m E. exact E.
  - intros e e' el el' _ _ E1 E2 Nm. unfold element_at in *. cbn [elems heap_of] in *. rewrite nth_error_map in E1, E2.
    destruct (nth_error ms e) as [m1|] eqn:M1; [|discriminate]. destruct (nth_error ms e') as [m2|] eqn:M2; [|discriminate]. cbn in E1, E2. injection E1 as <-. injection E2 as <-.
    cbn in Nm. apply (nth_nodup (map m_name ms) e e' (m_name m1) Hd); rewrite nth_error_map; [rewrite M1|rewrite M2]; cbn; congruence.
Qed.

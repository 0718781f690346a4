From Coq Require Import List Reals Bool Arith String Ascii ZArith Lia Lra.
From Verif Require Import PyBase PyDict PyText Line_Model Line_Spec Line_Proofs Line_Proofs2 Json_Proofs Trace_Model Trace_Spec Trace_Proofs4 Trace_Proofs5.
Import ListNotations.
Open Scope R_scope.

Lemma typ_has : forall h e ty, has_type h e ty <-> typ h e = Some ty.
Proof.
  intros h e ty. unfold has_type, typ, element_at. split.
  - intros (el & -> & <-). reflexivity.
  - destruct (nth_error (elems h) e) as [el|]; intros H; [|discriminate]. injection H as <-. exists el. auto.
Qed.
Lemma get_has : forall h e k v, has_number h e k v <-> get h e k = Some (VNum v).
Proof.
  intros h e k v. unfold has_number, get, element_at. split.
  - intros (el & -> & <-). reflexivity.
  - destruct (nth_error (elems h) e) as [el|]; intros H; [|discriminate]. exists el. auto.
Qed.
Lemma get_reads : forall h h' e k, get h' e k = get h e k -> reads_same h h' e k.
Proof.
  intros h h' e k E v. unfold get, element_at in *. split; intros (el & X & Y); rewrite X in E.
  - destruct (nth_error (elems h') e) as [el'|]; [exists el'; split; congruence|congruence].
  - destruct (nth_error (elems h) e) as [el'|]; [exists el'; split; congruence|congruence].
Qed.
Definition bend_values (b : bend) : list (string * value) :=
  [("E1"%string, VNum (b_angle1 b)); ("E2"%string, VNum (b_angle2 b)); ("HGAP"%string, VNum (b_gap b / 2)); ("FINT"%string, VNum (b_fringe b))].
Definition fold_heap (h : heap) (ps : list piece) : heap :=
  fold_left (fun h p => match p with Other _ => h | Bend b => edit h (b_at b) (bend_values b) end) ps h.
Definition edges (ps : list piece) : list nat := flat_map (fun p => match p with Other _ => [] | Bend b => [b_in b; b_out b] end) ps.

Lemma piece_edit : forall h e pv p, piece_ok h p -> ~ In e (spread p) -> piece_ok (edit h e pv) p.
Proof.
  intros h e pv [x|b] H N; cbn in *.
  - destruct H as (ty & T & D). exists ty. split; [|exact D]. apply typ_has. rewrite typ_edit. apply typ_has. exact T.
  - destruct H as ((t1 & T1 & D1) & T & (t2 & T2 & D2) & G1 & G2 & G3 & G4).
    assert (X : forall z ty, has_type h z ty -> has_type (edit h e pv) z ty) by (intros z ty Hz; apply typ_has; rewrite typ_edit; apply typ_has; exact Hz).
    assert (Y : forall z k v, z <> e -> has_number h z k v -> has_number (edit h e pv) z k v) by (intros z k v Dz Hz; apply get_has; rewrite get_edit_other by exact Dz; apply get_has; exact Hz).
    refine (conj (ex_intro _ t1 (conj (X _ _ T1) D1)) (conj (X _ _ T) (conj (ex_intro _ t2 (conj (X _ _ T2) D2)) (conj (Y _ _ _ _ G1) (conj (Y _ _ _ _ G2) (conj (Y _ _ _ _ G3) (Y _ _ _ _ G4))))))); intuition.
Qed.

Lemma bend_skip : forall h a es i r e ty, nth_error es i = Some e -> typ h e = Some ty -> ty <> "sbend"%string ->
  bend_loop h a (map RE es) (i :: r) = bend_loop h a (map RE es) r.
Proof.
  intros h a es i r e ty N T D. cbn [bend_loop]. rewrite (type_is h es i ty e N T). cbn [bind_run]. destruct (String.eqb_spec ty "sbend"); [contradiction|reflexivity].
Qed.
Lemma py_index_at : forall (es : list nat) k x, nth_error es k = Some x -> py_index es (Z.of_nat k) = Some x.
Proof.
  intros es k x H. assert (Lk : (k < List.length es)%nat) by (apply nth_error_Some; congruence). unfold py_index.
  destruct (Z.ltb_spec (Z.of_nat k) 0); [lia|]. destruct (Z.leb_spec (Z.of_nat (List.length es)) (Z.of_nat k)); [lia|]. destruct (Z.ltb_spec (Z.of_nat k) 0); [lia|]. cbn. rewrite Nat2Z.id. exact H.
Qed.
Lemma bend_here : forall h a es i r b, sequence h a = Some (map RE es) -> nth_error es i = Some (b_in b) -> nth_error es (S i) = Some (b_at b) -> nth_error es (S (S i)) = Some (b_out b) ->
  piece_ok h (Bend b) ->
  bend_loop h a (map RE es) (S i :: r) =
  bind_run (bend_loop (edit h (b_at b) (bend_values b)) a (map RE es) r) (fun h es' => (h, Ok (RE (b_in b) :: RE (b_out b) :: es'))).
Proof.
  intros h a es i r b S0 N1 N2 N3 (_ & T & _ & G1 & G2 & G3 & G4). apply typ_has in T. apply get_has in G1, G2, G3, G4.
  cbn [bend_loop]. rewrite (type_is h es (S i) _ _ N2 T). cbn [bind_run String.eqb Ascii.eqb Bool.eqb].
  replace (Z.of_nat (S i) - 1)%Z with (Z.of_nat i) by lia. replace (Z.of_nat (S i) + 1)%Z with (Z.of_nat (S (S i))) by lia.
  pose proof (py_index_at es i _ N1) as P1. pose proof (py_index_at es (S i) _ N2) as P2. pose proof (py_index_at es (S (S i)) _ N3) as P3.
  rewrite (param_is h es _ "BETA" _ _ P1 G1). cbn [bind_run]. rewrite (param_is h es _ "BETA" _ _ P3 G2). cbn [bind_run].
  rewrite (param_is h es _ "G" _ _ P1 G3). cbn [bind_run]. rewrite (param_is h es _ "K1" _ _ P1 G4). cbn [bind_run].
  rewrite (edit_index h a es _ (b_at b)) by (try assumption; discriminate). cbn [bind_run zip].
  rewrite !py_index_map, P1, P3. cbn [option_map]. reflexivity.
Qed.
Lemma bend_pieces : forall ps h a pre, sequence h a = Some (map RE (pre ++ flat_map spread ps)) -> NoDup (flat_map spread ps) -> Forall (piece_ok h) ps ->
  bend_loop h a (map RE (pre ++ flat_map spread ps)) (seq (List.length pre) (List.length (flat_map spread ps))) = (fold_heap h ps, Ok (map RE (edges ps))).
Proof.
  induction ps as [|p ps IH]; intros h a pre S0 N F.
  - cbn [flat_map List.length seq bend_loop]. reflexivity.
  - inversion F as [|? ? F1 F2]; subst. set (es := pre ++ flat_map spread (p :: ps)) in *. destruct p as [e|b].
    + assert (E0 : es = (pre ++ [e]) ++ flat_map spread ps) by (unfold es; cbn; rewrite <- app_assoc; reflexivity).
      destruct F1 as (ty & T & D). apply typ_has in T. cbn [flat_map spread app List.length seq].
      rewrite (bend_skip h a es _ _ e ty); [|unfold es; rewrite nth_error_app2 by lia; rewrite Nat.sub_diag; reflexivity|exact T|exact D].
      rewrite E0 in *. replace (S (List.length pre)) with (List.length (pre ++ [e])) by (rewrite app_length; cbn; lia).
      apply IH; [exact S0| |exact F2]. cbn in N. inversion N; assumption.
    + assert (E0 : es = (pre ++ [b_in b; b_at b; b_out b]) ++ flat_map spread ps) by (unfold es; cbn; rewrite <- app_assoc; reflexivity).
      assert (Nth : forall k, nth_error es (List.length pre + k) = nth_error (b_in b :: b_at b :: b_out b :: flat_map spread ps) k).
      { intros k. unfold es. rewrite nth_error_app2 by lia. f_equal. lia. }
      pose proof (Nth 0%nat) as M0. pose proof (Nth 1%nat) as M1. pose proof (Nth 2%nat) as M2. rewrite Nat.add_0_r in M0. replace (List.length pre + 1)%nat with (S (List.length pre)) in M1 by lia. replace (List.length pre + 2)%nat with (S (S (List.length pre))) in M2 by lia. cbn [nth_error] in M0, M1, M2.
      cbn in N. inversion N as [|? ? N1 Na]; subst. inversion Na as [|? ? N2 Nb]; subst. inversion Nb as [|? ? N3 Nc]; subst.
      pose proof F1 as ((t1 & T1 & D1) & T & (t2 & T2 & D2) & _). apply typ_has in T1, T2.
      cbn [flat_map spread app List.length seq].
      rewrite (bend_skip h a es _ _ (b_in b) t1) by assumption.
      rewrite (bend_here h a es _ _ b S0 M0 M1 M2 F1).
      rewrite (bend_skip _ a es _ _ (b_out b) t2); [|exact M2|rewrite typ_edit; exact T2|exact D2].
      set (h1 := edit h (b_at b) (bend_values b)).
      assert (IH1 : bend_loop h1 a (map RE es) (seq (S (S (S (List.length pre)))) (List.length (flat_map spread ps))) = (fold_heap h1 ps, Ok (map RE (edges ps)))).
      { rewrite E0. replace (S (S (S (List.length pre)))) with (List.length (pre ++ [b_in b; b_at b; b_out b])) by (rewrite app_length; cbn; lia).
        apply IH; [unfold h1; rewrite seq_edit, <- E0; exact S0|exact Nc|]. rewrite Forall_forall in *. intros p Ip. apply piece_edit; [apply F2; exact Ip|].
        intros I. apply N2. right. apply in_flat_map. exists p. auto. }
      rewrite IH1. reflexivity.
Qed.

Lemma remove_here : forall pre x post, ~ In x pre -> remove_ref (RE x) (map RE (pre ++ x :: post)) = Some (map RE (pre ++ post)).
Proof.
  induction pre as [|y pre IH]; intros x post N; cbn [app map remove_ref].
  - destruct (ref_dec (RE x) (RE x)); [reflexivity|contradiction].
  - destruct (ref_dec (RE x) (RE y)) as [E|_]; [injection E as ->; exfalso; apply N; left; reflexivity|]. rewrite IH by (intros I; apply N; right; exact I). reflexivity.
Qed.
Lemma seq_set : forall h a s s', sequence h a = Some s -> sequence (upd_line h a (set_seq s')) a = Some s'.
Proof.
  intros h a s s' H. unfold sequence in *. unfold upd_line. cbn [lines]. rewrite upd_nth, Nat.eqb_refl. destruct (nth_error (lines h) a); [reflexivity|discriminate].
Qed.
Lemma remove_pieces : forall ps h a pre, sequence h a = Some (map RE (pre ++ flat_map spread ps)) -> NoDup (pre ++ flat_map spread ps) ->
  exists h', remove_all h a (map RE (pre ++ flat_map spread ps)) (map RE (edges ps)) = (h', Ok tt) /\ elems h' = elems h /\ sequence h' a = Some (map RE (pre ++ flat_map folded ps)).
Proof.
  induction ps as [|p ps IH]; intros h a pre S0 N.
  - exists h. refine (conj eq_refl (conj eq_refl S0)).
  - destruct p as [e|b].
    + cbn [flat_map spread folded edges app]. replace (pre ++ e :: flat_map spread ps) with ((pre ++ [e]) ++ flat_map spread ps) in * by (rewrite <- app_assoc; reflexivity).
      destruct (IH h a (pre ++ [e])) as (h' & A & B & C).
      * cbn [flat_map spread app] in S0. rewrite <- app_assoc. exact S0.
      * cbn [flat_map spread app] in N. rewrite <- app_assoc. exact N.
      * exists h'. refine (conj A (conj B _)). rewrite <- app_assoc in C. exact C.
    + cbn [flat_map spread folded edges app] in *. fold (edges ps). cbn [map remove_all].
      destruct (nodup_app _ _ N) as (_ & Nb & Dj). inversion Nb as [|? ? N1 Nb']; subst. inversion Nb' as [|? ? N2 Nc]; subst. inversion Nc as [|? ? N3 Nd]; subst.
      assert (A1 : ~ In (b_in b) pre) by (intros I; apply (Dj _ I); left; reflexivity).
      rewrite remove_here by exact A1.
      replace (pre ++ b_at b :: b_out b :: flat_map spread ps) with ((pre ++ [b_at b]) ++ b_out b :: flat_map spread ps) by (rewrite <- app_assoc; reflexivity).
      assert (A2 : ~ In (b_out b) (pre ++ [b_at b])).
      { intros I. apply in_app_iff in I. destruct I as [I|[E|[]]]; [apply (Dj _ I); right; right; left; reflexivity|]. apply N2. left. congruence. }
      rewrite remove_here by exact A2.
      set (h1 := upd_line h a (set_seq (map RE ((pre ++ [b_at b]) ++ b_out b :: flat_map spread ps)))).
      set (h2 := upd_line h1 a (set_seq (map RE ((pre ++ [b_at b]) ++ flat_map spread ps)))).
      assert (S1 : sequence h1 a = Some (map RE ((pre ++ [b_at b]) ++ b_out b :: flat_map spread ps))) by (eapply seq_set; exact S0).
      assert (S2 : sequence h2 a = Some (map RE ((pre ++ [b_at b]) ++ flat_map spread ps))) by (eapply seq_set; exact S1).
      destruct (IH h2 a (pre ++ [b_at b]) S2) as (h' & A & B & C).
      * apply NoDup_remove_1 in N. replace (pre ++ b_at b :: b_out b :: flat_map spread ps) with ((pre ++ [b_at b]) ++ b_out b :: flat_map spread ps) in N by (rewrite <- app_assoc; reflexivity).
        apply NoDup_remove_1 in N. exact N.
      * exists h'. refine (conj A (conj B _)). rewrite <- app_assoc in C. exact C.
Qed.

Lemma fold_lines : forall ps h, lines (fold_heap h ps) = lines h.
Proof. induction ps as [|[e|b] ps IH]; intros h; [reflexivity|apply IH|]. cbn [fold_heap fold_left]. fold (fold_heap (edit h (b_at b) (bend_values b)) ps). rewrite IH. reflexivity. Qed.
Lemma fold_typ : forall ps h e, typ (fold_heap h ps) e = typ h e.
Proof. induction ps as [|[x|b] ps IH]; intros h e; [reflexivity|apply IH|]. cbn [fold_heap fold_left]. fold (fold_heap (edit h (b_at b) (bend_values b)) ps). rewrite IH. apply typ_edit. Qed.
Lemma fold_other : forall ps h e k, (forall b, In (Bend b) ps -> e <> b_at b) -> get (fold_heap h ps) e k = get h e k.
Proof.
  induction ps as [|[x|b] ps IH]; intros h e k H; [reflexivity| |].
  - apply IH. intros b I. apply H. right; exact I.
  - cbn [fold_heap fold_left]. fold (fold_heap (edit h (b_at b) (bend_values b)) ps). rewrite IH by (intros b' I; apply H; right; exact I).
    apply get_edit_other. apply H. left; reflexivity.
Qed.
Lemma fold_key : forall ps h e k, ~ same_name k "E1" -> ~ same_name k "E2" -> ~ same_name k "HGAP" -> ~ same_name k "FINT" -> get (fold_heap h ps) e k = get h e k.
Proof.
  intros ps h e k K1 K2 K3 K4. revert h. induction ps as [|[x|b] ps IH]; intros h; [reflexivity|apply IH|].
  cbn [fold_heap fold_left]. fold (fold_heap (edit h (b_at b) (bend_values b)) ps). rewrite IH. apply get_edit_key.
  intros k' v [E|[E|[E|[E|[]]]]]; injection E as <- _; assumption.
Qed.
Lemma fold_bend : forall ps h b, NoDup (flat_map spread ps) -> In (Bend b) ps -> typ h (b_at b) <> None ->
  forall k v, last_value k (bend_values b) (Some v) -> get (fold_heap h ps) (b_at b) k = Some v.
Proof.
  induction ps as [|p ps IH]; intros h b N I T k v L; [destruct I|]. destruct I as [->|I].
  - cbn [fold_heap fold_left]. fold (fold_heap (edit h (b_at b) (bend_values b)) ps). rewrite fold_other.
    + apply get_edit_same; assumption.
    + intros b' I E. cbn in N. inversion N as [|? ? N1 Na]; subst. inversion Na as [|? ? N2 Nb]; subst. apply N2. right. apply in_flat_map. exists (Bend b'). split; [exact I|]. right; left. congruence.
  - assert (N' : NoDup (flat_map spread ps)) by (cbn in N; destruct (nodup_app _ _ N) as (_ & X & _); exact X).
    destruct p as [x|b']; cbn [fold_heap fold_left].
    + apply IH; assumption.
    + fold (fold_heap (edit h (b_at b') (bend_values b')) ps). apply IH; try assumption. rewrite typ_edit. exact T.
Qed.
Lemma fold_bends : forall h a ps, sequence h a = Some (map RE (flat_map spread ps)) -> NoDup (flat_map spread ps) -> Forall (piece_ok h) ps ->
  exists h', handle_bends h a = (h', Ok tt) /\ sequence h' a = Some (map RE (flat_map folded ps)) /\
    (forall e ty, has_type h e ty -> has_type h' e ty) /\
    (forall b, In (Bend b) ps -> has_number h' (b_at b) "E1" (b_angle1 b) /\ has_number h' (b_at b) "E2" (b_angle2 b) /\
       has_number h' (b_at b) "HGAP" (b_gap b / 2) /\ has_number h' (b_at b) "FINT" (b_fringe b)) /\
    (forall e k, (forall b, In (Bend b) ps -> e = b_at b -> ~ same_name k "E1" /\ ~ same_name k "E2" /\ ~ same_name k "HGAP" /\ ~ same_name k "FINT") -> reads_same h h' e k).
Proof.
  intros h a ps S0 N F.
  assert (S1 : sequence (fold_heap h ps) a = Some (map RE (flat_map spread ps))) by (unfold sequence in *; rewrite fold_lines; exact S0).
  destruct (remove_pieces ps (fold_heap h ps) a [] S1 N) as (h' & A & B & C). exists h'.
  assert (G : forall e k, get h' e k = get (fold_heap h ps) e k) by (intros e k; unfold get; rewrite B; reflexivity).
  refine (conj _ (conj C (conj _ (conj _ _)))).
  - unfold handle_bends. unfold sequence in S0. destruct (nth_error (lines h) a) as [l|] eqn:El; [|discriminate]. injection S0 as S0. rewrite S0, map_length.
    assert (S2 : sequence h a = Some (map RE ([] ++ flat_map spread ps))) by (unfold sequence; rewrite El; cbn; rewrite S0; reflexivity).
    pose proof (bend_pieces ps h a [] S2 N F) as X. cbn [app List.length] in X. rewrite X. cbn [bind_run]. exact A.
  - intros e ty T. apply typ_has. apply typ_has in T. unfold typ. rewrite B. fold (typ (fold_heap h ps) e). rewrite fold_typ. exact T.
  - intros b Ib. assert (T : typ h (b_at b) <> None).
    { rewrite Forall_forall in F. destruct (F _ Ib) as (_ & T & _). apply typ_has in T. congruence. }
    assert (X : forall k v, last_value k (bend_values b) (Some (VNum v)) -> has_number h' (b_at b) k v) by (intros k v L; apply get_has; rewrite G; eapply fold_bend; eassumption).
    refine (conj (X _ _ _) (conj (X _ _ _) (conj (X _ _ _) (X _ _ _)))).
    + apply (lv_some "E1"%string [] "E1"%string); [apply same_name_lower; reflexivity|]. intros k w [E|[E|[E|[]]]] Sm; injection E as <- _; apply same_name_lower in Sm; discriminate Sm.
    + apply (lv_some "E2"%string [("E1"%string, VNum (b_angle1 b))] "E2"%string); [apply same_name_lower; reflexivity|]. intros k w [E|[E|[]]] Sm; injection E as <- _; apply same_name_lower in Sm; discriminate Sm.
    + apply (lv_some "HGAP"%string [("E1"%string, VNum (b_angle1 b)); ("E2"%string, VNum (b_angle2 b))] "HGAP"%string); [apply same_name_lower; reflexivity|]. intros k w [E|[]] Sm; injection E as <- _; apply same_name_lower in Sm; discriminate Sm.
    + apply (lv_some "FINT"%string [("E1"%string, VNum (b_angle1 b)); ("E2"%string, VNum (b_angle2 b)); ("HGAP"%string, VNum (b_gap b / 2))] "FINT"%string); [apply same_name_lower; reflexivity|]. intros k w [].
  - intros e k Hk. apply get_reads. rewrite G.
    destruct (existsb (fun p => match p with Bend b => (b_at b =? e)%nat | _ => false end) ps) eqn:Q.
    + apply existsb_exists in Q. destruct Q as ([x|b] & Ib & Eb); [discriminate|]. apply Nat.eqb_eq in Eb. destruct (Hk b Ib (eq_sym Eb)) as (K1 & K2 & K3 & K4). apply fold_key; assumption.
    + apply fold_other. intros b Ib ->. assert (X : existsb (fun p => match p with Bend b0 => (b_at b0 =? b_at b)%nat | _ => false end) ps = true); [|congruence].
      apply existsb_exists. exists (Bend b). split; [exact Ib|apply Nat.eqb_refl].
Qed.

(** two bends that share an edge *)
Lemma shared_edge : forall h a b1 b2, sequence h a = Some (map RE [b_in b1; b_at b1; b_out b1; b_at b2; b_out b2]) -> b_in b2 = b_out b1 ->
  NoDup [b_in b1; b_at b1; b_out b1; b_at b2; b_out b2] -> piece_ok h (Bend b1) -> piece_ok h (Bend b2) ->
  exists h', handle_bends h a = (h', Err ValueError) /\ sequence h' a = Some (map RE [b_at b1; b_at b2; b_out b2]).
Proof.
  intros h a b1 b2 S0 Sh N P1 P2.
  set (es := [b_in b1; b_at b1; b_out b1; b_at b2; b_out b2]) in *.
  pose proof P1 as ((t1 & T1 & D1) & _ & (t2 & T2 & D2) & _). pose proof P2 as (_ & _ & (t3 & T3 & D3) & _). apply typ_has in T1, T2, T3.
  assert (P2' : piece_ok (edit h (b_at b1) (bend_values b1)) (Bend b2)).
  { apply piece_edit; [exact P2|]. cbn. rewrite Sh. inversion N as [|? ? N1 Na]; subst. inversion Na as [|? ? N2 Nb]; subst. intros I. apply N2. cbn. intuition. }
  assert (L : bend_loop h a (map RE es) (seq 0 5) = (edit (edit h (b_at b1) (bend_values b1)) (b_at b2) (bend_values b2), Ok (map RE [b_in b1; b_out b1; b_out b1; b_out b2]))).
  { cbn [seq]. rewrite (bend_skip h a es 0 _ (b_in b1) t1) by (try reflexivity; assumption).
    rewrite (bend_here h a es 0 _ b1 S0) by (try reflexivity; assumption).
    rewrite (bend_skip _ a es 2 _ (b_out b1) t2) by (try reflexivity; try assumption; rewrite typ_edit; assumption).
    rewrite (bend_here _ a es 2 _ b2) by (try assumption; try reflexivity; cbn; rewrite Sh; reflexivity).
    rewrite (bend_skip _ a es 4 _ (b_out b2) t3) by (try reflexivity; try assumption; rewrite !typ_edit; assumption). rewrite Sh. reflexivity. }
  unfold handle_bends. assert (S1 := S0). unfold sequence in S0. destruct (nth_error (lines h) a) as [l|] eqn:El; [|discriminate]. cbn [option_map] in S0; assert (S0' : l_seq l = map RE es) by congruence. rewrite S0', map_length. change (List.length es) with 5%nat. rewrite L.
  cbn [bind_run]. set (h1 := edit _ _ _). assert (S2 : sequence h1 a = Some (map RE es)) by exact S1. clearbody h1.
  inversion N as [|? ? N1 Na]; subst. inversion Na as [|? ? N2 Nb]; subst. inversion Nb as [|? ? N3 Nc]; subst. cbn in N1, N2, N3.
  change (map RE [b_in b1; b_out b1; b_out b1; b_out b2]) with (RE (b_in b1) :: RE (b_out b1) :: RE (b_out b1) :: map RE [b_out b2]). cbn [remove_all].
  unfold es. pose proof (remove_here [] (b_in b1) [b_at b1; b_out b1; b_at b2; b_out b2] (fun f => f)) as R1. cbn [app] in R1. rewrite R1.
  pose proof (remove_here [b_at b1] (b_out b1) [b_at b2; b_out b2]) as R2. cbn [app] in R2. rewrite R2 by (cbn; intuition).
  assert (R3 : remove_ref (RE (b_out b1)) (map RE [b_at b1; b_at b2; b_out b2]) = None).
  { cbn [map remove_ref]. repeat match goal with |- context [ref_dec ?x ?y] => destruct (ref_dec x y) as [E|_]; [exfalso; injection E as E; intuition congruence|] end. reflexivity. }
  rewrite R3. eexists. split; [reflexivity|]. eapply seq_set. eapply seq_set. exact S2.
Qed.

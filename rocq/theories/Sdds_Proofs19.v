(** Lemmas for the SDDS claims: files that have been cut short. *)
From Coq Require Import List Bool Arith Ascii String ZArith Reals Lia.
From Verif Require Import PyBase PyText Lte_Spec Sdds_Model Sdds_Spec Sdds_Proofs Sdds_Proofs2 Sdds_Proofs3 Sdds_Proofs4 Sdds_Proofs6.
Import ListNotations.
Open Scope Z_scope.

Section Cut.
Variables (short rest : text).
Let F := short ++ rest.
Let k := Z.of_nat (List.length short).

Lemma frombuffer_cut : forall g c p a, frombuffer F g c p = Ok a -> 0 <= c -> exists size, dtype_size g = Ok size /\ 0 < size /\
  frombuffer short g c p = if p + size * c <=? k then Ok a else Err ValueError.
Proof.
  intros g c p a H C. unfold frombuffer in *. destruct (dtype_size g) as [size| |] eqn:D; cbn [rbind] in *; try discriminate. exists size. split; [reflexivity|].
  assert (I : item_size g = Ok size) by (unfold dtype_size in D; destruct (distinct (map fst g)); [assumption|discriminate]). assert (S0 := item_size_nonneg g size I).
  destruct (Z.eqb_spec size 0) as [Z0|NZ]; [discriminate|]. cbn [orb] in *. split; [lia|].
  destruct (Z.ltb_spec p 0) as [PN|PP]; [discriminate|]. cbn [orb] in *. destruct (Z.ltb_spec (Z.of_nat (List.length F) - p) 0) as [LN|LP]; [discriminate|].
  destruct (Z.ltb_spec c 0) as [CN|_]; [lia|]. destruct (Z.ltb_spec (Z.of_nat (List.length F) - p) (c * size)) as [TS|FT]; [discriminate|]. injection H as <-.
  fold k. destruct (Z.leb_spec (p + size * c) k) as [L|G].
  - destruct (Z.ltb_spec (k - p) 0) as [X|_]; [nia|]. destruct (Z.ltb_spec (k - p) (c * size)) as [X|_]; [lia|]. f_equal. f_equal.
    assert (PK : (Z.to_nat p <= List.length short)%nat) by (unfold k in L; nia).
    unfold F. rewrite skipn_app. replace (Z.to_nat p - List.length short)%nat with O by lia. cbn [skipn]. set (t := skipn (Z.to_nat p) short).
    assert (TL : List.length t = (List.length short - Z.to_nat p)%nat) by apply skipn_length.
    rewrite <- (firstn_skipn (Z.to_nat c * Z.to_nat size) t). rewrite <- app_assoc.
    assert (FL : List.length (firstn (Z.to_nat c * Z.to_nat size) t) = (Z.to_nat c * Z.to_nat size)%nat) by (rewrite firstn_length, TL; unfold k in L; rewrite <- Z2Nat.inj_mul by lia; lia).
    rewrite !decode_rows_app; [reflexivity| |exact FL| |exact FL]; rewrite Z2Nat.id by lia; exact I.
  - destruct (Z.ltb_spec (k - p) 0) as [_|X]; [reflexivity|]. destruct (Z.ltb_spec (k - p) (c * size)) as [_|X2]; [reflexivity|lia].
Qed.
Lemma fetch_cut : forall single whole p g c a src' p', fetch false single whole (Bytes F) p g (Some c) = Ok (a, src', p') -> 0 <= c ->
  src' = Bytes F /\ p <= p' /\ fetch false single whole (Bytes short) p g (Some c) = if p' <=? k then Ok (a, Bytes short, p') else Err ValueError.
Proof.
  intros single whole p g c a src' p' H C. cbn [fetch] in *. destruct (frombuffer F g c p) as [x| |] eqn:E; cbn [rbind] in H; try discriminate.
  destruct (frombuffer_cut g c p x E C) as [size [D [S0 R]]]. rewrite D in *. cbn [rbind] in H. injection H as <- <- <-. split; [reflexivity|]. split; [nia|]. rewrite R.
  destruct (p + size * c <=? k); reflexivity.
Qed.
Definition cut_as {A} (x y : res (A * source * Z)) (p : Z) : Prop :=
  match x with
  | Ok (a, src', p') => src' = Bytes F /\ p <= p' /\ y = if p' <=? k then Ok (a, Bytes short, p') else Err ValueError
  | _ => True
  end.
Lemma groups_on : forall varlen whole gs p prev l src2 p2, fetch_groups false varlen whole (Bytes F) p prev gs = Ok (l, src2, p2) -> src2 = Bytes F /\ p <= p2.
Proof.
  induction gs as [|g gs IH]; intros p prev l src2 p2 H; cbn [fetch_groups] in H; [injection H as <- <- <-; split; [reflexivity|lia]|].
  destruct (fetch false true whole (Bytes F) p (if varlen then fill prev g else g) (Some 1)) as [[[a src1] p1]| |] eqn:E; cbn [rbind] in H; try discriminate.
  destruct (fetch_cut _ _ _ _ _ _ _ _ E) as [-> [L1 _]]; [lia|]. destruct (fetch_groups false varlen whole (Bytes F) p1 (Some a) gs) as [[[l' src'] p']| |] eqn:E2; cbn [rbind] in H; try discriminate.
  injection H as <- <- <-. destruct (IH _ _ _ _ _ E2) as [-> L2]. split; [reflexivity|lia].
Qed.
Lemma groups_cut : forall varlen whole gs p prev, cut_as (fetch_groups false varlen whole (Bytes F) p prev gs) (fetch_groups false varlen whole (Bytes short) p prev gs) p \/ k < p.
Proof.
  intros varlen whole gs p prev. destruct (Z.le_gt_cases p k) as [PK|PK]; [left|now right]. revert p prev PK.
  induction gs as [|g gs IH]; intros p prev PK; cbn [fetch_groups].
  - split; [reflexivity|]. split; [lia|]. destruct (Z.leb_spec p k); [reflexivity|lia].
  - destruct (fetch false true whole (Bytes F) p (if varlen then fill prev g else g) (Some 1)) as [[[a src1] p1]| |] eqn:E; cbn [rbind cut_as]; try exact I.
    destruct (fetch_cut _ _ _ _ _ _ _ _ E) as [-> [L1 R1]]; [lia|]. rewrite R1. destruct (Z.leb_spec p1 k) as [Q|Q]; cbn [rbind].
    + specialize (IH p1 (Some a) Q). destruct (fetch_groups false varlen whole (Bytes F) p1 (Some a) gs) as [[[l src2] p2]| |]; cbn [cut_as rbind] in *; try exact I.
      destruct IH as [-> [L2 R2]]. split; [reflexivity|]. split; [lia|]. rewrite R2. destruct (p2 <=? k); reflexivity.
    + destruct (fetch_groups false varlen whole (Bytes F) p1 (Some a) gs) as [[[l src2] p2]| |] eqn:E2; cbn [rbind]; try exact I.
      destruct (groups_on _ _ _ _ _ _ _ _ E2) as [-> L2]. split; [reflexivity|]. split; [lia|]. destruct (Z.leb_spec p2 k); [lia|reflexivity].
Qed.
Lemma rows_on : forall varlen gs n p l src2 p2, fetch_rows n false varlen (Bytes F) p gs = Ok (l, src2, p2) -> src2 = Bytes F /\ p <= p2.
Proof.
  induction n as [|n IH]; intros p l src2 p2 H; cbn [fetch_rows] in H; [injection H as <- <- <-; split; [reflexivity|lia]|].
  destruct (fetch_groups false varlen false (Bytes F) p None gs) as [[[a src1] p1]| |] eqn:E; cbn [rbind] in H; try discriminate.
  destruct (groups_on _ _ _ _ _ _ _ _ E) as [-> L1]. destruct (fetch_rows n false varlen (Bytes F) p1 gs) as [[[l' src'] p']| |] eqn:E2; cbn [rbind] in H; try discriminate.
  injection H as <- <- <-. destruct (IH _ _ _ _ E2) as [-> L2]. split; [reflexivity|lia].
Qed.
Lemma groups_short : forall varlen whole gs p prev l src' p', fetch_groups false varlen whole (Bytes F) p prev gs = Ok (l, src', p') -> p <= k ->
  fetch_groups false varlen whole (Bytes short) p prev gs = if p' <=? k then Ok (l, Bytes short, p') else Err ValueError.
Proof.
  intros varlen whole gs p prev l src' p' H PK. destruct (groups_cut varlen whole gs p prev) as [C|C]; [|lia]. rewrite H in C. exact (proj2 (proj2 C)).
Qed.
Lemma rows_short : forall varlen gs n p l src' p', fetch_rows n false varlen (Bytes F) p gs = Ok (l, src', p') -> p <= k ->
  fetch_rows n false varlen (Bytes short) p gs = if p' <=? k then Ok (l, Bytes short, p') else Err ValueError.
Proof.
  induction n as [|n IH]; intros p l src' p' H PK; cbn [fetch_rows] in *.
  - injection H as <- <- <-. destruct (Z.leb_spec p k); [reflexivity|lia].
  - destruct (fetch_groups false varlen false (Bytes F) p None gs) as [[[a src1] p1]| |] eqn:E; cbn [rbind] in H; try discriminate.
    rewrite (groups_short _ _ _ _ _ _ _ _ E PK). destruct (groups_on _ _ _ _ _ _ _ _ E) as [-> L1].
    destruct (fetch_rows n false varlen (Bytes F) p1 gs) as [[[l' src2] p2]| |] eqn:E2; cbn [rbind] in H; try discriminate. injection H as <- <- <-.
    destruct (rows_on _ _ _ _ _ _ _ E2) as [_ L2]. destruct (Z.leb_spec p1 k) as [Q|Q]; cbn [rbind].
    + rewrite (IH _ _ _ _ E2 Q). destruct (p2 <=? k); reflexivity.
    + destruct (Z.leb_spec p2 k); [lia|reflexivity].
Qed.
Lemma column_short : forall r n p l src' p', r_ascii r = false -> column_data r (Bytes F) p (Some n) = Ok (l, src', p') -> 0 <= n -> p <= k ->
  column_data r (Bytes short) p (Some n) = if p' <=? k then Ok (l, Bytes short, p') else Err ValueError.
Proof.
  intros r n p l src' p' A H N PK. unfold column_data in *. rewrite A in *. destruct (r_ckeys r) as [|g [|h gs]].
  - eapply rows_short; eassumption.
  - destruct (fetch false false false (Bytes F) p g (Some n)) as [[[a src1] p1]| |] eqn:E; cbn [rbind] in H; try discriminate. injection H as <- <- <-.
    destruct (fetch_cut _ _ _ _ _ _ _ _ E N) as [-> [L1 R]]. rewrite R. destruct (p1 <=? k); reflexivity.
  - eapply rows_short; eassumption.
Qed.

(** a turn of the loop that starts inside a page of the short file *)
Lemma turn_cut : forall r ps cs pg i g p s, set_up r ps cs -> names_ok ps cs -> sound (r_max r) ps cs pg ->
  0 <= p -> skipn (Z.to_nat p) F = bytes ps cs pg ++ s -> p < k < p + Z.of_nat (List.length (bytes ps cs pg)) -> g_source g = Bytes short -> g_position g = p ->
  exists g', page_turn r None i g = (g', Err ValueError).
Proof.
  intros r ps cs pg i g p s SU NO SO P0 SK RG GS GP.
  assert (LF : Z.of_nat (List.length F) - p = Z.of_nat (List.length (bytes ps cs pg)) + Z.of_nat (List.length s)).
  { apply (f_equal (@List.length ascii)) in SK. rewrite skipn_length, app_length in SK. lia. }
  assert (A : ahead (Bytes F) p (bytes ps cs pg ++ s)) by (cbn [ahead]; split; [lia|exact SK]).
  destruct SO as [F1 [F2 BD]].
  destruct (page_params r ps cs pg (Bytes F) p s SU NO (conj F1 (conj F2 BD)) A) as [data [src1 [p1 [E1 [S1 [R1 [A1 B1]]]]]]].
  rewrite (su_ascii _ _ _ SU) in E1. destruct (groups_on _ _ _ _ _ _ _ _ E1) as [-> L1].
  assert (E1' := groups_short _ _ _ _ _ _ _ _ E1 ltac:(lia)).
  unfold page_turn. cbn [past wanted orb]. rewrite GS, GP, (su_ascii _ _ _ SU).
  assert (FE : file_end (Bytes short) p = false) by (cbn [file_end]; apply Z.leb_gt; fold k; lia). rewrite FE.
  destruct (Z.leb_spec p1 k) as [Q|Q]; rewrite E1'; [|eexists; reflexivity].
  rewrite S1. cbn [rbind g_pages g_rows g_source g_position].
  assert (RC : match c_columns (r_content r) with
               | [] => Ok (Some 0)
               | _ => if negb (truthy (field (r_data r) (T "no_row_counts"))) then do v <- entry_of row_counts data; Ok (Some (match v with VInt z => z | _ => 0 end)) else Ok (ascii_row_count (Bytes short) p1)
               end = Ok (Some (match cs with [] => 0 | _ => Z.of_nat (List.length (pg_rows pg)) end))).
  { destruct (c_columns (r_content r)) as [|d ds] eqn:CC.
    - destruct (su_columns _ _ _ SU) as [H _]. rewrite (H CC). reflexivity.
    - rewrite (su_counts _ _ _ SU). cbn [negb]. rewrite R1. cbn [rbind]. destruct cs; [|reflexivity].
      destruct (su_columns _ _ _ SU) as [_ H]. rewrite (H eq_refl) in CC. discriminate. }
  rewrite RC. cbn [ahead] in A1. destruct A1 as [A1 A2].
  assert (L2 : Z.of_nat (List.length F) - p1 = Z.of_nat (List.length (List.concat (map (stored_all (map snd cs)) (pg_rows pg)))) + Z.of_nat (List.length s)).
  { apply (f_equal (@List.length ascii)) in A2. rewrite skipn_length, app_length in A2. lia. }
  assert (CS : cs <> []).
  { intros ->. assert (X : List.concat (map (stored_all (map snd (@nil (text * kind)))) (pg_rows pg)) = []) by (cbn [map stored_all]; clear; induction (pg_rows pg); cbn; auto). rewrite X in L2. cbn in L2. lia. }
  assert (RW : pg_rows pg <> []) by (intros X; rewrite X in L2; cbn in L2; lia).
  replace (match cs with [] => 0 | _ => Z.of_nat (List.length (pg_rows pg)) end) with (Z.of_nat (List.length (pg_rows pg))) by (destruct cs; [contradiction|reflexivity]).
  destruct (page_columns r ps cs (pg_rows pg) (Bytes F) p1 s SU NO CS RW F2 (conj A1 A2)) as [data2 [src2 [p2 [E2 [S2 [A3 B2]]]]]].
  assert (SRC : src2 = Bytes F).
  { unfold column_data in E2. rewrite (su_ascii _ _ _ SU) in E2. destruct (r_ckeys r) as [|g0 [|h gs]].
    - exact (proj1 (rows_on _ _ _ _ _ _ _ E2)).
    - destruct (fetch false false false (Bytes F) p1 g0 (Some (Z.of_nat (List.length (pg_rows pg))))) as [[[a src3] p3]| |] eqn:E; cbn [rbind] in E2; try discriminate. injection E2 as <- <- <-.
      exact (proj1 (fetch_cut _ _ _ _ _ _ _ _ E ltac:(lia))).
    - exact (proj1 (rows_on _ _ _ _ _ _ _ E2)). }
  subst src2. cbn [ahead] in A3. destruct A3 as [A3 A4].
  assert (L3 : Z.of_nat (List.length F) - p2 = Z.of_nat (List.length s)) by (apply (f_equal (@List.length ascii)) in A4; rewrite skipn_length in A4; lia).
  rewrite (column_short r _ _ _ _ _ (su_ascii _ _ _ SU) E2 ltac:(lia) Q).
  destruct (Z.leb_spec p2 k) as [Q2|Q2]; [lia|].
  destruct (Z.of_nat (List.length (pg_rows pg))) as [|q|q] eqn:QQ; [destruct (pg_rows pg); [contradiction|discriminate]| |]; eexists; reflexivity.
Qed.
End Cut.

(** A buffered binary file that stops inside a page *)
Lemma loop_cut : forall r ps cs pg tail lost, set_up r ps cs -> names_ok ps cs -> bytes ps cs pg = tail ++ lost -> tail <> [] -> lost <> [] -> sound (r_max r) ps cs pg ->
  forall pgs fuel i g, Forall (sound (r_max r) ps cs) pgs -> buffered (g_source g) = true ->
  ahead (g_source g) (g_position g) (List.concat (map (bytes ps cs) pgs) ++ tail) -> (List.length pgs < fuel)%nat ->
  exists g', page_loop fuel r None i g = Some (g', Err ValueError).
Proof.
  intros r ps cs pg tail lost SU NO PB TN LN SO. induction pgs as [|q pgs IH]; intros fuel i g SS BU A FU; (destruct fuel as [|fuel]; [cbn in FU; lia|]).
  - cbn [map List.concat app] in A. destruct (g_source g) as [f|ls|f ptr] eqn:GS; cbn [ahead buffered] in *; [|contradiction|discriminate]. destruct A as [BD SK].
    assert (L : Z.of_nat (List.length f) - g_position g = Z.of_nat (List.length tail)) by (apply (f_equal (@List.length ascii)) in SK; rewrite skipn_length in SK; lia).
    assert (T0 : (0 < List.length tail)%nat) by (destruct tail; [contradiction|cbn; lia]). assert (T1 : (0 < List.length lost)%nat) by (destruct lost; [contradiction|cbn; lia]).
    destruct (turn_cut f lost r ps cs pg i g (g_position g) [] SU NO SO) as [g' X]; auto; try lia.
    + rewrite skipn_app, SK, app_nil_r, PB. replace (Z.to_nat (g_position g) - List.length f)%nat with O by lia. reflexivity.
    + rewrite PB, app_length. lia.
    + exists g'. cbn [page_loop]. rewrite X. reflexivity.
  - inversion SS as [|? ? S1 S2]; subst. cbn [map List.concat] in A. rewrite <- app_assoc in A.
    assert (FE := end_before_page ps cs q (g_source g) (g_position g) _ A (or_introl BU)).
    destruct (turn_page r ps cs q None i g (List.concat (map (bytes ps cs) pgs) ++ tail) SU NO S1 A FE eq_refl) as [g1 [X [_ [_ [A1 B1]]]]]; [left; reflexivity|].
    cbn [page_loop]. rewrite X. apply IH; [assumption|congruence|assumption|cbn in FU; lia].
Qed.
Lemma read_cut : forall h ps cs pgs pg tail lost max fuel, header_ok h -> declares h ps cs -> Forall fixed_readable (params_of (h_lines h)) -> binary_header h ->
  names_ok ps cs -> Forall (sound max ps cs) pgs -> sound max ps cs pg -> bytes ps cs pg = tail ++ lost -> tail <> [] -> lost <> [] -> (List.length pgs < fuel)%nat ->
  exists r r', open_sdds (header_text h ++ List.concat (map (bytes ps cs) pgs) ++ tail) true max = Ok r /\ read fuel r None = Some (r', Err ValueError).
Proof.
  intros h ps cs pgs pg tail lost max fuel HO DC FR BH NO SO SP PB TN LN FU.
  destruct (open_binary h ps cs (List.concat (map (bytes ps cs) pgs) ++ tail) true max HO DC FR BH) as [r [E [SU [RF [RB [RM [RP [P0 [R0 [C0 _]]]]]]]]]].
  destruct (start_ahead r ps cs (List.concat (map (bytes ps cs) pgs) ++ tail) SU) as [A BU].
  - rewrite RP, RF, Nat2Z.id. rewrite skipn_app, skipn_all, Nat.sub_diag. reflexivity.
  - rewrite RP, RF, app_length. lia.
  - rewrite RB in BU.
    destruct (loop_cut r ps cs pg tail lost SU NO PB TN LN ltac:(now rewrite RM) pgs fuel 0 {| g_pages := r_pages r; g_rows := r_rows r; g_source := source_of r; g_position := start r |}) as [g' X]; auto.
    { now rewrite RM. }
    exists r, (with_lists r (g_pages g') (g_rows g') (r_parameters r) (r_columns r)). split; [exact E|]. unfold read. fold (start r). rewrite X. reflexivity.
Qed.

(** Lemmas for the switchyard claims: elegant files that cannot be read back, Genesis files. *)
From Coq Require Import List Bool Arith Ascii String ZArith Reals Lra Lia.
From Verif Require Import PyBase PyText Lte_Spec Sdds_Model Sdds_Spec Sdds_Proofs Sdds_Proofs2 Sdds_Proofs3 Sdds_Proofs6 Sdds_Proofs7 Sdds_Proofs8 Sdds_Proofs9 Sdds_Proofs10 Sdds_Proofs19 Sdds_Samples
  Switch_Model Switch_Spec Switch_Proofs Switch_Proofs2.
Import ListNotations.
Open Scope Z_scope.

(* ------------------------------------------------------------------ *)
(** One particle, and none *)
Lemma elegant_one : forall nb s q fuel, Forall (representable nb) (coordinates s) -> exact nb q -> List.length (coordinates s) = 1%nat -> (1 < fuel)%nat -> total_charge s = Charge q ->
  exists f, write_elegant nb s = Ok f /\ read_elegant nb fuel f = Some (Err IndexError).
Proof.
  intros nb s q fuel F E L FU Q. destruct (written_loads nb s q fuel F E) as [OK LD]; [rewrite L; reflexivity|intros Z0; rewrite Z0 in L; discriminate|assumption|].
  unfold write_elegant. rewrite Q. destruct (save (elegant_writer nb s (Some q)) false (fun _ => []) (fun _ => [])) as [pieces x]. cbn [fst snd] in *. subst x. cbn [rbind].
  exists (List.concat pieces). split; [reflexivity|]. rewrite (read_loaded nb fuel _ _ _ LD). f_equal. unfold interpreted. rewrite charge_one. cbn [rbind map tables option_map].
  rewrite (column_one_row nb [(T "Charge", Double)] elegant_layout (written_page_of nb s q)); [reflexivity| | |].
  - apply written_good; [assumption|assumption|rewrite L; reflexivity].
  - unfold elegant_layout, elegant_names. cbn. tauto.
  - cbn [written_page_of pg_rows]. now rewrite map_length.
Qed.
Lemma elegant_none : forall nb s q fuel, exact nb q -> coordinates s = [] -> (1 < fuel)%nat -> total_charge s = Charge q ->
  exists f, write_elegant nb s = Ok f /\ read_elegant nb fuel f = Some (Err IndexError).
Proof.
  intros nb s q fuel E L FU Q. destruct (elegant_can_write nb s q) as [CW CN]; [rewrite L; constructor|assumption|rewrite L; reflexivity|]. rewrite L in CW.
  destruct (round_trip _ Double _ _ (fun _ => []) (fun _ => []) true 100 fuel CW CN FU (or_introl eq_refl)) as [OK [r [r' [O [R [P [C _]]]]]]].
  unfold write_elegant. rewrite Q. destruct (save (elegant_writer nb s (Some q)) false (fun _ => []) (fun _ => [])) as [pieces x]. cbn [fst snd] in *. subst x. cbn [rbind].
  exists (List.concat pieces). split; [reflexivity|]. cbn [w_cols elegant_writer List.length] in C. unfold read_elegant. rewrite O, R, P, C. cbn [w_params elegant_writer given p_data option_map map fst snd]. reflexivity.
Qed.

(* ------------------------------------------------------------------ *)
(** No total charge: the parameter is declared but not written *)
Definition zeros : text := repeat "000"%char 8.
Definition zero_writer (nb : numbers) (s : species) : writer :=
  {| w_params := [{| p_name := T "Charge"; p_data := Some (WDouble zeros); p_type := T "double"; p_units := T "C";
                     p_symbol := []; p_format := []; p_description := []; p_fixed := NoFix |}];
     w_cols := w_cols (elegant_writer nb s None) |}.
Lemma zero_can_write : forall nb s, Forall (representable nb) (coordinates s) -> Z.of_nat (List.length (coordinates s)) < 2 ^ 31 ->
  can_write (zero_writer nb s) Double (List.length (coordinates s)) (written_columns nb s).
Proof.
  intros nb s F L.
  assert (C : forall f, In f coordinate_fields -> Forall (fun b => List.length b = 8%nat) (map (fun p => bits nb (f p)) (coordinates s))).
  { intros f I. apply Forall_map. eapply Forall_impl; [|exact F]. intros p R. now apply (representable_exact nb p f R I). }
  assert (D : forall f, In f coordinate_fields -> data_of Double (CDouble (map (fun p => bits nb (f p)) (coordinates s))) (map (fun p => VDouble (bits nb (f p))) (coordinates s))).
  { intros f I. split; [now apply C|]. now rewrite map_map. }
  unfold coordinate_fields in D. cbn [In] in D.
  constructor; [|unfold written_columns, coordinate_fields; cbn [map zero_writer elegant_writer w_cols]|assumption|discriminate].
  - constructor; [|constructor]. split; [param_is|]. cbn [p_data p_type p_fixed]. split; [|reflexivity]. split; reflexivity.
  - repeat (constructor; [split; [col_is|]; split; [reflexivity|]; split; [apply D; tauto|now rewrite map_length]|]). constructor.
Qed.
Definition six : list kind := map snd elegant_layout.
Lemma saved_without : forall nb s, Forall (representable nb) (coordinates s) -> Z.of_nat (List.length (coordinates s)) < 2 ^ 31 ->
  snd (save (elegant_writer nb s None) false (fun _ => []) (fun _ => [])) = Ok tt /\
  List.concat (fst (save (elegant_writer nb s None) false (fun _ => []) (fun _ => []))) =
    header_text (written_header (zero_writer nb s) false) ++ little 4 (Z.of_nat (List.length (coordinates s))) ++ List.concat (map (fun p => stored_all six (written_row nb p)) (coordinates s)).
Proof.
  intros nb s F L. assert (CW := zero_can_write nb s F L). pose proof (cw_params _ _ _ _ CW) as P. pose proof (cw_cols _ _ _ _ CW) as C.
  unfold save. change (w_cols (elegant_writer nb s None)) with (w_cols (zero_writer nb s)). rewrite (stack_written Double _ _ _ C (cw_none _ _ _ _ CW)).
  assert (LN : List.length (map (map (stored Double)) (rows_from (List.length (coordinates s)) (written_columns nb s))) = List.length (coordinates s)) by (rewrite map_length; apply rows_length). rewrite LN. cbn [negb andb].
  replace (2 ^ 32 <=? Z.of_nat (List.length (coordinates s))) with false by (symmetry; apply Z.leb_gt; lia).
  cbn [elegant_writer w_params parameter_pieces p_data option_map fst snd]. split; [reflexivity|]. rewrite !concat_app. cbn [List.concat app].
  change (header_pieces (elegant_writer nb s None) false) with (header_pieces (zero_writer nb s) false).
  rewrite header_pieces_text; [|now apply params_ok_plain|].
  2: { eapply Forall_impl; [|eapply cols_meta; exact C]. intros c [M T]. split; [assumption|]. exists Double. assumption. }
  rewrite little_le, app_nil_r. f_equal. f_equal.
  rewrite <- (map_map (written_row nb) (stored_all six)), <- written_rows.
  assert (X := rows_stored Double _ _ _ C). cbn [zero_writer w_cols elegant_writer map] in X. rewrite app_nil_r. exact X.
Qed.
(** the same bytes, taken for a page that has the parameter *)
Fixpoint shifted (rows : list (list value)) (z : value) : list (list value) :=
  match rows with
  | [] => []
  | r :: rest => (tl r ++ [hd z (hd [] rest)]) :: shifted rest z
  end.
Lemma stored_app : forall a b va vb, List.length va = List.length a -> stored_all (a ++ b) (va ++ vb) = stored_all a va ++ stored_all b vb.
Proof. induction a as [|k a IH]; intros b [|v va] vb L; try discriminate; [reflexivity|]. cbn in *. rewrite IH by lia. now rewrite app_assoc. Qed.
Lemma shifted_bytes : forall nb z l, stored Double (hd z (hd [] (map (written_row nb) l))) ++ List.concat (map (stored_all six) (shifted (map (written_row nb) l) z)) =
  List.concat (map (fun p => stored_all six (written_row nb p)) l) ++ stored Double z.
Proof.
  intros nb z. induction l as [|p l IH]; [cbn; now rewrite app_nil_r|]. cbn [map shifted hd List.concat]. rewrite <- app_assoc, <- IH.
  generalize (hd z (hd [] (map (written_row nb) l))) as y. intros y. generalize (List.concat (map (stored_all six) (shifted (map (written_row nb) l) z))) as t. intros t.
  assert (E : exists a r, written_row nb p = a :: r /\ List.length r = 5%nat) by (eexists; eexists; split; reflexivity). destruct E as [a [r [-> LR]]].
  cbn [hd tl]. change six with (Double :: repeat Double 5). change (Double :: repeat Double 5) with (repeat Double 5 ++ [Double]) at 1. rewrite stored_app by (now rewrite LR).
  cbn [stored_all]. rewrite app_nil_r, <- !app_assoc. reflexivity.
Qed.
Lemma shifted_fit : forall nb z l, Forall (representable nb) l -> fits 100 Double z ->
  Forall (Forall2 (fits 100) six) (shifted (map (written_row nb) l) z) /\ fits 100 Double (hd z (hd [] (map (written_row nb) l))).
Proof.
  intros nb z l F Z. induction F as [|p l R F [IH1 IH2]]; [split; [constructor|assumption]|].
  destruct (fields_exact nb p R) as [X1 [X2 [X3 [X4 [X5 X6]]]]]. cbn [map shifted]. split; [constructor; [|assumption]|apply X1].
  unfold written_row at 1, coordinate_fields, six, elegant_layout, elegant_names. cbn [map tl app snd].
  repeat (constructor; [apply X1 || apply X2 || apply X3 || apply X4 || apply X5 || apply X6 || exact IH2|]). constructor.
Qed.
Lemma shifted_length : forall z rows, List.length (shifted rows z) = List.length rows.
Proof. induction rows as [|r rows IH]; [reflexivity|]. cbn. now rewrite IH. Qed.
Lemma elegant_no_charge : forall nb s fuel, Forall (representable nb) (coordinates s) -> Z.of_nat (List.length (coordinates s)) < 2 ^ 31 -> (0 < fuel)%nat -> total_charge s = NoCharge ->
  exists f, write_elegant nb s = Ok f /\ read_elegant nb fuel f = Some (Err ValueError).
Proof.
  intros nb s fuel F L FU Q. destruct (saved_without nb s F L) as [OK E]. unfold write_elegant. rewrite Q.
  destruct (save (elegant_writer nb s None) false (fun _ => []) (fun _ => [])) as [pieces x]. cbn [fst snd] in *. subst x. cbn [rbind].
  eexists. split; [reflexivity|]. rewrite E. apply read_failed.
  assert (CW := zero_can_write nb s F L). assert (CM := cols_meta _ _ _ _ (cw_cols _ _ _ _ CW)).
  assert (GT : Forall (fun c => col_meta c /\ good_type (w_type c)) (w_cols (zero_writer nb s))).
  { eapply Forall_impl; [|exact CM]. intros c [M T]. split; [assumption|]. exists Double. assumption. }
  set (z := VDouble zeros). destruct (shifted_fit nb z (coordinates s) F eq_refl) as [SF SH].
  set (pg := {| pg_params := [hd z (hd [] (map (written_row nb) (coordinates s)))]; pg_rows := shifted (map (written_row nb) (coordinates s)) z |}).
  assert (LR : List.length (pg_rows pg) = List.length (coordinates s)) by (cbn [pg pg_rows]; now rewrite shifted_length, map_length).
  destruct (read_cut (written_header (zero_writer nb s) false) [(T "Charge", Double)] elegant_layout [] pg
              (little 4 (Z.of_nat (List.length (coordinates s))) ++ List.concat (map (fun p => stored_all six (written_row nb p)) (coordinates s))) zeros 100 fuel) as [r [r' [O R]]].
  - exact (written_ok _ false (params_ok_plain _ (cw_params _ _ _ _ CW)) GT).
  - exact (written_declares _ false Double (cw_params _ _ _ _ CW) CM).
  - exact (written_fixed _ false (params_ok_plain _ (cw_params _ _ _ _ CW))).
  - exact (written_binary _).
  - split; [nodup|]. split; [nodup|]. split; no_char.
  - constructor.
  - split; [constructor; [exact SH|constructor]|]. split; [exact SF|]. rewrite LR. assumption.
  - unfold bytes, page_bytes. rewrite LR. cbn [map snd pg pg_params pg_rows stored_all]. rewrite app_nil_r, <- app_assoc. f_equal. apply (shifted_bytes nb z).
  - discriminate.
  - discriminate.
  - cbn. lia.
  - exists r, r'. auto.
Qed.

(* ------------------------------------------------------------------ *)
(** Genesis *)
Lemma rows_lines : forall A (show : fl -> text) (row : A -> list fl) l, List.concat (map (number_line show) (map row l)) = lines (map (fun p => shown_row show (row p)) l).
Proof. intros. unfold lines. rewrite !map_map. reflexivity. Qed.
Lemma times_map : forall l cts, map pct l = map (@Some R) cts -> map (fun p => ndiv (pct p) (Some light_speed)) l = map (@Some R) (times_of cts).
Proof.
  intros l cts H. unfold times_of. rewrite <- (map_map pct (fun v => ndiv v (Some light_speed))), H, !map_map. apply map_ext. intros c. apply ndiv_light.
Qed.
Lemma average_finite : forall ts, ts <> [] -> average (map (@Some R) ts) = Some (rsum ts / INR (List.length ts))%R.
Proof.
  intros ts N. unfold average. rewrite sum_finite, map_length. cbn [ndiv]. destruct (Req_EM_T (INR (List.length ts)) 0) as [E|_]; [|reflexivity].
  exfalso. apply N. apply (INR_eq _ 0) in E. destruct ts; [reflexivity|discriminate].
Qed.
Lemma genesis_times : forall s, Forall (fun p => finite (pct p)) (coordinates s) ->
  exists m ts, Forall2 (fun p t => exists ct, pct p = Some ct /\ t = (ct / 299792458 - m)%R) (coordinates s) ts /\ rsum ts = 0%R /\
    genesis_rows s = map (fun pt => genesis_row (fst pt) (snd pt)) (combine (coordinates s) ts).
Proof.
  intros s F. destruct (finite_list _ pct _ F) as [cts [E L]]. set (ts := times_of cts). exists (rsum ts / INR (List.length ts))%R, (centred ts).
  assert (LT : List.length ts = List.length (coordinates s)) by (unfold ts, times_of; now rewrite map_length).
  split; [|split; [apply centred_sum|]].
  - unfold centred. generalize (rsum ts / INR (List.length ts))%R as m. intros m. unfold ts, times_of. clear - E. revert cts E. induction (coordinates s) as [|p l IH]; intros [|c cts] E; try discriminate; [constructor|].
    cbn [map] in *. injection E as E1 E2. constructor; [exists c; split; [assumption|reflexivity]|]. now apply IH.
  - unfold genesis_rows. rewrite (times_map _ _ E). fold ts. destruct (coordinates s) as [|p0 l0] eqn:EC; [reflexivity|]. rewrite <- EC in *.
    rewrite average_finite by (intros Z; rewrite Z, EC in LT; discriminate). unfold centred. generalize (rsum ts / INR (List.length ts))%R as m. intros m. unfold ts, times_of. clear - E.
    revert cts E. induction (coordinates s) as [|p l IH]; intros [|c cts] E; try discriminate; [reflexivity|].
    cbn [map combine fst snd] in *. injection E as E1 E2. rewrite E1, ndiv_light. rewrite IH with (cts := cts) by assumption. reflexivity.
Qed.
Lemma sum_none : forall l, In None l -> sum l = None.
Proof. induction l as [|v l IH]; intros I; [contradiction|]. cbn [sum fold_right]. fold (sum l). destruct I as [->|I]; [reflexivity|]. rewrite (IH I). now destruct v. Qed.
Lemma genesis_undefined : forall s p, In p (coordinates s) -> pct p = None ->
  genesis_rows s = map (fun p => [px p; pux p; py p; puy p; None; ppt p]) (coordinates s).
Proof.
  intros s p I N. unfold genesis_rows. assert (A : average (map (fun p => ndiv (pct p) (Some light_speed)) (coordinates s)) = None).
  { unfold average. rewrite sum_none; [reflexivity|]. apply in_map_iff. exists p. split; [now rewrite N|assumption]. }
  rewrite A. apply map_ext. intros q. unfold minus. now destruct (ndiv (pct q) (Some light_speed)).
Qed.

(** * Claim C135: files converted from one code for another. *)
From Coq Require Import List Bool Arith Ascii String ZArith Reals Lra Lia.
From Verif Require Import PyBase PyText Lte_Spec Sdds_Model Sdds_Spec Sdds_Proofs Sdds_Proofs6 Sdds_Proofs7 Sdds_Proofs8 Sdds_Proofs9 Sdds_Proofs10 Sdds_Samples Sdds_Props
  Switch_Model Switch_Spec Switch_Proofs Switch_Proofs2 Switch_Proofs3 Switch_Proofs4 Switch_Props Opal_Props.
Import ListNotations.
Open Scope Z_scope.

(* ------------------------------------------------------------------ *)
(** ** Specification *)
Definition opal_of (x ux y uy z uz : R) : opal_particle := {| ox := Some x; opx := Some ux; oy := Some y; opy := Some uy; oz := Some z; opz := Some uz |}.
(** A particle that moves along the axis and whose elegant coordinates are doubles *)
Definition in_doubles (nb : numbers) (o : opal_particle) : Prop :=
  exists x ux y uy z uz, o = opal_of x ux y uy z uz /\ uz <> 0%R /\ Forall (fun v => exact nb (Some v)) [x; ux / uz; y; uy / uz; z / 299792458; uz]%R.
(** Step [k] of an OPAL file is read, and the elegant file written from it has these rows of
    numbers in the columns x, xp, y, yp, t and p, and this charge *)
Definition converts (nb : numbers) (fuel : nat) (w : world) (file : text) (k : Z) (q : R) (table : list (list R)) : Prop :=
  exists y out b rows, read_into nb fuel new_yard w file (T "opal") None (Some (Some k)) = Some (y, Ok tt) /\ write nb y (T "elegant") None None = Ok out /\
    loads out true 100 None fuel (Some [Some {| a_names := [T "row_counts"; T "Charge"]; a_rows := [[VInt (Z.of_nat (List.length table)); VDouble b]] |}])
      (Some [Some {| a_names := [T "x"; T "xp"; T "y"; T "yp"; T "t"; T "p"]; a_rows := rows |}]) /\
    num nb b = Some q /\ Forall2 (fun row numbers => Forall2 (fun v r => exists c, v = VDouble c /\ num nb c = Some r) row numbers) rows table.
(** The elegant file [rows] of a beam is read, and the OPAL file written from it has these numbers *)
Definition converts_back (nb : numbers) (fuel : nat) (w : world) (file : text) (table : list (list fl)) : Prop :=
  exists y, read_into nb fuel new_yard w file (T "elegant") None None = Some (y, Ok tt) /\
    write nb y (T "opal") None None = Ok (lines (dec (Z.of_nat (List.length table)) :: map (shown_row (sci nb)) table)).

(* ------------------------------------------------------------------ *)
(** ** Proofs *)
Lemma same_representable : forall nb o p, same_particle o p -> in_doubles nb o -> representable nb p.
Proof.
  intros nb o p (A & B & C & D & E & F) (x & ux & y & uy & z & uz & -> & N & X). destruct p as [a b c d e f]. cbn in *. subst.
  repeat match goal with H : Forall _ (_ :: _) |- _ => inversion H; clear H; subst end. exists x, ux, y, uy, z, uz. auto 10.
Qed.
Lemma all_representable : forall nb ps l, Forall2 same_particle ps l -> Forall (in_doubles nb) ps -> Forall (representable nb) l.
Proof. intros nb ps l F. induction F as [|o p ps l S F IH]; intros D; [constructor|]. inversion D; subst. constructor; [eapply same_representable; eauto|auto]. Qed.

Definition six (o : opal_particle) : list R :=
  match o with
  | {| ox := Some x; opx := Some ux; oy := Some y; opy := Some uy; oz := Some z; opz := Some uz |} => [x; ux / uz; y; uy / uz; z / 299792458; uz]%R
  | _ => []
  end.
Lemma row_numbers : forall nb o p, same_particle o p -> in_doubles nb o -> Forall2 (fun v r => exists c, v = VDouble c /\ num nb c = Some r) (written_row nb p) (six o).
Proof.
  intros nb o p S D. pose proof (same_representable nb o p S D) as R. destruct (fields_exact nb p R) as [[_ X1] [[_ X2] [[_ X3] [[_ X4] [[_ X5] [_ X6]]]]]].
  destruct D as (x & ux & y & uy & z & uz & -> & N & _). destruct S as (A & B & C & D & E & F). cbn in A, B, C, D, E, F. unfold written_row, coordinate_fields, six, opal_of. cbn [map].
  rewrite A, B, C, D, E, F in *. rewrite ndiv_light in *. unfold ndiv in *. destruct (Req_EM_T uz 0) as [Z0|_]; [contradiction|].
  repeat (constructor; [eexists; split; [reflexivity|assumption]|]). constructor.
Qed.
Lemma rows_numbers : forall nb ps l, Forall2 same_particle ps l -> Forall (in_doubles nb) ps ->
  Forall2 (fun row numbers => Forall2 (fun v r => exists c, v = VDouble c /\ num nb c = Some r) row numbers) (map (written_row nb) l) (map six ps).
Proof. intros nb ps l F. induction F as [|o p ps l S F IH]; intros D; [constructor|]. inversion D; subst. cbn [map]. constructor; [now apply row_numbers|auto]. Qed.
Lemma elegant_bytes : forall nb s (q : fl), total_charge s = Charge q -> snd (save (elegant_writer nb s (Some q)) false (fun _ => []) (fun _ => [])) = Ok tt ->
  write_elegant nb s = Ok (List.concat (fst (save (elegant_writer nb s (Some q)) false (fun _ => []) (fun _ => [])))).
Proof.
  intros nb s q Q. unfold write_elegant. rewrite Q. destruct (save (elegant_writer nb s (Some q)) false (fun _ => []) (fun _ => [])) as [pieces x]. cbn [fst snd]. intros ->. reflexivity.
Qed.
Lemma conversion : forall nb fuel w file f k g ps q, h5_files w file = Some f -> NoDup (map fst f) -> k <> 0 -> has_step f k g -> complete g ps (Some q) ->
  exact nb (Some q) -> Forall (in_doubles nb) ps -> ps <> [] -> Z.of_nat (List.length ps) < 2 ^ 31 -> (1 < fuel)%nat ->
  converts nb fuel w file k q (map six ps).
Proof.
  intros nb fuel w file f k g ps q W ND K H C E D NE L FU.
  destruct (C134_reads nb fuel new_yard w file f None (T "species_0") k g ps (Some q) W (or_introl (conj (or_introl eq_refl) eq_refl)) eq_refl ND K H C) as (y & s & R & G & F & Q).
  assert (LN : List.length (coordinates s) = List.length ps) by (symmetry; eapply Forall2_same; exact F).
  pose proof (all_representable nb _ _ F D) as RP.
  destruct (written_loads nb s (Some q) fuel RP E ltac:(now rewrite LN)) as [OK LD]; [intros Z0; rewrite Z0 in LN; destruct ps; [contradiction|discriminate]|assumption|].
  pose proof (elegant_bytes nb s (Some q) Q OK) as WE.
  exists y. eexists. exists (bits nb (Some q)), (map (written_row nb) (coordinates s)). split; [exact R|].
  split; [exact (elegant_written nb y None (T "species_0") s _ (or_introl (conj (or_introl eq_refl) eq_refl)) G WE)|].
  split; [|split; [apply E|now apply rows_numbers]].
  rewrite map_length, <- LN. exact LD.
Qed.

(* ------------------------------------------------------------------ *)
(** ** C135 Files converted from one code for another.
    Full statement: the file written describes the particles of the file read, in their order: the
    same positions, the same momenta (in an elegant file xp and yp are the slopes of the orbit and p
    the total momentum; in an OPAL file the three components are given) and the same order of
    arrival.
    From OPAL to elegant: positions, slopes and the charge are right. *)
Theorem C135_to_elegant_partial : forall nb fuel w file f k g ps q, h5_files w file = Some f -> NoDup (map fst f) -> k <> 0 -> has_step f k g -> complete g ps (Some q) ->
  exact nb (Some q) -> Forall (in_doubles nb) ps -> ps <> [] -> Z.of_nat (List.length ps) < 2 ^ 31 -> (1 < fuel)%nat ->
  exists table, converts nb fuel w file k q table /\
    Forall2 (fun o numbers => forall x ux y uy z uz, o = opal_of x ux y uy z uz -> exists t p, numbers = [x; ux / uz; y; uy / uz; t; p]%R) ps table.
Proof.
  intros nb fuel w file f k g ps q W ND K H C E D NE L FU. exists (map six ps). split; [eapply conversion; eauto|].
  clear. induction ps as [|o ps IH]; constructor; [|exact IH]. intros x ux y uy z uz ->. eexists _, _. reflexivity.
Qed.
Print Assumptions C135_to_elegant_partial.
(** The momentum is too small for every particle that has a transverse momentum. *)
Theorem C135_momentum_refuted : forall nb fuel w file f k g ps q, h5_files w file = Some f -> NoDup (map fst f) -> k <> 0 -> has_step f k g -> complete g ps (Some q) ->
  exact nb (Some q) -> Forall (in_doubles nb) ps -> ps <> [] -> Z.of_nat (List.length ps) < 2 ^ 31 -> (1 < fuel)%nat ->
  exists table, converts nb fuel w file k q table /\
    Forall2 (fun o numbers => forall x ux y uy z uz, o = opal_of x ux y uy z uz -> ux <> 0%R \/ uy <> 0%R ->
      exists p, nth_error numbers 5 = Some p /\ (p < total ux uy uz)%R) ps table.
Proof.
  intros nb fuel w file f k g ps q W ND K H C E D NE L FU. exists (map six ps). split; [eapply conversion; eauto|].
  clear. induction ps as [|o ps IH]; constructor; [|exact IH]. intros x ux y uy z uz -> T0. exists uz. split; [reflexivity|]. unfold total.
  assert (P : (0 < ux * ux + uy * uy)%R) by (destruct T0 as [N|N]; pose proof (Rlt_0_sqr _ N); [pose proof (Rle_0_sqr uy)|pose proof (Rle_0_sqr ux)]; unfold Rsqr in *; lra).
  destruct (Rle_or_lt 0 uz) as [S|S].
  - rewrite <- (sqrt_square uz) at 1 by exact S. apply sqrt_lt_1; pose proof (Rle_0_sqr uz); unfold Rsqr in *; lra.
  - apply Rlt_le_trans with 0%R; [exact S|apply sqrt_pos].
Qed.
Print Assumptions C135_momentum_refuted.
(** Of two particles the one further ahead is said to arrive later. *)
Theorem C135_order_refuted : forall nb fuel w file f k g ps q, h5_files w file = Some f -> NoDup (map fst f) -> k <> 0 -> has_step f k g -> complete g ps (Some q) ->
  exact nb (Some q) -> Forall (in_doubles nb) ps -> ps <> [] -> Z.of_nat (List.length ps) < 2 ^ 31 -> (1 < fuel)%nat ->
  exists table, converts nb fuel w file k q table /\
    forall i j x ux y uy z uz x' ux' y' uy' z' uz', nth_error ps i = Some (opal_of x ux y uy z uz) -> nth_error ps j = Some (opal_of x' ux' y' uy' z' uz') -> (z < z')%R ->
      exists a b t t', nth_error table i = Some a /\ nth_error table j = Some b /\ nth_error a 4 = Some t /\ nth_error b 4 = Some t' /\ (t < t')%R.
Proof.
  intros nb fuel w file f k g ps q W ND K H C E D NE L FU. exists (map six ps). split; [eapply conversion; eauto|].
  intros i j x ux y uy z uz x' ux' y' uy' z' uz' I J O. exists (six (opal_of x ux y uy z uz)), (six (opal_of x' ux' y' uy' z' uz')), (z / 299792458)%R, (z' / 299792458)%R.
  split; [now apply map_nth_error|]. split; [now apply map_nth_error|]. split; [reflexivity|]. split; [reflexivity|]. lra.
Qed.
Print Assumptions C135_order_refuted.

(** From elegant to OPAL: the positions and the slopes are right. *)
Lemma back_rows : forall nb (cs : list (text * kind)) rows l, Forall2 (particle_of nb (map fst cs)) rows l ->
  Forall2 (fun row numbers => forall x xp y yp t p, cell (map fst cs) row (T "x") (VDouble x) -> cell (map fst cs) row (T "xp") (VDouble xp) -> cell (map fst cs) row (T "y") (VDouble y) ->
    cell (map fst cs) row (T "yp") (VDouble yp) -> cell (map fst cs) row (T "t") (VDouble t) -> cell (map fst cs) row (T "p") (VDouble p) ->
    forall x' xp' y' yp' t' p', [num nb x; num nb xp; num nb y; num nb yp; num nb t; num nb p] = map Some [x'; xp'; y'; yp'; t'; p'] ->
    numbers = map Some [x'; xp' * p'; y'; yp' * p'; t' * 299792458; p']%R)
    rows (map (fun p => [px p; pux p; py p; puy p; pct p; ppt p]) l).
Proof.
  intros nb cs rows l F. induction F as [|row q rows l P F IH]; constructor; [|exact IH]. intros x xp y yp t p C1 C2 C3 C4 C5 C6 x' xp' y' yp' t' p' N.
  destruct (P x xp y yp t p C1 C2 C3 C4 C5 C6) as (A & B & C & D & E & G). injection N as N1 N2 N3 N4 N5 N6. rewrite A, B, C, D, E, G, N1, N2, N3, N4, N5, N6. reflexivity.
Qed.
Theorem C135_to_opal_partial : forall nb h ps cs pgs fuel n w file, header_for h ps cs -> binary_header h -> Forall (sound 100 ps cs) pgs -> (List.length pgs < fuel)%nat ->
  Forall (same_length n) pgs -> (0 < n)%nat -> elegant_columns cs -> charge_readable ps -> pgs <> [] ->
  (List.length pgs = 1%nat /\ (1 < n)%nat) \/ ((1 < List.length pgs)%nat /\ n = 1%nat) -> sdds_files w file = Some (binary_file h ps cs pgs) ->
  exists table, converts_back nb fuel w file table /\
    Forall2 (fun row numbers => forall x xp y yp t p, cell (map fst cs) row (T "x") (VDouble x) -> cell (map fst cs) row (T "xp") (VDouble xp) -> cell (map fst cs) row (T "y") (VDouble y) ->
      cell (map fst cs) row (T "yp") (VDouble yp) -> cell (map fst cs) row (T "t") (VDouble t) -> cell (map fst cs) row (T "p") (VDouble p) ->
      forall x' xp' y' yp' t' p', [num nb x; num nb xp; num nb y; num nb yp; num nb t; num nb p] = map Some [x'; xp'; y'; yp'; t'; p'] -> p' <> 0%R ->
      exists ux uy z uz, numbers = map Some [x'; ux; y'; uy; z; uz] /\ (ux / uz = xp' /\ uy / uz = yp')%R) (rows_of_pages pgs) table.
Proof.
  intros nb h ps cs pgs fuel n w file HF BH SO FU EQ N EC CR NE H W.
  destruct (C94_rows_partial nb h ps cs pgs fuel n HF BH SO FU EQ N EC CR NE H new_yard w file None (T "species_0") W (or_introl (conj (or_introl eq_refl) eq_refl)) eq_refl) as (y & s & R & G & F).
  exists (map (fun p => [px p; pux p; py p; puy p; pct p; ppt p]) (coordinates s)). split.
  - exists y. split; [exact R|]. rewrite (C95_opal nb y None (T "species_0") s (or_introl (conj (or_introl eq_refl) eq_refl)) G). rewrite map_length, map_map. reflexivity.
  - pose proof (back_rows nb cs _ _ F) as B. clear - B. induction B as [|row nums rows l X B IH]; constructor; [|exact IH].
    intros x xp y yp t p C1 C2 C3 C4 C5 C6 x' xp' y' yp' t' p' E NZ. rewrite (X x xp y yp t p C1 C2 C3 C4 C5 C6 x' xp' y' yp' t' p' E).
    eexists _, _, _, _. split; [reflexivity|]. split; field; exact NZ.
Qed.
Print Assumptions C135_to_opal_partial.
(** The total momentum is too large for every particle with a slope, and the particle that arrives
    later is put further ahead. *)
Theorem C135_back_refuted : forall nb h ps cs pgs fuel n w file, header_for h ps cs -> binary_header h -> Forall (sound 100 ps cs) pgs -> (List.length pgs < fuel)%nat ->
  Forall (same_length n) pgs -> (0 < n)%nat -> elegant_columns cs -> charge_readable ps -> pgs <> [] ->
  (List.length pgs = 1%nat /\ (1 < n)%nat) \/ ((1 < List.length pgs)%nat /\ n = 1%nat) -> sdds_files w file = Some (binary_file h ps cs pgs) ->
  exists table, converts_back nb fuel w file table /\
    Forall2 (fun row numbers => forall x xp y yp t p, cell (map fst cs) row (T "x") (VDouble x) -> cell (map fst cs) row (T "xp") (VDouble xp) -> cell (map fst cs) row (T "y") (VDouble y) ->
      cell (map fst cs) row (T "yp") (VDouble yp) -> cell (map fst cs) row (T "t") (VDouble t) -> cell (map fst cs) row (T "p") (VDouble p) ->
      forall x' xp' y' yp' t' p', [num nb x; num nb xp; num nb y; num nb yp; num nb t; num nb p] = map Some [x'; xp'; y'; yp'; t'; p'] -> (0 < p')%R -> xp' <> 0%R \/ yp' <> 0%R ->
      exists ux uy uz, numbers = map Some [x'; ux; y'; uy; 299792458 * t'; uz]%R /\ (p' < total ux uy uz)%R) (rows_of_pages pgs) table.
Proof.
  intros nb h ps cs pgs fuel n w file HF BH SO FU EQ N EC CR NE H W.
  destruct (C94_rows_partial nb h ps cs pgs fuel n HF BH SO FU EQ N EC CR NE H new_yard w file None (T "species_0") W (or_introl (conj (or_introl eq_refl) eq_refl)) eq_refl) as (y & s & R & G & F).
  exists (map (fun p => [px p; pux p; py p; puy p; pct p; ppt p]) (coordinates s)). split.
  - exists y. split; [exact R|]. rewrite (C95_opal nb y None (T "species_0") s (or_introl (conj (or_introl eq_refl) eq_refl)) G). rewrite map_length, map_map. reflexivity.
  - pose proof (back_rows nb cs _ _ F) as B. clear - B. induction B as [|row nums rows l X B IH]; constructor; [|exact IH].
    intros x xp y yp t p C1 C2 C3 C4 C5 C6 x' xp' y' yp' t' p' E PP T0. rewrite (X x xp y yp t p C1 C2 C3 C4 C5 C6 x' xp' y' yp' t' p' E).
    exists (xp' * p')%R, (yp' * p')%R, p'. split; [cbn [map]; now rewrite (Rmult_comm 299792458)|]. unfold total.
    assert (NZ : forall a, a <> 0%R -> (0 < a * p' * (a * p'))%R) by (intros a A; apply Rlt_0_sqr; apply Rmult_integral_contrapositive_currified; lra).
    assert (GE : forall a, (0 <= a * p' * (a * p'))%R) by (intros a; apply Rle_0_sqr).
    rewrite <- (sqrt_square p') at 1 by lra. apply sqrt_lt_1; [apply Rle_0_sqr|pose proof (GE xp'); pose proof (GE yp'); pose proof (Rle_0_sqr p'); unfold Rsqr in *; lra|].
    pose proof (GE xp'). pose proof (GE yp'). destruct T0 as [Y|Y]; pose proof (NZ _ Y); lra.
Qed.
Print Assumptions C135_back_refuted.

(** Cases: an OPAL step with three particles, and an elegant file of one page with two rows. *)
Definition step_three : h5group :=
  {| g_data := [(T "x", map px (coordinates bunch)); (T "px", map pux (coordinates bunch)); (T "y", map py (coordinates bunch)); (T "py", map puy (coordinates bunch));
                (T "z", map pct (coordinates bunch)); (T "pz", map ppt (coordinates bunch))]; g_attrs := [(T "TotalCharge", Some 2%R)] |}.
Definition step_disk : world := {| sdds_files := fun _ => None; h5_files := fun _ => Some [(T "Step#7", step_three)] |}.
Definition step_particles : list opal_particle := map (fun p => {| ox := px p; opx := pux p; oy := py p; opy := puy p; oz := pct p; opz := ppt p |}) (coordinates bunch).
Lemma step_complete : complete step_three step_particles (Some 2%R).
Proof.
  split; [unfold lookup_key; key_at|]. split; [left; split; [unfold lookup_key; key_at|intros X; injection X; lra]|].
  intros name field [I|[I|[I|[I|[I|[]]]]]]; injection I as <- <-; (eexists; split; [unfold lookup_key; key_at|left; reflexivity]).
Qed.
Lemma step_doubles : Forall (in_doubles whole) step_particles.
Proof.
  pose proof bunch_fits as B. unfold step_particles. apply Forall_map. eapply Forall_impl; [|exact B]. intros p (x & ux & y & uy & ct & pt & -> & N & X1 & X2 & X3 & X4 & X5 & X6).
  exists x, ux, y, uy, ct, pt. split; [reflexivity|]. split; [exact N|]. repeat (constructor; [assumption|]). constructor.
Qed.
Example C135_applies : (exists table, converts whole 2 step_disk [] 7 2 table /\ List.length table = 3%nat /\ exists row, nth_error table 0 = Some row /\ nth_error row 1 = Some 1%R /\ nth_error row 3 = Some (-3)%R) /\
  (exists table, converts_back whole 3 (beam_disk [beam_page false [1; 2]]) [] table /\ exists ux uy uz, nth_error table 1 = Some (map Some [2; ux; 2; uy; 299792458 * 2; uz]%R) /\ (2 < total ux uy uz)%R).
Proof.
  split.
  - destruct (C135_to_elegant_partial whole 2 step_disk [] [(T "Step#7", step_three)] 7 step_three step_particles 2) as (table & C & F);
      [reflexivity|nodup|discriminate|now left|apply step_complete|apply (whole_exact 2); cbn; tauto|apply step_doubles|discriminate|cbn; lia|lia|].
    exists table. split; [exact C|]. inversion F as [|a row ? l A F1]; subst. inversion F1 as [|b row1 ? l1 B F2]; subst. inversion F2 as [|c row2 ? l2 D F3]; subst. inversion F3; subst.
    split; [reflexivity|]. exists row. split; [reflexivity|]. destruct (A _ _ _ _ _ _ eq_refl) as (t & p & ->). split; cbn [nth_error]; f_equal; field.
  - destruct (C135_back_refuted whole (beam_header false) (beam_params false) beam_columns [beam_page false [1; 2]] 3 2 (beam_disk [beam_page false [1; 2]]) []) as (table & C & F).
    + apply beam_header_for.
    + apply beam_header_binary.
    + repeat (constructor; [apply beam_sound; [cbn; lia|repeat constructor]|]). constructor.
    + cbn; lia.
    + repeat constructor.
    + lia.
    + apply beam_elegant.
    + apply beam_charge.
    + discriminate.
    + left. split; [reflexivity|lia].
    + reflexivity.
    + exists table. split; [exact C|]. inversion F as [|a row ? l A F1]; subst. inversion F1 as [|b row1 ? l1 B F2]; subst. inversion F2; subst. cbn [nth_error].
      destruct (whole_exact 2) as [_ X]; [cbn; tauto|]. change (bits whole (Some (IZR 2))) with (double_bits (Int_part (IZR 2))) in X. rewrite int_part in X.
      assert (Cl : forall m, In m elegant_names -> cell (map fst beam_columns) (beam_row 2) m (VDouble (double_bits 2))).
      { intros m I. unfold cell, beam_row, beam_columns. cbn [map fst repeat combine]. generalize (double_bits 2). intros d. unfold elegant_names in I. cbn [In] in *. destruct I as [<-|[<-|[<-|[<-|[<-|[<-|[]]]]]]]; tauto. }
      destruct names_in as [I1 [I2 [I3 [I4 [I5 I6]]]]].
      destruct (B _ _ _ _ _ _ (Cl _ I1) (Cl _ I2) (Cl _ I3) (Cl _ I4) (Cl _ I5) (Cl _ I6) 2%R 2%R 2%R 2%R 2%R 2%R) as (ux & uy & uz & E & P); [rewrite X; reflexivity|lra|left; lra|].
      exists ux, uy, uz. split; [now rewrite E|exact P].
Qed.

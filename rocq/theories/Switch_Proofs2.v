(** Lemmas for the switchyard claims: elegant files. *)
From Coq Require Import List Bool Arith Ascii String ZArith Reals Lia Lra.
From Verif Require Import PyBase PyText Lte_Spec Sdds_Model Sdds_Spec Sdds_Proofs Sdds_Proofs7 Sdds_Proofs9 Sdds_Samples Switch_Model Switch_Spec Switch_Proofs.
Import ListNotations.
Open Scope Z_scope.

(** what is made of the tables of a file *)
Definition interpreted (nb : numbers) (P C : list (option array)) : res species :=
  do q <- charge_of nb (Some P);
  match tables C with
  | None | Some [] => Err IndexError
  | Some ts =>
      do xs <- column_of nb ts (T "x"); do xps <- column_of nb ts (T "xp"); do ys <- column_of nb ts (T "y");
      do yps <- column_of nb ts (T "yp"); do tms <- column_of nb ts (T "t"); do ps <- column_of nb ts (T "p");
      Ok {| coordinates := elegant_rows xs xps ys yps tms ps; sp_charge := Some (-1)%R; sp_mass := Some 511000%R; total_charge := q |}
  end.
Lemma read_loaded : forall nb fuel f P C, loads f true 100 None fuel (Some P) (Some C) -> read_elegant nb fuel f = Some (interpreted nb P C).
Proof. intros nb fuel f P C [r [r' [O [R [EP EC]]]]]. unfold read_elegant. rewrite O, R, EP, EC. reflexivity. Qed.
Lemma read_failed : forall nb fuel f e, load_fails f true 100 None fuel e -> read_elegant nb fuel f = Some (Err e).
Proof. intros nb fuel f e [r [r' [O R]]]. unfold read_elegant. rewrite O, R. reflexivity. Qed.
Lemma tables_some : forall l, tables (map (@Some array) l) = Some l.
Proof. induction l as [|a l IH]; [reflexivity|]. cbn. now rewrite IH. Qed.
Lemma all_ok_map : forall A B (f : A -> res B) (g : A -> B) l, (forall x, In x l -> f x = Ok (g x)) -> all_ok (map f l) = Ok (map g l).
Proof. induction l as [|x l IH]; intros H; [reflexivity|]. cbn. rewrite H by now left. cbn. rewrite IH by (intros; apply H; now right). reflexivity. Qed.

(** entries by name *)
Lemma position_in : forall n l, In n l -> exists i, position_of n l = Some i /\ (i < List.length l)%nat /\ nth i l [] = n.
Proof.
  induction l as [|x l IH]; intros I; [contradiction|]. cbn [position_of]. destruct (teqb x n) eqn:E.
  - apply teqb_eq in E. exists 0%nat. cbn. split; [reflexivity|]. split; [lia|assumption].
  - destruct I as [->|I]; [now rewrite teqb_refl in E|]. destruct (IH I) as [i [-> [L N]]]. exists (Datatypes.S i). cbn. split; [reflexivity|]. split; [lia|assumption].
Qed.
Lemma position_none : forall n l, ~ In n l -> position_of n l = None.
Proof. induction l as [|x l IH]; intros N; [reflexivity|]. cbn [position_of]. destruct (teqb x n) eqn:E; [apply teqb_eq in E; contradiction N; now left|]. rewrite IH; [reflexivity|]. intros I. apply N. now right. Qed.
Lemma combine_nth_in : forall (l : list text) (row : list value) i, List.length row = List.length l -> (i < List.length l)%nat -> In (nth i l [], nth i row (VInt 0)) (combine l row).
Proof. intros l row i L I. rewrite <- combine_nth by (now symmetry). apply nth_In. rewrite combine_length. lia. Qed.
Lemma entries_missing : forall n pages, pages <> [] -> (forall a, In a pages -> ~ In n (a_names a)) -> entries n pages = Err ValueError.
Proof. intros n [|a pages] N H; [contradiction|]. unfold entries. cbn. rewrite (position_none n (a_names a)); [reflexivity|]. apply H. now left. Qed.
Lemma entries_cells : forall n names pages, In n names -> (forall a, In a pages -> a_names a = names /\ Forall (fun row => List.length row = List.length names) (a_rows a)) ->
  exists vs, entries n pages = Ok vs /\ Forall2 (fun row v => cell names row n v) (List.concat (map a_rows pages)) vs.
Proof.
  intros n names pages I H. destruct (position_in n names I) as [i [P [L N]]]. unfold entries.
  rewrite (all_ok_map _ _ _ (fun a => map (fun row => nth i row (VInt 0)) (a_rows a))).
  2: { intros a J. destruct (H a J) as [-> _]. now rewrite P. }
  cbn [rbind]. eexists. split; [reflexivity|].
  replace (List.concat (map (fun a => map (fun row => nth i row (VInt 0)) (a_rows a)) pages)) with (map (fun row => nth i row (VInt 0)) (List.concat (map a_rows pages))) by (rewrite concat_map, map_map; reflexivity).
  assert (F : Forall (fun row => List.length row = List.length names) (List.concat (map a_rows pages))).
  { apply Forall_forall. intros row J. apply in_concat in J. destruct J as [rows [J K]]. apply in_map_iff in J. destruct J as [a [<- J]]. destruct (H a J) as [_ F]. rewrite Forall_forall in F. now apply F. }
  induction F as [|row rows E F IH]; cbn [map]; constructor; [|exact IH]. unfold cell. rewrite <- N at 1. now apply combine_nth_in.
Qed.
Lemma cell_double : forall max ks vs names n v, Forall2 (fits max) ks vs -> List.length names = List.length ks -> NoDup names -> In (n, Double) (combine names ks) -> cell names vs n v -> exists b, v = VDouble b.
Proof.
  intros max ks vs names n v F. revert names. induction F as [|k w ks vs H F IH]; intros [|m names] L ND I C; try discriminate; [contradiction I|]. cbn in *. inversion ND; subst.
  destruct C as [C|C].
  - injection C as -> ->. destruct I as [I|I]; [|apply in_combine_l in I; contradiction]. injection I as ->. destruct v; try contradiction. eauto.
  - destruct I as [I|I]; [injection I as -> ->; apply in_combine_l in C; contradiction|]. eapply IH; eauto.
Qed.
Lemma cell_fun : forall names row n v w, NoDup names -> cell names row n v -> cell names row n w -> v = w.
Proof.
  induction names as [|m names IH]; intros row n v w ND A B; [contradiction|]. destruct row as [|x row]; [contradiction|]. cbn in A, B. inversion ND; subst.
  destruct A as [A|A], B as [B|B]; try congruence; try (injection A as -> ->; apply in_combine_l in B; contradiction); try (injection B as -> ->; apply in_combine_l in A; contradiction). eapply IH; eassumption.
Qed.

(* ------------------------------------------------------------------ *)
(** Pages of columns *)
Notation all_rows := rows_of_pages.
Definition good_pages (ps cs : list (text * kind)) (pgs : list page) : Prop := Forall (sound 100 ps cs) pgs /\ NoDup (map fst cs) /\ elegant_columns cs.
Lemma fits_length : forall max ks vs, Forall2 (fits max) ks vs -> List.length vs = List.length ks.
Proof. induction 1; cbn; congruence. Qed.
Lemma sound_rows : forall ps cs pgs, Forall (sound 100 ps cs) pgs -> Forall (Forall2 (fits 100) (map snd cs)) (all_rows pgs).
Proof.
  intros ps cs pgs F. apply Forall_forall. intros row I. apply in_concat in I. destruct I as [rows [I J]]. apply in_map_iff in I. destruct I as [pg [<- I]].
  rewrite Forall_forall in F. destruct (F pg I) as [_ [R _]]. rewrite Forall_forall in R. now apply R.
Qed.
Lemma combine_pairs : forall (A B : Type) (l : list (A * B)), combine (map fst l) (map snd l) = l.
Proof. induction l as [|[a b] l IH]; [reflexivity|]. cbn. now rewrite IH. Qed.
Lemma entries_doubles : forall ps cs pgs n, good_pages ps cs pgs -> In (n, Double) cs ->
  exists bs, entries n (map (col_page cs) pgs) = Ok (map VDouble bs) /\ Forall2 (fun row b => cell (map fst cs) row n (VDouble b)) (all_rows pgs) bs.
Proof.
  intros ps cs pgs n [F [ND EC]] I. destruct (entries_cells n (map fst cs) (map (col_page cs) pgs)) as [vs [E C]].
  - now apply (in_map fst) in I.
  - intros a J. apply in_map_iff in J. destruct J as [pg [<- J]]. split; [reflexivity|]. cbn [col_page a_rows]. rewrite Forall_forall in F. destruct (F pg J) as [_ [R _]].
    eapply Forall_impl; [|exact R]. intros row X. apply fits_length in X. rewrite map_length in X. now rewrite map_length.
  - rewrite map_map in C. change (map (fun x => a_rows (col_page cs x)) pgs) with (map pg_rows pgs) in C. fold (all_rows pgs) in C.
    assert (R := sound_rows ps cs pgs F). enough (X : exists bs, vs = map VDouble bs /\ Forall2 (fun row b => cell (map fst cs) row n (VDouble b)) (all_rows pgs) bs).
    2: { clear E. revert R C. generalize (all_rows pgs) as rows. intros rows R C. induction C as [|row v rows vs H C IH]; [exists []; split; [reflexivity|constructor]|].
      inversion R as [|r0 l0 R1 R2]; subst. destruct (IH R2) as [bs [-> B]]. destruct (cell_double 100 (map snd cs) row (map fst cs) n v) as [b ->]; [assumption|now rewrite !map_length|assumption|now rewrite combine_pairs|assumption|].
      exists (b :: bs). split; [reflexivity|now constructor]. }
    destruct X as [bs [-> B]]. exists bs. split; assumption.
Qed.
Lemma Forall2_same : forall A B (R : A -> B -> Prop) l m, Forall2 R l m -> List.length l = List.length m.
Proof. induction 1; cbn; congruence. Qed.
Lemma column_doubles : forall nb ps cs pgs n, good_pages ps cs pgs -> In (n, Double) cs ->
  (exists pg, pgs = [pg] /\ List.length (pg_rows pg) <> 1%nat) \/ (List.length pgs <> 1%nat /\ Forall (same_length 1) pgs) ->
  exists bs, column_of nb (map (col_page cs) pgs) n = Ok (map (num nb) bs) /\ Forall2 (fun row b => cell (map fst cs) row n (VDouble b)) (all_rows pgs) bs.
Proof.
  intros nb ps cs pgs n G I H. destruct (entries_doubles ps cs pgs n G I) as [bs [E B]]. exists bs. split; [|assumption]. unfold column_of. rewrite E. cbn [rbind]. rewrite map_length.
  assert (K : all_ok (map (to_number nb) (map VDouble bs)) = Ok (map (num nb) bs)).
  { rewrite map_map. now apply (all_ok_map _ _ _ (num nb)). }
  destruct H as [[pg [-> N]] | [N F]].
  - cbn [List.length]. unfold all_rows in B. cbn in B. rewrite app_nil_r in B. apply Forall2_same in B. destruct bs as [|b [|b' bs]]; [assumption|cbn in B; congruence|assumption].
  - replace (forallb _ _) with true.
    + destruct (List.length pgs) as [|[|m]]; [assumption|contradiction|assumption].
    + symmetry. apply forallb_forall. intros a J. apply in_map_iff in J. destruct J as [pg [<- J]]. rewrite Forall_forall in F. cbn [col_page a_rows]. rewrite (F pg J). reflexivity.
Qed.
Lemma column_one_row : forall nb ps cs pg n, good_pages ps cs [pg] -> In (n, Double) cs -> List.length (pg_rows pg) = 1%nat -> column_of nb [col_page cs pg] n = Err IndexError.
Proof.
  intros nb ps cs pg n G I L. destruct (entries_doubles ps cs [pg] n G I) as [bs [E B]]. unfold column_of. cbn [map] in E. rewrite E. cbn [rbind List.length].
  unfold all_rows in B. cbn in B. rewrite app_nil_r in B. apply Forall2_same in B. destruct bs as [|b [|b' bs]]; [cbn in B; congruence|reflexivity|cbn in B; congruence].
Qed.
Lemma column_many_pages : forall nb ps cs pgs n, good_pages ps cs pgs -> In (n, Double) cs -> (1 < List.length pgs)%nat -> (exists pg, In pg pgs /\ List.length (pg_rows pg) <> 1%nat) ->
  column_of nb (map (col_page cs) pgs) n = Err ValueError.
Proof.
  intros nb ps cs pgs n G I L [pg [J N]]. destruct (entries_doubles ps cs pgs n G I) as [bs [E B]]. unfold column_of. rewrite E. cbn [rbind]. rewrite map_length.
  replace (forallb _ _) with false.
  - destruct (List.length pgs) as [|[|m]]; [lia|lia|reflexivity].
  - symmetry. apply not_true_is_false. intros T0. rewrite forallb_forall in T0. specialize (T0 (col_page cs pg) (in_map _ _ _ J)). cbn [col_page a_rows] in T0. apply Nat.eqb_eq in T0. contradiction.
Qed.
Lemma cons_both : forall A B (R : A -> B -> Prop) x l y m, Forall2 R (x :: l) (y :: m) -> R x y /\ Forall2 R l m.
Proof. intros A B R x l y m H. inversion H. auto. Qed.
Lemma rows_particles : forall nb names rows, NoDup names -> forall xs xps ys yps ts ps,
  Forall2 (fun row b => cell names row (T "x") (VDouble b)) rows xs -> Forall2 (fun row b => cell names row (T "xp") (VDouble b)) rows xps ->
  Forall2 (fun row b => cell names row (T "y") (VDouble b)) rows ys -> Forall2 (fun row b => cell names row (T "yp") (VDouble b)) rows yps ->
  Forall2 (fun row b => cell names row (T "t") (VDouble b)) rows ts -> Forall2 (fun row b => cell names row (T "p") (VDouble b)) rows ps ->
  Forall2 (particle_of nb names) rows (elegant_rows (map (num nb) xs) (map (num nb) xps) (map (num nb) ys) (map (num nb) yps) (map (num nb) ts) (map (num nb) ps)).
Proof.
  intros nb names rows ND. induction rows as [|row rows IH]; intros xs xps ys yps ts ps A B C D E F.
  - inversion A. constructor.
  - destruct xs as [|x0 xs]; [inversion A|]. destruct xps as [|xp0 xps]; [inversion B|]. destruct ys as [|y0 ys]; [inversion C|].
    destruct yps as [|yp0 yps]; [inversion D|]. destruct ts as [|t0 ts]; [inversion E|]. destruct ps as [|p0 ps]; [inversion F|].
    apply cons_both in A, B, C, D, E, F. cbn [map elegant_rows]. constructor; [|apply IH; tauto].
    intros x xp y yp t p X XP Y YP T0 P.
    assert (Q : forall n a b, cell names row n (VDouble a) -> cell names row n (VDouble b) -> a = b) by (intros n a b U V; assert (W := cell_fun _ _ _ _ _ ND U V); now injection W).
    rewrite (Q _ _ _ X (proj1 A)), (Q _ _ _ XP (proj1 B)), (Q _ _ _ Y (proj1 C)), (Q _ _ _ YP (proj1 D)), (Q _ _ _ T0 (proj1 E)), (Q _ _ _ P (proj1 F)). repeat split.
Qed.
Lemma elegant_in : forall cs n, elegant_columns cs -> In n elegant_names -> In (n, Double) cs.
Proof. auto. Qed.
Lemma names_in : In (T "x") elegant_names /\ In (T "xp") elegant_names /\ In (T "y") elegant_names /\ In (T "yp") elegant_names /\ In (T "t") elegant_names /\ In (T "p") elegant_names.
Proof. unfold elegant_names. cbn [In]. tauto. Qed.
Lemma interpreted_pages : forall nb ps cs pgs P q, good_pages ps cs pgs -> pgs <> [] -> charge_of nb (Some P) = Ok q ->
  (exists pg, pgs = [pg] /\ List.length (pg_rows pg) <> 1%nat) \/ (List.length pgs <> 1%nat /\ Forall (same_length 1) pgs) ->
  exists s, interpreted nb P (map (fun pg => Some (col_page cs pg)) pgs) = Ok s /\ Forall2 (particle_of nb (map fst cs)) (all_rows pgs) (coordinates s) /\ total_charge s = q.
Proof.
  intros nb ps cs pgs P q G N Q H. unfold interpreted. rewrite Q. cbn [rbind]. rewrite <- (map_map (col_page cs) (@Some array)), tables_some.
  destruct names_in as [I1 [I2 [I3 [I4 [I5 I6]]]]]. destruct G as [G1 [G2 G3]]. assert (G : good_pages ps cs pgs) by (split; [|split]; assumption).
  destruct (column_doubles nb ps cs pgs _ G (G3 _ I1) H) as [xs [E1 F1]]. destruct (column_doubles nb ps cs pgs _ G (G3 _ I2) H) as [xps [E2 F2]].
  destruct (column_doubles nb ps cs pgs _ G (G3 _ I3) H) as [ys [E3 F3]]. destruct (column_doubles nb ps cs pgs _ G (G3 _ I4) H) as [yps [E4 F4]].
  destruct (column_doubles nb ps cs pgs _ G (G3 _ I5) H) as [ts [E5 F5]]. destruct (column_doubles nb ps cs pgs _ G (G3 _ I6) H) as [qs [E6 F6]].
  destruct pgs as [|pg pgs]; [contradiction|]. rewrite E1, E2, E3, E4, E5, E6. cbn [map rbind]. eexists. split; [reflexivity|]. split; [|reflexivity].
  cbn [coordinates]. now apply rows_particles.
Qed.

(* ------------------------------------------------------------------ *)
(** Writing and reading back *)
Definition coordinate_fields : list (particle -> fl) :=
  [px; (fun p => ndiv (pux p) (ppt p)); py; (fun p => ndiv (puy p) (ppt p)); (fun p => ndiv (pct p) (Some light_speed)); ppt].
Definition elegant_layout : list (text * kind) := map (fun n => (n, Double)) elegant_names.
Definition written_row (nb : numbers) (p : particle) : list value := map (fun f => VDouble (bits nb (f p))) coordinate_fields.
Lemma rows_from_map : forall A (fs : list (A -> value)) l, rows_from (List.length l) (map (fun f => map f l) fs) = map (fun p => map (fun f => f p) fs) l.
Proof.
  intros A fs l. unfold rows_from. destruct l as [|a l']; [reflexivity|]. set (l := a :: l').
  assert (H : map (fun p => map (fun f => f p) fs) l = map (fun i => map (fun f => f (nth i l a)) fs) (seq 0 (List.length l))).
  { rewrite <- (map_map (fun i => nth i l a) (fun p => map (fun f => f p) fs)). f_equal. clear. induction l as [|x l IH]; [reflexivity|]. cbn [List.length seq map nth]. f_equal. rewrite <- seq_shift, map_map. exact IH. }
  rewrite H. apply map_ext_in. intros i I. apply in_seq in I. rewrite map_map. apply map_ext. intros f.
  rewrite (nth_indep (map f l) (VInt 0) (f a)) by (rewrite map_length; lia). apply map_nth.
Qed.
Lemma representable_exact : forall nb p f, representable nb p -> In f coordinate_fields -> exact nb (f p).
Proof.
  intros nb p f [x [ux [y [uy [ct [pt [-> [N [E1 [E2 [E3 [E4 [E5 E6]]]]]]]]]]]]] I. unfold coordinate_fields in I. cbn [In] in I.
  assert (D : forall u, ndiv (Some u) (Some pt) = Some (u / pt)%R) by (intros u; cbn; destruct (Req_EM_T pt 0); [contradiction|reflexivity]).
  destruct I as [<-|[<-|[<-|[<-|[<-|[<-|[]]]]]]]; cbn [px pux py puy pct ppt]; rewrite ?D, ?ndiv_light; assumption.
Qed.
Lemma fields_exact : forall nb p, representable nb p -> exact nb (px p) /\ exact nb (ndiv (pux p) (ppt p)) /\ exact nb (py p) /\ exact nb (ndiv (puy p) (ppt p)) /\
  exact nb (ndiv (pct p) (Some light_speed)) /\ exact nb (ppt p).
Proof.
  intros nb p R. assert (X := fun f => representable_exact nb p f R). split; [|split; [|split; [|split; [|split]]]].
  - apply (X px). cbn; tauto.
  - apply (X (fun p => ndiv (pux p) (ppt p))). cbn; tauto.
  - apply (X py). cbn; tauto.
  - apply (X (fun p => ndiv (puy p) (ppt p))). cbn; tauto.
  - apply (X (fun p => ndiv (pct p) (Some light_speed))). cbn; tauto.
  - apply (X ppt). cbn; tauto.
Qed.
Definition written_columns (nb : numbers) (s : species) : list (list value) := map (fun f => map f (coordinates s)) (map (fun f p => VDouble (bits nb (f p))) coordinate_fields).
Lemma elegant_can_write : forall nb s q, Forall (representable nb) (coordinates s) -> exact nb q -> Z.of_nat (List.length (coordinates s)) < 2 ^ 31 ->
  can_write (elegant_writer nb s (Some q)) Double (List.length (coordinates s)) (written_columns nb s) /\ can_name (elegant_writer nb s (Some q)).
Proof.
  intros nb s q F E L.
  assert (C : forall f, In f coordinate_fields -> Forall (fun b => List.length b = 8%nat) (map (fun p => bits nb (f p)) (coordinates s))).
  { intros f I. apply Forall_map. eapply Forall_impl; [|exact F]. intros p R. now apply (representable_exact nb p f R I). }
  assert (D : forall f, In f coordinate_fields -> data_of Double (CDouble (map (fun p => bits nb (f p)) (coordinates s))) (map (fun p => VDouble (bits nb (f p))) (coordinates s))).
  { intros f I. split; [now apply C|]. now rewrite map_map. }
  unfold coordinate_fields in D. cbn [In] in D.
  split.
  - constructor; [|unfold written_columns, coordinate_fields; cbn [map elegant_writer w_cols]|assumption|discriminate].
    + constructor; [|constructor]. split; [param_is|]. cbn [p_data option_map p_type p_fixed]. split; [|reflexivity]. split; [reflexivity|apply E].
    + repeat (constructor; [split; [col_is|]; split; [reflexivity|]; split; [apply D; tauto|now rewrite map_length]|]). constructor.
  - split; [nodup|]. split; [nodup|]. split; no_char.
Qed.
Lemma written_rows : forall nb s, rows_from (List.length (coordinates s)) (written_columns nb s) = map (written_row nb) (coordinates s).
Proof. intros nb s. unfold written_columns. rewrite rows_from_map. apply map_ext. intros p. unfold written_row. rewrite map_map. reflexivity. Qed.
Definition written_page_of (nb : numbers) (s : species) (q : fl) : page := {| pg_params := [VDouble (bits nb q)]; pg_rows := map (written_row nb) (coordinates s) |}.
Lemma written_good : forall nb s q, Forall (representable nb) (coordinates s) -> exact nb q -> Z.of_nat (List.length (coordinates s)) < 2 ^ 31 ->
  good_pages [(T "Charge", Double)] elegant_layout [written_page_of nb s q].
Proof.
  intros nb s q F E L. split; [|split].
  - constructor; [|constructor]. split; [|split].
    + constructor; [apply E|constructor].
    + cbn [written_page_of pg_rows]. apply Forall_map. eapply Forall_impl; [|exact F]. intros p R. unfold elegant_layout. rewrite map_map. unfold elegant_names, written_row, coordinate_fields.
      cbn [map snd]. destruct (fields_exact nb p R) as [X1 [X2 [X3 [X4 [X5 X6]]]]]. repeat (constructor; [apply X1 || apply X2 || apply X3 || apply X4 || apply X5 || apply X6|]). constructor.
    + cbn [written_page_of pg_rows]. now rewrite map_length.
  - cbn. nodup.
  - intros n I. unfold elegant_layout. apply in_map_iff. exists n. auto.
Qed.
Lemma row_particle : forall nb p p', representable nb p -> particle_of nb (map fst elegant_layout) (written_row nb p) p' -> p' = p.
Proof.
  intros nb p p' R H. destruct (fields_exact nb p R) as [[_ X1] [[_ X2] [[_ X3] [[_ X4] [[_ X5] [_ X6]]]]]].
  destruct (H (bits nb (px p)) (bits nb (ndiv (pux p) (ppt p))) (bits nb (py p)) (bits nb (ndiv (puy p) (ppt p))) (bits nb (ndiv (pct p) (Some light_speed))) (bits nb (ppt p))) as [A [B [C [D [E F]]]]];
    try (unfold cell; cbn; tauto).
  rewrite X1 in A. rewrite X2, X6 in B. rewrite X3 in C. rewrite X4, X6 in D. rewrite X5 in E. rewrite X6 in F.
  destruct R as [x [ux [y [uy [ct [pt [-> [N _]]]]]]]]. cbn [px pux py puy pct ppt] in *. clear X1 X2 X3 X4 X5 X6 H.
  rewrite ndiv_light in E. unfold ndiv in B, D. destruct (Req_EM_T pt 0) as [Z0|_]; [contradiction|].
  destruct p' as [a b c d e f]. cbn [px pux py puy pct ppt fmap2] in *. subst a c f. f_equal.
  - rewrite B. f_equal. field. assumption.
  - rewrite D. f_equal. field. assumption.
  - rewrite E. f_equal. unfold light_speed. field.
Qed.
Lemma rows_back : forall nb l l', Forall (representable nb) l -> Forall2 (particle_of nb (map fst elegant_layout)) (map (written_row nb) l) l' -> l' = l.
Proof.
  induction l as [|p l IH]; intros l' F H; inversion H; subst; [reflexivity|]. inversion F; subst. f_equal; [now apply (row_particle nb)|now apply IH].
Qed.
Lemma written_loads : forall nb s q fuel, Forall (representable nb) (coordinates s) -> exact nb q -> Z.of_nat (List.length (coordinates s)) < 2 ^ 31 -> coordinates s <> [] -> (1 < fuel)%nat ->
  snd (save (elegant_writer nb s (Some q)) false (fun _ => []) (fun _ => [])) = Ok tt /\
  loads (List.concat (fst (save (elegant_writer nb s (Some q)) false (fun _ => []) (fun _ => [])))) true 100 None fuel
    (Some [Some {| a_names := [row_counts; T "Charge"]; a_rows := [[VInt (Z.of_nat (List.length (coordinates s))); VDouble (bits nb q)]] |}])
    (Some (map (fun pg => Some (col_page elegant_layout pg)) [written_page_of nb s q])).
Proof.
  intros nb s q fuel F E L N FU. destruct (elegant_can_write nb s q F E L) as [CW CN].
  destruct (round_trip _ Double _ _ (fun _ => []) (fun _ => []) true 100 fuel CW CN FU (or_introl eq_refl)) as [OK [r [r' [O [R [P [C _]]]]]]].
  split; [exact OK|]. exists r, r'. split; [exact O|]. split; [exact R|]. split; [exact P|]. rewrite C. cbn [w_cols elegant_writer]. rewrite written_rows.
  destruct (coordinates s) as [|p l] eqn:EC; [contradiction|]. cbn [List.length map]. unfold col_page, written_page_of. rewrite EC. reflexivity.
Qed.
Lemma charge_one : forall nb n b, charge_of nb (Some [Some {| a_names := [row_counts; T "Charge"]; a_rows := [[VInt n; VDouble b]] |}]) = Ok (Charge (num nb b)).
Proof. reflexivity. Qed.
Lemma elegant_back : forall nb s q fuel, Forall (representable nb) (coordinates s) -> exact nb q -> Z.of_nat (List.length (coordinates s)) < 2 ^ 31 -> (1 < List.length (coordinates s))%nat -> (1 < fuel)%nat -> total_charge s = Charge q ->
  exists f s', write_elegant nb s = Ok f /\ read_elegant nb fuel f = Some (Ok s') /\ coordinates s' = coordinates s /\ total_charge s' = total_charge s.
Proof.
  intros nb s q fuel F E L N FU Q. destruct (written_loads nb s q fuel F E L) as [OK LD]; [intros Z0; rewrite Z0 in N; cbn in N; lia|assumption|].
  unfold write_elegant. rewrite Q. destruct (save (elegant_writer nb s (Some q)) false (fun _ => []) (fun _ => [])) as [pieces x]. cbn [fst snd] in *. subst x. cbn [rbind].
  destruct (interpreted_pages nb [(T "Charge", Double)] elegant_layout [written_page_of nb s q] [Some {| a_names := [row_counts; T "Charge"]; a_rows := [[VInt (Z.of_nat (List.length (coordinates s))); VDouble (bits nb q)]] |}] (Charge q)) as [s' [I [P C]]].
  - now apply written_good.
  - discriminate.
  - rewrite charge_one. f_equal. f_equal. apply E.
  - left. eexists. split; [reflexivity|]. cbn [written_page_of pg_rows]. rewrite map_length. lia.
  - exists (List.concat pieces), s'. split; [reflexivity|]. split; [rewrite (read_loaded nb fuel _ _ _ LD); f_equal; exact I|]. split; [|assumption].
    unfold all_rows in P. cbn [map List.concat written_page_of pg_rows] in P. rewrite app_nil_r in P. now apply (rows_back nb).
Qed.

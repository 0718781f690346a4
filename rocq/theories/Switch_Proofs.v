(** Lemmas for the switchyard claims. *)
From Coq Require Import List Bool Arith Ascii String ZArith Reals Lia Lra.
From Verif Require Import PyBase PyText Lte_Spec Sdds_Model Sdds_Spec Sdds_Proofs Sdds_Proofs7 Sdds_Proofs9 Switch_Model Switch_Spec.
Import ListNotations.
Open Scope Z_scope.

(* ------------------------------------------------------------------ *)
(** Dictionaries *)
Lemma assoc_key : forall A (l : list (text * A)) k v, lookup_key l k v -> assoc k l = Some v.
Proof.
  intros A l k v [a [b [-> N]]]. unfold assoc. induction a as [|[k' v'] a IH]; cbn [app List.find fst].
  - now rewrite teqb_refl.
  - cbn [map fst In] in N. destruct (teqb k' k) eqn:E; [apply teqb_eq in E; tauto|]. apply IH. tauto.
Qed.
Lemma assoc_none : forall A (l : list (text * A)) k, ~ In k (map fst l) -> assoc k l = None.
Proof.
  intros A l k N. unfold assoc. induction l as [|[k' v'] l IH]; [reflexivity|]. cbn [map fst In List.find] in *.
  destruct (teqb k' k) eqn:E; [apply teqb_eq in E; tauto|]. apply IH. tauto.
Qed.
Lemma assoc_in : forall A (l : list (text * A)) k v, NoDup (map fst l) -> In (k, v) l -> assoc k l = Some v.
Proof.
  intros A l k v. unfold assoc. induction l as [|[k' v'] l IH]; intros N I; [contradiction|]. cbn [map fst List.find] in *. inversion N; subst.
  destruct I as [E|I]; [injection E as -> ->; now rewrite teqb_refl|]. destruct (teqb k' k) eqn:E; [|now apply IH].
  apply teqb_eq in E. subst. exfalso. apply H1. now apply (in_map fst) in I.
Qed.
Lemma assoc_app : forall A (l m : list (text * A)) k, assoc k (l ++ m) = match assoc k l with Some v => Some v | None => assoc k m end.
Proof. intros A l m k. unfold assoc. induction l as [|[k' v'] l IH]; [reflexivity|]. cbn [app List.find fst]. destruct (teqb k' k); [reflexivity|assumption]. Qed.

(* ------------------------------------------------------------------ *)
(** The registry *)
Lemma meant_resolve : forall name n, meant name n <-> resolve name = n.
Proof.
  intros [[|c m]|] n; unfold meant; cbn [resolve]; split; intros H.
  - destruct H as [[_ ->] | [H N]]; [reflexivity|]. injection H as <-. contradiction.
  - left. split; [tauto|now symmetry].
  - destruct H as [[[H|H] _] | [H _]]; [discriminate|discriminate|now injection H].
  - right. split; [now f_equal|]. subst. discriminate.
  - destruct H as [[_ ->] | [H N]]; [reflexivity|discriminate].
  - left. split; [tauto|now symmetry].
Qed.
Lemma insert_get : forall y n s m, species_of (species_insert y n s) m = match species_of y m with Some x => Some x | None => if teqb n m then Some s else None end.
Proof.
  intros y n s m. unfold species_insert, species_of. destruct (assoc n y) eqn:E.
  - destruct (assoc m y) eqn:F; [reflexivity|]. destruct (teqb n m) eqn:G; [|reflexivity]. apply teqb_eq in G. congruence.
  - rewrite assoc_app. destruct (assoc m y); [reflexivity|]. unfold assoc. cbn [List.find fst]. now destruct (teqb n m).
Qed.
Lemma step_yields : forall nb fuel y c y' x n, step nb fuel y c = Some (y', x) ->
  (exists s, yields nb fuel c n s /\ species_of y' n = match species_of y n with Some t => Some t | None => Some s end) \/
  ((forall s, ~ yields nb fuel c n s) /\ species_of y' n = species_of y n).
Proof.
  intros nb fuel y c y' x n H. destruct c as [w file format name kw|code name version]; cbn [step] in H.
  - unfold read_into in H. destruct (read_species nb fuel w file format kw) as [[s|e|]|] eqn:E; [| | |discriminate]; injection H as <- <-.
    + destruct (teqb (resolve name) n) eqn:F.
      * left. exists s. split; [exists w, file, format, name, kw; apply teqb_eq in F; rewrite meant_resolve; auto|]. rewrite insert_get, F. reflexivity.
      * right. split; [|rewrite insert_get, F; now destruct (species_of y n)].
        intros t [w' [file' [format' [name' [kw' [C [M R]]]]]]]. injection C as <- <- <- <- <-. apply meant_resolve in M. subst n. now rewrite teqb_refl in F.
    + right. split; [|reflexivity]. intros t [w' [file' [format' [name' [kw' [C [M R]]]]]]]. injection C as <- <- <- <- <-. congruence.
    + right. split; [|reflexivity]. intros t [w' [file' [format' [name' [kw' [C [M R]]]]]]]. injection C as <- <- <- <- <-. congruence.
  - injection H as <- _. right. split; [|reflexivity]. intros t [w' [file' [format' [name' [kw' [C _]]]]]]. discriminate.
Qed.
Lemma yields_fun : forall nb fuel c n s t, yields nb fuel c n s -> yields nb fuel c n t -> s = t.
Proof. intros nb fuel c n s t [w [f [m [a [k [-> [_ E]]]]]]] [w' [f' [m' [a' [k' [C [_ E']]]]]]]. injection C as <- <- <- <- <-. congruence. Qed.
Lemma run_registered : forall nb fuel calls y y' n, run nb fuel y calls = Some y' ->
  (forall s, species_of y n = Some s -> species_of y' n = Some s) /\
  (species_of y n = None -> (forall s, species_of y' n = Some s <-> first_yield nb fuel calls n s) /\ (species_of y' n = None <-> forall c s, In c calls -> ~ yields nb fuel c n s)).
Proof.
  induction calls as [|c calls IH]; intros y y' n H; cbn [run] in H.
  - injection H as <-. split; [auto|]. intros N. split; [|split; [intros _ c s []|auto]].
    intros s. rewrite N. split; [discriminate|]. intros [b [c [a [E _]]]]. now destruct b.
  - destruct (step nb fuel y c) as [[y1 x]|] eqn:E; [|discriminate]. destruct (IH y1 y' n H) as [K L]. destruct (step_yields nb fuel y c y1 x n E) as [[s [Y G]]|[Y G]].
    + split; [intros t T0; apply K; now rewrite G, T0|]. intros N. rewrite N in G. split.
      * intros t. rewrite (K s G). split.
        -- intros F. injection F as <-. exists [], c, calls. split; [reflexivity|]. split; [assumption|]. intros c' s' [].
        -- intros [b [c0 [a [E0 [Y0 NB]]]]]. destruct b as [|b0 b]; injection E0 as <- E0; [f_equal; eapply yields_fun; eassumption|]. exfalso. apply (NB c s); [now left|assumption].
      * rewrite (K s G). split; [discriminate|]. intros F. exfalso. apply (F c s); [now left|assumption].
    + split; [intros t T0; apply K; congruence|]. intros N. rewrite <- G in N. destruct (L N) as [L1 L2]. split.
      * intros t. rewrite L1. split.
        -- intros [b [c0 [a [-> [Y0 NB]]]]]. exists (c :: b), c0, a. split; [reflexivity|]. split; [assumption|]. intros c' s' [<-|I]; [apply Y|now apply NB].
        -- intros [b [c0 [a [E0 [Y0 NB]]]]]. destruct b as [|b0 b]; injection E0 as <- E0; [now apply Y in Y0|]. exists b, c0, a. split; [assumption|]. split; [assumption|]. intros c' s' I. apply NB. now right.
      * rewrite L2. split; intros F c' s' I; [destruct I as [<-|I]; [apply Y|now apply F]|apply F; now right].
Qed.

(* ------------------------------------------------------------------ *)
(** Steps of an OPAL file *)
Lemma skip_suffix : forall (n : nat) (s : text), exists a, s = a ++ skipn n s.
Proof. intros n s. exists (firstn n s). now rewrite firstn_skipn. Qed.
Lemma last_piece_suffix : forall fuel p s, exists a, s = a ++ last_piece fuel p s.
Proof.
  induction fuel as [|fuel IH]; intros p s; cbn [last_piece]; [exists []; reflexivity|]. destruct (find p s) as [n|]; [|exists []; reflexivity].
  destruct (IH p (skipn (n + List.length p) s)) as [b E]. destruct (skip_suffix (n + List.length p) s) as [a F]. exists (a ++ b). rewrite <- app_assoc, <- E. exact F.
Qed.
Lemma letter_not : forall c, letter c -> is_digit c = false /\ is_ws c = false.
Proof. intros c L. unfold letter in L. unfold is_digit, is_ws. cbv zeta in *. set (n := nat_of_ascii c) in *. split; [|]; repeat match goal with |- context [Nat.leb ?a ?b] => destruct (Nat.leb_spec a b) | |- context [Nat.eqb ?a ?b] => destruct (Nat.eqb_spec a b) end; cbn; try reflexivity; lia. Qed.

Lemma int_of_ends : forall a c, is_digit c = false -> int_of (a ++ [c]) = None.
Proof. intros a c D. unfold int_of. destruct (a ++ [c]) eqn:E; [reflexivity|]. rewrite <- E, forallb_app. cbn. rewrite D, andb_false_r. reflexivity. Qed.
Lemma drop_ws_ends : forall a c, is_ws c = false -> exists b, drop_ws (a ++ [c]) = b ++ [c].
Proof.
  intros a c W. induction a as [|d a IH]; cbn [app drop_ws].
  - rewrite W. now exists [].
  - destruct (is_ws d); [exact IH|]. now exists (d :: a).
Qed.
Lemma py_int_ends : forall a c, letter c -> py_int (a ++ [c]) = None.
Proof.
  intros a c L. destruct (letter_not c L) as [D W]. unfold py_int, trim. destruct (drop_ws_ends a c W) as [b ->]. rewrite rdrop_ws_last by assumption.
  destruct b as [|d b]; cbn [app sign_of].
  - assert (N : Ascii.eqb c "-" = false /\ Ascii.eqb c "+" = false) by (split; apply Ascii.eqb_neq; intros ->; destruct L; cbn in *; lia).
    destruct N as [-> ->]. unfold int_of. cbn [forallb]. now rewrite D.
  - destruct (Ascii.eqb d "-"); [now rewrite int_of_ends|]. destruct (Ascii.eqb d "+"); [now rewrite int_of_ends|]. change (d :: b ++ [c]) with ((d :: b) ++ [c]). now rewrite int_of_ends.
Qed.
Lemma other_key : forall a c, letter c -> py_int (get_step_number (a ++ [c])) = None.
Proof.
  intros a c L. unfold get_step_number. destruct (last_piece_suffix (List.length (a ++ [c])) step_prefix (a ++ [c])) as [b E].
  destruct (last_piece (List.length (a ++ [c])) step_prefix (a ++ [c])) as [|d r] eqn:F; [reflexivity|].
  destruct (@exists_last _ (d :: r)) as [r' [e G]]; [discriminate|]. rewrite G in *. rewrite app_assoc in E. apply app_inj_tail in E. destruct E as [_ ->]. now apply py_int_ends.
Qed.
Lemma find_none_dec : forall z fuel, last_piece fuel step_prefix (dec z) = dec z.
Proof.
  intros z fuel. destruct fuel as [|fuel]; [reflexivity|]. cbn [last_piece]. replace (find step_prefix (dec z)) with (@None nat); [reflexivity|].
  assert (H : forall s, ~ In "S"%char s -> find step_prefix s = None).
  { induction s as [|c s IH]; intros N; [reflexivity|]. cbn [find prefixb step_prefix T list_ascii_of_string]. destruct (Ascii.eqb "S" c) eqn:E; [apply Ascii.eqb_eq in E; subst; now contradiction N; left|].
    cbn [andb]. change (find _ s) with (find step_prefix s). rewrite IH; [reflexivity|]. intros I. apply N. now right. }
  symmetry. apply H. intros I. apply dec_chars in I. destruct I as [I|I]; discriminate.
Qed.
Lemma step_key_number : forall k, py_int (get_step_number (step_key k)) = Some k.
Proof.
  intros k. unfold get_step_number. change (List.length (step_key k)) with (Datatypes.S (4 + List.length (dec k))). cbn [last_piece].
  change (find step_prefix (step_key k)) with (Some 0%nat). cbn [Nat.add skipn step_key T list_ascii_of_string app step_prefix List.length]. rewrite find_none_dec. apply py_int_dec.
Qed.
Lemma step_key_inj : forall j k, step_key j = step_key k -> j = k.
Proof. intros j k E. unfold step_key in E. apply app_inv_head in E. assert (H := f_equal py_int E). rewrite !py_int_dec in H. now injection H. Qed.
Lemma step_numbers_in : forall f j, opal_file f -> In j (step_numbers (map fst f)) <-> 0 <= j /\ In (step_key j) (map fst f).
Proof.
  intros f j [_ K]. unfold step_numbers. rewrite in_flat_map. split.
  - intros [key [I J]]. destruct (K key I) as [[k [P ->]] | [a [c [-> L]]]].
    + rewrite step_key_number in J. destruct J as [<-|[]]. auto.
    + rewrite other_key in J by assumption. contradiction.
  - intros [P I]. exists (step_key j). split; [assumption|]. rewrite step_key_number. now left.
Qed.
Lemma fold_max : forall r z, In (fold_left Z.max r z) (z :: r) /\ forall x, In x (z :: r) -> x <= fold_left Z.max r z.
Proof.
  induction r as [|y r IH]; intros z; cbn [fold_left].
  - split; [now left|]. intros x [<-|[]]. lia.
  - destruct (IH (Z.max z y)) as [A B]. split.
    + destruct A as [A|A]; [|right; right; exact A]. rewrite <- A. destruct (Z.max_spec z y) as [[_ ->] | [_ ->]]; [right; now left|now left].
    + intros x [<-|[<-|I]]; [| |apply B; now right]; (eapply Z.le_trans; [|apply B; now left]); lia.
Qed.
Lemma last_step_largest : forall f k, opal_file f -> 0 <= k -> largest_step f k -> last_step (map fst f) = Ok k.
Proof.
  intros f k O P [I M]. unfold last_step. assert (J : In k (step_numbers (map fst f))) by (apply step_numbers_in; auto).
  destruct (step_numbers (map fst f)) as [|z r] eqn:E; [contradiction|]. f_equal. destruct (fold_max r z) as [A B].
  apply Z.le_antisymm; [|now apply B]. rewrite <- E in A. apply step_numbers_in in A; [|assumption]. destruct A as [A1 A2]. now apply M.
Qed.
Lemma opal_rows_map : forall ps, Forall2 same_particle ps (opal_rows (map ox ps) (map opx ps) (map oy ps) (map opy ps) (map oz ps) (map opz ps)).
Proof. induction ps as [|p ps IH]; cbn; constructor; [repeat split|exact IH]. Qed.
Lemma charged_read : forall g q, charged g q -> opal_charge g = Ok (Charge q).
Proof.
  intros g q [[L N] | [N L]]; unfold opal_charge.
  - rewrite (assoc_key _ _ _ _ L). destruct q as [q|]; [|reflexivity]. destruct (Req_EM_T q 0); [subst; contradiction|reflexivity].
  - rewrite (assoc_none _ _ _ N), (assoc_key _ _ _ _ L). reflexivity.
Qed.
Lemma group_read : forall f k g ps q, NoDup (map fst f) -> has_step f k g -> holds g ps -> charged g q ->
  exists s, (match assoc (step_prefix ++ dec k) f with
  | None => Err KeyError
  | Some g =>
      do z <- dataset g (T "z");
      let n := List.length z in
      let get name := do d <- dataset g (T name); assigned n d in
      do xs <- get "x"%string; do pxs <- get "px"%string; do ys <- get "y"%string; do pys <- get "py"%string;
      do zs <- get "z"%string; do pzs <- get "pz"%string;
      do q <- opal_charge g;
      Ok {| coordinates := opal_rows xs pxs ys pys zs pzs; sp_charge := Some (-1)%R; sp_mass := Some 511000%R; total_charge := q |}
  end) = Ok s /\ Forall2 same_particle ps (coordinates s) /\ total_charge s = Charge q.
Proof.
  intros f k g ps q ND H [X [PX [Y [PY [Z0 PZ]]]]] C. change (step_prefix ++ dec k) with (step_key k). rewrite (assoc_in _ _ _ _ ND H). unfold dataset.
  rewrite (assoc_key _ _ _ _ X), (assoc_key _ _ _ _ PX), (assoc_key _ _ _ _ Y), (assoc_key _ _ _ _ PY), (assoc_key _ _ _ _ Z0), (assoc_key _ _ _ _ PZ).
  cbn [rbind]. unfold assigned. rewrite !map_length, !Nat.eqb_refl. cbn [rbind]. rewrite (charged_read g q C). cbn [rbind].
  eexists. split; [reflexivity|]. cbn [coordinates total_charge]. split; [apply opal_rows_map|reflexivity].
Qed.
Lemma opal_last : forall f k g ps q, opal_file f -> 0 <= k -> largest_step f k -> has_step f k g -> holds g ps -> charged g q ->
  exists s, read_opal f None = Ok s /\ Forall2 same_particle ps (coordinates s) /\ total_charge s = Charge q.
Proof.
  intros f k g ps q O P M H HO C. unfold read_opal. rewrite (last_step_largest f k O P M). cbn [rbind]. destruct O as [ND _]. exact (group_read f k g ps q ND H HO C).
Qed.
Lemma opal_step : forall f k g ps q, NoDup (map fst f) -> k <> 0 -> has_step f k g -> holds g ps -> charged g q ->
  exists s, read_opal f (Some k) = Ok s /\ Forall2 same_particle ps (coordinates s) /\ total_charge s = Charge q.
Proof. intros f k g ps q ND K H HO C. unfold read_opal. destruct k; [contradiction| |]; exact (group_read f _ g ps q ND H HO C). Qed.
Lemma opal_absent : forall f k, k <> 0 -> ~ In (step_key k) (map fst f) -> read_opal f (Some k) = Err KeyError.
Proof. intros f k K N. unfold read_opal. destruct k; [contradiction| |]; cbn [rbind]; unfold step_key in N; now rewrite assoc_none. Qed.
Lemma opal_no_steps : forall f, opal_file f -> (forall k, 0 <= k -> ~ In (step_key k) (map fst f)) -> read_opal f None = Err ValueError.
Proof.
  intros f O N. unfold read_opal, last_step. destruct (step_numbers (map fst f)) as [|z r] eqn:E; [reflexivity|]. exfalso.
  assert (I : In z (step_numbers (map fst f))) by (rewrite E; now left). apply step_numbers_in in I; [|assumption]. destruct I as [I J]. now apply (N z).
Qed.

(* ------------------------------------------------------------------ *)
(** Genesis *)
Lemma sum_finite : forall l, sum (map (@Some R) l) = Some (rsum l).
Proof. induction l as [|x l IH]; [reflexivity|]. cbn. change (fold_right _ _ (map Some l)) with (sum (map (@Some R) l)). now rewrite IH. Qed.
Lemma rsum_shift : forall l m, rsum (map (fun x => (x - m)%R) l) = (rsum l - INR (List.length l) * m)%R.
Proof.
  induction l as [|x l IH]; intros m; [cbn; ring|]. cbn [map rsum]. rewrite IH. change (List.length (x :: l)) with (Datatypes.S (List.length l)). rewrite S_INR. ring.
Qed.
Lemma light_pos : light_speed <> 0%R.
Proof. unfold light_speed. lra. Qed.
Lemma ndiv_light : forall v, ndiv (Some v) (Some light_speed) = Some (v / light_speed)%R.
Proof. intros v. cbn. destruct (Req_EM_T light_speed 0) as [E|_]; [now apply light_pos in E|reflexivity]. Qed.
Lemma finite_list : forall A (f : A -> fl) l, Forall (fun p => finite (f p)) l -> exists rs, map f l = map (@Some R) rs /\ List.length rs = List.length l.
Proof. induction 1 as [|p l [r E] F [rs [IH L]]]; [exists []; split; reflexivity|]. exists (r :: rs). cbn. rewrite E, IH, L. split; reflexivity. Qed.
Definition times_of (cts : list R) : list R := map (fun ct => (ct / light_speed)%R) cts.
Definition centred (ts : list R) : list R := map (fun t => (t - rsum ts / INR (List.length ts))%R) ts.
Lemma centred_sum : forall ts, rsum (centred ts) = 0%R.
Proof.
  intros ts. unfold centred. rewrite rsum_shift. destruct ts as [|t ts]; [cbn; lra|]. field. rewrite <- (S_INR (List.length ts)) || idtac. apply not_0_INR. discriminate.
Qed.

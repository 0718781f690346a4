(** * Claim C134: which OPAL steps can be read. *)
From Coq Require Import List Bool Arith Ascii String ZArith Reals Lra Lia.
From Verif Require Import PyBase PyText Lte_Spec Sdds_Model Sdds_Spec Sdds_Proofs Sdds_Proofs6 Sdds_Proofs7 Sdds_Proofs8 Sdds_Proofs9 Sdds_Proofs10 Sdds_Samples Sdds_Props
  Switch_Model Switch_Spec Switch_Proofs Switch_Proofs2 Switch_Proofs3 Switch_Proofs4 Switch_Props.
Import ListNotations.
Open Scope Z_scope.

(* ------------------------------------------------------------------ *)
(** ** Specification *)
(** A dataset gives a column: entry by entry, or one entry for all particles *)
Definition gives (d column : list fl) : Prop := d = column \/ exists x, d = [x] /\ Forall (eq x) column.
(** The total charge of a step: the attribute TotalCharge, unless it is missing or zero; then CHARGE *)
Definition charge_found (g : h5group) (q : fl) : Prop :=
  (lookup_key (g_attrs g) (T "TotalCharge") q /\ q <> Some 0%R) \/
  ((~ In (T "TotalCharge") (map fst (g_attrs g)) \/ lookup_key (g_attrs g) (T "TotalCharge") (Some 0%R)) /\ lookup_key (g_attrs g) (T "CHARGE") q).
(** A complete step: as many particles as there are entries in z, all six datasets, and a charge *)
Definition complete (g : h5group) (ps : list opal_particle) (q : fl) : Prop :=
  lookup_key (g_data g) (T "z") (map oz ps) /\ charge_found g q /\
  forall name field, In (name, field) [(T "x", ox); (T "px", opx); (T "y", oy); (T "py", opy); (T "pz", opz)] ->
    exists d, lookup_key (g_data g) name d /\ gives d (map field ps).

(* ------------------------------------------------------------------ *)
(** ** Proofs *)
Lemma key_assoc : forall A (l : list (text * A)) k v, assoc k l = Some v -> lookup_key l k v.
Proof.
  intros A l k v. induction l as [|[k' v'] l IH]; intros H; [discriminate|]. unfold assoc in H. cbn [List.find fst] in H. destruct (teqb k' k) eqn:E.
  - apply teqb_eq in E. subst. injection H as <-. exists [], l. split; [reflexivity|intros []].
  - destruct (IH H) as (a & b & -> & N). exists ((k', v') :: a), b. split; [reflexivity|]. cbn [map fst]. intros [X|X]; [|now apply N].
    subst. rewrite teqb_refl in E. discriminate.
Qed.
Lemma none_assoc : forall A (l : list (text * A)) k, assoc k l = None -> ~ In k (map fst l).
Proof.
  intros A l k. induction l as [|[k' v'] l IH]; intros H; [intros []|]. unfold assoc in H. cbn [List.find fst] in H. destruct (teqb k' k) eqn:E; [discriminate|].
  cbn [map fst]. intros [X|X]; [subst; rewrite teqb_refl in E; discriminate|now apply IH].
Qed.
Lemma charge_ok : forall g q, opal_charge g = Ok (Charge q) <-> charge_found g q.
Proof.
  intros g q. unfold opal_charge, charge_found. split.
  - destruct (assoc (T "TotalCharge") (g_attrs g)) as [[t|]|] eqn:E.
    + destruct (Req_EM_T t 0) as [->|N].
      * destruct (assoc (T "CHARGE") (g_attrs g)) as [c|] eqn:F; [|discriminate]. intros H. injection H as <-. right. split; [right; now apply key_assoc|now apply key_assoc].
      * intros H. injection H as <-. left. split; [now apply key_assoc|]. congruence.
    + intros H. injection H as <-. left. split; [now apply key_assoc|discriminate].
    + destruct (assoc (T "CHARGE") (g_attrs g)) as [c|] eqn:F; [|discriminate]. intros H. injection H as <-. right. split; [left; now apply none_assoc|now apply key_assoc].
  - intros [[L N]|[[N|L] C]].
    + rewrite (assoc_key _ _ _ _ L). destruct q as [q|]; [|reflexivity]. destruct (Req_EM_T q 0); [subst; contradiction|reflexivity].
    + rewrite (assoc_none _ _ _ N), (assoc_key _ _ _ _ C). reflexivity.
    + rewrite (assoc_key _ _ _ _ L), (assoc_key _ _ _ _ C). destruct (Req_EM_T 0 0); [reflexivity|contradiction].
Qed.
Lemma charge_kind : forall g c, opal_charge g = Ok c -> exists q, c = Charge q.
Proof. intros g c. unfold opal_charge. match goal with |- match ?m with _ => _ end = _ -> _ => destruct m as [q|] end; intros H; [injection H as <-; eauto|discriminate]. Qed.
Lemma assigned_length : forall n d l, assigned n d = Ok l -> List.length l = n.
Proof.
  intros n d l. unfold assigned. destruct (Nat.eqb (List.length d) n) eqn:E; [intros H; injection H as <-; now apply Nat.eqb_eq|].
  destruct d as [|x [|? ?]]; intros H; try discriminate. injection H as <-. apply repeat_length.
Qed.
Lemma repeat_eq : forall (x : fl) n, Forall (eq x) (repeat x n).
Proof. induction n; constructor; auto. Qed.
Lemma eq_repeat : forall (x : fl) l, Forall (eq x) l -> l = repeat x (List.length l).
Proof. induction l as [|y l IH]; intros H; [reflexivity|]. inversion H; subst. cbn [List.length repeat]. now rewrite <- IH. Qed.
Lemma assigned_gives : forall n d l, assigned n d = Ok l -> gives d l.
Proof.
  intros n d l. unfold assigned. destruct (Nat.eqb (List.length d) n) eqn:E; [intros H; injection H as <-; now left|].
  destruct d as [|x [|? ?]]; intros H; try discriminate. injection H as <-. right. exists x. split; [reflexivity|apply repeat_eq].
Qed.
Lemma gives_assigned : forall d l, gives d l -> assigned (List.length l) d = Ok l.
Proof.
  intros d l [->|(x & -> & F)]; unfold assigned; [now rewrite Nat.eqb_refl|]. pose proof (eq_repeat x l F) as E.
  destruct l as [|a [|b l]]; [reflexivity|inversion F; subst; reflexivity|]. cbn [List.length Nat.eqb]. f_equal. symmetry. exact E.
Qed.
Lemma rows_of : forall n xs pxs ys pys zs pzs, List.length xs = n -> List.length pxs = n -> List.length ys = n -> List.length pys = n -> List.length zs = n -> List.length pzs = n ->
  exists ps, map ox ps = xs /\ map opx ps = pxs /\ map oy ps = ys /\ map opy ps = pys /\ map oz ps = zs /\ map opz ps = pzs.
Proof.
  induction n as [|n IH]; intros [|x xs] [|p pxs] [|y ys] [|q pys] [|z zs] [|s pzs] A B C D E F; try discriminate; [exists []; repeat split|].
  cbn [List.length] in *. destruct (IH xs pxs ys pys zs pzs) as (ps & H1 & H2 & H3 & H4 & H5 & H6); try lia.
  exists ({| ox := x; opx := p; oy := y; opy := q; oz := z; opz := s |} :: ps). cbn [map ox opx oy opy oz opz]. repeat split; congruence.
Qed.
Lemma rows_same : forall ps, Forall2 same_particle ps (opal_rows (map ox ps) (map opx ps) (map oy ps) (map opy ps) (map oz ps) (map opz ps)).
Proof. induction ps as [|p ps IH]; constructor; [repeat split|exact IH]. Qed.

(** the part of read_opal that follows the choice of the group *)
Definition body (g : h5group) : res species :=
  do z <- dataset g (T "z");
  let n := List.length z in
  let get name := do d <- dataset g (T name); assigned n d in
  do xs <- get "x"%string; do pxs <- get "px"%string; do ys <- get "y"%string; do pys <- get "py"%string;
  do zs <- get "z"%string; do pzs <- get "pz"%string;
  do q <- opal_charge g;
  Ok {| coordinates := opal_rows xs pxs ys pys zs pzs; sp_charge := Some (-1)%R; sp_mass := Some 511000%R; total_charge := q |}.
Lemma got : forall g n name l, (do d <- dataset g name; assigned n d) = Ok l -> exists d, lookup_key (g_data g) name d /\ gives d l /\ List.length l = n.
Proof.
  intros g n name l H. unfold dataset in H. destruct (assoc name (g_data g)) as [d|] eqn:E; [|discriminate]. cbn [rbind] in H.
  exists d. split; [now apply key_assoc|]. split; [eapply assigned_gives; exact H|eapply assigned_length; exact H].
Qed.
Lemma get : forall g n name d l, lookup_key (g_data g) name d -> gives d l -> List.length l = n -> (do d <- dataset g name; assigned n d) = Ok l.
Proof. intros g n name d l L G <-. unfold dataset. rewrite (assoc_key _ _ _ _ L). cbn [rbind]. now apply gives_assigned. Qed.

Lemma body_sound : forall g s, body g = Ok s -> exists ps q, complete g ps q /\ Forall2 same_particle ps (coordinates s) /\ total_charge s = Charge q.
Proof.
  intros g s H. unfold body in H. cbv zeta in H. destruct (dataset g (T "z")) as [z| |] eqn:Z0; try discriminate. cbn [rbind] in H.
  assert (step : forall (m : res (list fl)) (k : list fl -> res species), rbind m k = Ok s -> exists l, m = Ok l /\ k l = Ok s)
    by (intros m k E; destruct m as [l| |]; try discriminate; exists l; split; [reflexivity|exact E]).
  change (Ok z) with (@Ok (list fl) z) in H.
  destruct (step _ _ H) as (xs & X & H1). destruct (step _ _ H1) as (pxs & PX & H2). destruct (step _ _ H2) as (ys & Y & H3).
  destruct (step _ _ H3) as (pys & PY & H4). destruct (step _ _ H4) as (zs & ZZ & H5). destruct (step _ _ H5) as (pzs & PZ & H6). clear step H H1 H2 H3 H4 H5.
  assert (Ez : assoc (T "z") (g_data g) = Some z) by (unfold dataset in Z0; destruct (assoc (T "z") (g_data g)); [congruence|discriminate]).
  assert (Az : assigned (List.length z) z = Ok z) by (unfold assigned; now rewrite Nat.eqb_refl).
  rewrite Az in ZZ. injection ZZ as <-.
  destruct (got _ _ _ _ X) as (dx & Lx & Gx & Nx). destruct (got _ _ _ _ PX) as (dpx & Lpx & Gpx & Npx). destruct (got _ _ _ _ Y) as (dy & Ly & Gy & Ny).
  destruct (got _ _ _ _ PY) as (dpy & Lpy & Gpy & Npy). destruct (got _ _ _ _ PZ) as (dpz & Lpz & Gpz & Npz).
  destruct (opal_charge g) as [c| |] eqn:C; try discriminate. cbn [rbind] in H6. injection H6 as <-. destruct (charge_kind _ _ C) as [q ->].
  destruct (rows_of (List.length z) xs pxs ys pys z pzs) as (ps & <- & <- & <- & <- & E5 & <-); auto.
  exists ps, q. split; [|split; [rewrite <- E5; apply rows_same|reflexivity]].
  split; [rewrite E5; now apply key_assoc|]. split; [now apply charge_ok|].
  intros name field [I|[I|[I|[I|[I|[]]]]]]; injection I as <- <-; eauto.
Qed.
Lemma body_works : forall g ps q, complete g ps q -> exists s, body g = Ok s /\ Forall2 same_particle ps (coordinates s) /\ total_charge s = Charge q.
Proof.
  intros g ps q (Lz & C & D). apply charge_ok in C. unfold body. cbv zeta.
  assert (Z0 : dataset g (T "z") = Ok (map oz ps)) by (unfold dataset; now rewrite (assoc_key _ _ _ _ Lz)). rewrite Z0. cbn [rbind].
  destruct (D _ _ (or_introl eq_refl)) as (dx & Lx & Gx). destruct (D _ _ (or_intror (or_introl eq_refl))) as (dpx & Lpx & Gpx).
  destruct (D _ _ (or_intror (or_intror (or_introl eq_refl)))) as (dy & Ly & Gy). destruct (D _ _ (or_intror (or_intror (or_intror (or_introl eq_refl))))) as (dpy & Lpy & Gpy).
  destruct (D _ _ (or_intror (or_intror (or_intror (or_intror (or_introl eq_refl)))))) as (dpz & Lpz & Gpz).
  rewrite (get g (List.length (map oz ps)) (T "x") dx (map ox ps)) by (auto; now rewrite !map_length). cbn [rbind].
  rewrite (get g (List.length (map oz ps)) (T "px") dpx (map opx ps)) by (auto; now rewrite !map_length). cbn [rbind].
  rewrite (get g (List.length (map oz ps)) (T "y") dy (map oy ps)) by (auto; now rewrite !map_length). cbn [rbind].
  rewrite (get g (List.length (map oz ps)) (T "py") dpy (map opy ps)) by (auto; now rewrite !map_length). cbn [rbind].
  assert (Az : assigned (List.length (map oz ps)) (map oz ps) = Ok (map oz ps)) by (unfold assigned; now rewrite Nat.eqb_refl). rewrite Az. cbn [rbind].
  rewrite (get g (List.length (map oz ps)) (T "pz") dpz (map opz ps)) by (auto; now rewrite !map_length). cbn [rbind].
  rewrite C. cbn [rbind]. eexists. split; [reflexivity|]. split; [apply rows_same|reflexivity].
Qed.
Lemma opal_body : forall f k g, NoDup (map fst f) -> k <> 0 -> has_step f k g -> read_opal f (Some k) = body g.
Proof.
  intros f k g ND K H. unfold read_opal, body. destruct k; [contradiction| |]; cbn [rbind]; change (step_prefix ++ dec ?z) with (step_key z); unfold has_step in H;
  rewrite (assoc_in _ _ _ _ ND H); reflexivity.
Qed.
Lemma opal_no_loop : forall f k, read_opal f k <> Diverges.
Proof.
  intros f k. unfold read_opal. assert (A : forall n d, assigned n d <> Diverges) by (intros n [|x [|y d]]; unfold assigned; destruct (Nat.eqb _ n); discriminate).
  assert (D : forall g nm, dataset g nm <> Diverges) by (intros g nm; unfold dataset; destruct (assoc nm (g_data g)); discriminate).
  assert (Q : forall g, opal_charge g <> Diverges) by (intros g; unfold opal_charge; match goal with |- match ?m with _ => _ end <> _ => destruct m end; discriminate).
  assert (B : forall X Y (m : res X) (h : X -> res Y), m <> Diverges -> (forall x, h x <> Diverges) -> rbind m h <> Diverges) by (intros X Y [x|e|] h M N; [apply N|discriminate|contradiction]).
  assert (L : forall keys, last_step keys <> Diverges) by (intros keys; unfold last_step; destruct (step_numbers keys); discriminate).
  apply B; [destruct k as [[| |]|]; try discriminate; apply L|]. intros z. destruct (assoc _ f); [|discriminate].
  repeat (apply B; [auto; apply B; auto|intros ?]). discriminate.
Qed.

(* ------------------------------------------------------------------ *)
(** ** C134 What an OPAL file must hold.
    Reading step [k] succeeds exactly when the step is there and complete, and then the species has
    its particles in order and its charge. In every other case the call raises and nothing is
    registered. *)
Theorem C134_reads : forall nb fuel y w file f name n k g ps q, h5_files w file = Some f -> meant name n -> unregistered y n ->
  NoDup (map fst f) -> k <> 0 -> has_step f k g -> complete g ps q ->
  exists y' s, read_into nb fuel y w file (T "opal") name (Some (Some k)) = Some (y', Ok tt) /\ registered y' n s /\ Forall2 same_particle ps (coordinates s) /\ total_charge s = Charge q.
Proof.
  intros nb fuel y w file f name n k g ps q W M U ND K H C. destruct (body_works g ps q C) as (s & B & F & Q).
  destruct (opal_works nb fuel y w file name n f (Some (Some k)) s W M U) as (y' & R & G); [rewrite (opal_body f k g ND K H); exact B|]. exists y', s. auto.
Qed.
Print Assumptions C134_reads.
Theorem C134_only_complete : forall nb fuel y w file f name n k, h5_files w file = Some f -> meant name n -> unregistered y n ->
  NoDup (map fst f) -> k <> 0 ->
  (exists y' s g ps q, read_into nb fuel y w file (T "opal") name (Some (Some k)) = Some (y', Ok tt) /\ has_step f k g /\ complete g ps q /\
     registered y' n s /\ Forall2 same_particle ps (coordinates s) /\ total_charge s = Charge q) \/
  ((forall g ps q, has_step f k g -> ~ complete g ps q) /\ exists e, read_into nb fuel y w file (T "opal") name (Some (Some k)) = Some (y, Err e)).
Proof.
  intros nb fuel y w file f name n k W M U ND K. destruct (read_opal f (Some k)) as [s|e|] eqn:R.
  - left. destruct (opal_works nb fuel y w file name n f (Some (Some k)) s W M U R) as (y' & RI & RG). assert (I : In (step_key k) (map fst f)).
    { destruct (in_dec (list_eq_dec Ascii.ascii_dec) (step_key k) (map fst f)) as [I|N]; [exact I|]. rewrite (opal_absent f k K N) in R. discriminate. }
    apply in_map_iff in I. destruct I as ([k' g] & E & I). cbn [fst] in E. subst k'. assert (H : has_step f k g) by exact I.
    rewrite (opal_body f k g ND K H) in R. destruct (body_sound g s R) as (ps & q & C & F & Q). exists y', s, g, ps, q. auto 10.
  - right. split; [|exists e; now apply (opal_fails nb fuel y w file name f (Some (Some k)) e W)].
    intros g ps q H C. destruct (body_works g ps q C) as (s & B & _). rewrite (opal_body f k g ND K H), B in R. discriminate.
  - now destruct (opal_no_loop f (Some k)).
Qed.
Print Assumptions C134_only_complete.
(** Without a step number, and with the number 0, the last step is read in the same way. *)
Theorem C134_last : forall nb fuel y w file f name k kw, h5_files w file = Some f -> opal_file f -> 0 < k -> largest_step f k -> kw = None \/ kw = Some None \/ kw = Some (Some 0) ->
  read_into nb fuel y w file (T "opal") name kw = read_into nb fuel y w file (T "opal") name (Some (Some k)).
Proof.
  intros nb fuel y w file f name k kw W O P M K. assert (L : read_opal f None = read_opal f (Some k)).
  { unfold read_opal at 1. rewrite (last_step_largest f k O ltac:(lia) M). unfold read_opal. destruct k; [lia|reflexivity|lia]. }
  assert (L0 : read_opal f (Some 0) = read_opal f None) by reflexivity.
  unfold read_into, read_species. change (teqb (T "opal") (T "elegant")) with false. change (teqb (T "opal") (T "opal")) with true. cbv iota. rewrite W.
  destruct K as [->|[->| ->]]; now rewrite ?L0, ?L.
Qed.
Print Assumptions C134_last.
(** The reader for elegant takes no step number: the call raises, whatever the file. *)
Theorem C134_elegant_keyword : forall nb fuel y w file name k,
  read_into nb fuel y w file (T "elegant") name (Some k) = Some (y, Err TypeError).
Proof. reflexivity. Qed.
Print Assumptions C134_elegant_keyword.

(** Cases: one entry of px for two particles is accepted; two entries of x for three particles are not. *)
Definition line_of (l : list Z) : list fl := map (fun z => Some (IZR z)) l.
Definition two : h5group := {| g_data := [(T "x", line_of [1; 2]); (T "px", line_of [5]); (T "y", line_of [3; 4]); (T "py", line_of [0; 6]); (T "z", line_of [7; 8]); (T "pz", line_of [9; 9])];
  g_attrs := [(T "TotalCharge", Some 0%R); (T "CHARGE", Some 7%R)] |}.
Definition uneven : h5group := {| g_data := [(T "x", line_of [1; 2]); (T "px", line_of [5]); (T "y", line_of [3; 4; 5]); (T "py", line_of [0]); (T "z", line_of [7; 8; 9]); (T "pz", line_of [9])];
  g_attrs := [(T "CHARGE", Some 7%R)] |}.
Definition opal_disk : world := {| sdds_files := fun _ => None; h5_files := fun _ => Some [(T "Step#1", two); (T "Step#2", uneven)] |}.
Definition two_particles : list opal_particle :=
  [{| ox := Some (IZR 1); opx := Some (IZR 5); oy := Some (IZR 3); opy := Some (IZR 0); oz := Some (IZR 7); opz := Some (IZR 9) |};
   {| ox := Some (IZR 2); opx := Some (IZR 5); oy := Some (IZR 4); opy := Some (IZR 6); oz := Some (IZR 8); opz := Some (IZR 9) |}].
Lemma two_complete : complete two two_particles (Some 7%R).
Proof.
  split; [unfold lookup_key; key_at|]. split; [right; split; [right; unfold lookup_key; key_at|unfold lookup_key; key_at]|].
  intros name field [I|[I|[I|[I|[I|[]]]]]]; injection I as <- <-; (eexists; split; [unfold lookup_key; key_at|]);
  first [left; reflexivity | right; eexists; split; [reflexivity|repeat constructor]].
Qed.
Example C134_applies : forall nb, (exists y s, read_into nb 0 [] opal_disk [] (T "opal") None (Some (Some 1)) = Some (y, Ok tt) /\ registered y (T "species_0") s /\
    Forall2 same_particle two_particles (coordinates s) /\ total_charge s = Charge (Some 7%R)) /\
  read_into nb 0 [] opal_disk [] (T "opal") None (Some (Some 2)) = Some ([], Err ValueError).
Proof.
  intros nb. split; [|reflexivity].
  apply (C134_reads nb 0 [] opal_disk [] [(T "Step#1", two); (T "Step#2", uneven)] None (T "species_0") 1 two two_particles (Some 7%R));
    [reflexivity|left; auto|reflexivity|nodup|discriminate|now left|apply two_complete].
Qed.

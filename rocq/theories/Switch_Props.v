(** * Claims C65-C68 and C90-C95: the switchyard. *)
From Coq Require Import List Bool Arith Ascii String ZArith Reals Lra Lia.
From Verif Require Import PyBase PyText Lte_Spec Sdds_Model Sdds_Spec Sdds_Proofs Sdds_Proofs6 Sdds_Proofs7 Sdds_Proofs8 Sdds_Proofs9 Sdds_Proofs10 Sdds_Samples Sdds_Props
  Switch_Model Switch_Spec Switch_Proofs Switch_Proofs2 Switch_Proofs3 Switch_Proofs4.
Import ListNotations.
Open Scope Z_scope.

Lemma found : forall y name n s, meant name n -> registered y n s -> species_of y (resolve name) = Some s.
Proof. intros y name n s M R. apply meant_resolve in M. now rewrite M. Qed.
Lemma elegant_written : forall nb y name n s f, meant name n -> registered y n s -> write_elegant nb s = Ok f -> write nb y (T "elegant") name None = Ok f.
Proof. intros nb y name n s f M R E. unfold write. rewrite (found y name n s M R). exact E. Qed.
Lemma elegant_fails : forall nb fuel y w file name f e, sdds_files w file = Some f -> read_elegant nb fuel f = Some (Err e) -> read_into nb fuel y w file (T "elegant") name None = Some (y, Err e).
Proof. intros nb fuel y w file name f e W E. unfold read_into, read_species. cbn [teqb]. change (teqb (T "elegant") (T "elegant")) with true. cbv iota. rewrite W, E. reflexivity. Qed.
Lemma elegant_works : forall nb fuel y w file name n f s, sdds_files w file = Some f -> meant name n -> unregistered y n -> read_elegant nb fuel f = Some (Ok s) ->
  exists y', read_into nb fuel y w file (T "elegant") name None = Some (y', Ok tt) /\ registered y' n s.
Proof.
  intros nb fuel y w file name n f s W M U E. apply meant_resolve in M. unfold read_into, read_species. change (teqb (T "elegant") (T "elegant")) with true. cbv iota. rewrite W, E, M.
  eexists. split; [reflexivity|]. unfold registered. rewrite insert_get. unfold unregistered in U. rewrite U. now rewrite teqb_refl.
Qed.
Lemma opal_works : forall nb fuel y w file name n f k s, h5_files w file = Some f -> meant name n -> unregistered y n -> read_opal f (match k with Some k => k | None => None end) = Ok s ->
  exists y', read_into nb fuel y w file (T "opal") name k = Some (y', Ok tt) /\ registered y' n s.
Proof.
  intros nb fuel y w file name n f k s W M U E. apply meant_resolve in M. unfold read_into, read_species. change (teqb (T "opal") (T "elegant")) with false. change (teqb (T "opal") (T "opal")) with true. cbv iota.
  rewrite W, E, M. eexists. split; [reflexivity|]. unfold registered. rewrite insert_get. unfold unregistered in U. rewrite U. now rewrite teqb_refl.
Qed.
Lemma opal_fails : forall nb fuel y w file name f k e, h5_files w file = Some f -> read_opal f (match k with Some k => k | None => None end) = Err e ->
  read_into nb fuel y w file (T "opal") name k = Some (y, Err e).
Proof.
  intros nb fuel y w file name f k e W E. unfold read_into, read_species. change (teqb (T "opal") (T "elegant")) with false. change (teqb (T "opal") (T "opal")) with true. cbv iota. rewrite W, E. reflexivity.
Qed.

(* ------------------------------------------------------------------ *)
(** ** C65 elegant round trip.
    Full statement: a species written for elegant is read back with the same coordinates and total
    charge, if no total momentum is zero. Missing: a single particle, no particles, no total
    charge (all refuted). Reading and writing a double, and the divisions, are taken to be exact
    for the numbers at hand; rounding is not modelled. *)
Theorem C65_round_trip_partial : forall nb fuel y name n s q, meant name n -> registered y n s -> total_charge s = Charge q -> exact nb q ->
  Forall (representable nb) (coordinates s) -> (1 < List.length (coordinates s))%nat -> Z.of_nat (List.length (coordinates s)) < 2 ^ 31 -> (1 < fuel)%nat ->
  exists f, write nb y (T "elegant") name None = Ok f /\
    forall y2 w file name2 n2, sdds_files w file = Some f -> meant name2 n2 -> unregistered y2 n2 ->
      exists y3 s', read_into nb fuel y2 w file (T "elegant") name2 None = Some (y3, Ok tt) /\ registered y3 n2 s' /\
        coordinates s' = coordinates s /\ total_charge s' = total_charge s.
Proof.
  intros nb fuel y name n s q M R Q E F N L FU. destruct (elegant_back nb s q fuel F E L N FU Q) as [f [s' [W [RD [C T0]]]]].
  exists f. split; [exact (elegant_written nb y name n s f M R W)|]. intros y2 w file name2 n2 WF M2 U.
  destruct (elegant_works nb fuel y2 w file name2 n2 f s' WF M2 U RD) as [y3 [RI RG]]. exists y3, s'. auto.
Qed.
Print Assumptions C65_round_trip_partial.

(** One particle: the file is written, but reading it raises. *)
Theorem C65_one_particle_refuted : forall nb fuel y name n s q, meant name n -> registered y n s -> total_charge s = Charge q -> exact nb q ->
  Forall (representable nb) (coordinates s) -> List.length (coordinates s) = 1%nat -> (1 < fuel)%nat ->
  exists f, write nb y (T "elegant") name None = Ok f /\
    forall y2 w file name2, sdds_files w file = Some f -> read_into nb fuel y2 w file (T "elegant") name2 None = Some (y2, Err IndexError).
Proof.
  intros nb fuel y name n s q M R Q E F N FU. destruct (elegant_one nb s q fuel F E N FU Q) as [f [W RD]].
  exists f. split; [exact (elegant_written nb y name n s f M R W)|]. intros y2 w file name2 WF. now apply (elegant_fails nb fuel y2 w file name2 f).
Qed.
Print Assumptions C65_one_particle_refuted.

(** No particles. *)
Theorem C65_no_particles_refuted : forall nb fuel y name n s q, meant name n -> registered y n s -> total_charge s = Charge q -> exact nb q ->
  coordinates s = [] -> (1 < fuel)%nat ->
  exists f, write nb y (T "elegant") name None = Ok f /\
    forall y2 w file name2, sdds_files w file = Some f -> read_into nb fuel y2 w file (T "elegant") name2 None = Some (y2, Err IndexError).
Proof.
  intros nb fuel y name n s q M R Q E N FU. destruct (elegant_none nb s q fuel E N FU Q) as [f [W RD]].
  exists f. split; [exact (elegant_written nb y name n s f M R W)|]. intros y2 w file name2 WF. now apply (elegant_fails nb fuel y2 w file name2 f).
Qed.
Print Assumptions C65_no_particles_refuted.

(** No total charge, which is the default of a species: the header declares a charge that is not
    in the data. *)
Theorem C65_no_charge_refuted : forall nb fuel y name n s, meant name n -> registered y n s -> total_charge s = NoCharge ->
  Forall (representable nb) (coordinates s) -> Z.of_nat (List.length (coordinates s)) < 2 ^ 31 -> (0 < fuel)%nat ->
  exists f, write nb y (T "elegant") name None = Ok f /\
    forall y2 w file name2, sdds_files w file = Some f -> read_into nb fuel y2 w file (T "elegant") name2 None = Some (y2, Err ValueError).
Proof.
  intros nb fuel y name n s M R Q F N FU. destruct (elegant_no_charge nb s fuel F N FU Q) as [f [W RD]].
  exists f. split; [exact (elegant_written nb y name n s f M R W)|]. intros y2 w file name2 WF. now apply (elegant_fails nb fuel y2 w file name2 f).
Qed.
Print Assumptions C65_no_charge_refuted.

(** A case: three particles. Whole numbers have their own bytes here. *)
Definition whole : numbers :=
  {| bits := fun v => match v with Some x => double_bits (Int_part x) | None => repeat "255"%char 8 end;
     num := fun b => if list_eq_dec Ascii.ascii_dec b (double_bits 0) then Some 0%R else if list_eq_dec Ascii.ascii_dec b (double_bits 1) then Some 1%R
                     else if list_eq_dec Ascii.ascii_dec b (double_bits 2) then Some 2%R else if list_eq_dec Ascii.ascii_dec b (double_bits (-3)) then Some (-3)%R else None;
     csv := fun _ => T "0"; sci := fun _ => T "0"; str := fun _ => T "0" |}.
Lemma int_part : forall z, Int_part (IZR z) = z.
Proof.
  intros z. unfold Int_part. replace (up (IZR z)) with (z + 1); [lia|]. apply tech_up; rewrite plus_IZR; lra.
Qed.
Lemma whole_exact : forall z, In z [0; 1; 2; -3] -> exact whole (Some (IZR z)).
Proof.
  intros z I. unfold exact. cbn [whole bits]. rewrite int_part. cbn [In] in I. destruct I as [<-|[<-|[<-|[<-|[]]]]]; split; vm_compute; reflexivity.
Qed.
Definition moving (x ux y uy t p : Z) : particle :=
  {| px := Some (IZR x); pux := Some (IZR ux * IZR p)%R; py := Some (IZR y); puy := Some (IZR uy * IZR p)%R; pct := Some (IZR t * 299792458)%R; ppt := Some (IZR p) |}.
Lemma moving_fits : forall x ux y uy t p, In x [0; 1; 2; -3] -> In ux [0; 1; 2; -3] -> In y [0; 1; 2; -3] -> In uy [0; 1; 2; -3] -> In t [0; 1; 2; -3] -> In p [1; 2; -3] ->
  representable whole (moving x ux y uy t p).
Proof.
  intros x ux y uy t p I1 I2 I3 I4 I5 I6.
  assert (N : IZR p <> 0%R) by (apply IZR_neq; intros ->; cbn in I6; intuition discriminate).
  eexists _, _, _, _, _, _. split; [reflexivity|]. split; [exact N|].
  replace (IZR ux * IZR p / IZR p)%R with (IZR ux) by (field; exact N). replace (IZR uy * IZR p / IZR p)%R with (IZR uy) by (field; exact N).
  replace (IZR t * 299792458 / 299792458)%R with (IZR t) by field.
  assert (I7 : In p [0; 1; 2; -3]) by (right; exact I6).
  repeat split; apply whole_exact; assumption.
Qed.
Definition bunch : species :=
  {| coordinates := [moving 0 1 2 (-3) 0 2; moving 1 1 0 0 1 1; moving (-3) 2 1 1 2 (-3)]; sp_charge := Some (-1)%R; sp_mass := Some 511000%R; total_charge := Charge (Some 2%R) |}.
Lemma bunch_fits : Forall (representable whole) (coordinates bunch).
Proof. repeat (constructor; [apply moving_fits; cbn; tauto|]). constructor. Qed.
Example C65_applies : exists f, write whole [(T "beam", bunch)] (T "elegant") (Some (T "beam")) None = Ok f /\
  forall w file, sdds_files w file = Some f ->
    exists y s, read_into whole 2 [(T "beam", bunch)] w file (T "elegant") None None = Some (y, Ok tt) /\ registered y (T "species_0") s /\ coordinates s = coordinates bunch /\ total_charge s = Charge (Some 2%R).
Proof.
  destruct (C65_round_trip_partial whole 2 [(T "beam", bunch)] (Some (T "beam")) (T "beam") bunch (Some 2%R)) as [f [W H]]; try reflexivity; try (cbn; lia).
  - right. split; [reflexivity|discriminate].
  - apply (whole_exact 2). cbn. tauto.
  - exact bunch_fits.
  - exists f. split; [exact W|]. intros w file WF. apply (H [(T "beam", bunch)] w file None (T "species_0") WF); [left; auto|reflexivity].
Qed.
Definition uncharged (n : nat) : species := {| coordinates := firstn n (coordinates bunch); sp_charge := None; sp_mass := None; total_charge := NoCharge |}.
Definition some_of (n : nat) : species := {| coordinates := firstn n (coordinates bunch); sp_charge := None; sp_mass := None; total_charge := Charge (Some 1%R) |}.
Example C65_refuted_apply :
  (exists f, write whole [(T "beam", uncharged 3)] (T "elegant") (Some (T "beam")) None = Ok f /\ forall w file, sdds_files w file = Some f -> read_into whole 2 [] w file (T "elegant") None None = Some ([], Err ValueError)) /\
  (exists f, write whole [(T "beam", some_of 1)] (T "elegant") (Some (T "beam")) None = Ok f /\ forall w file, sdds_files w file = Some f -> read_into whole 2 [] w file (T "elegant") None None = Some ([], Err IndexError)) /\
  (exists f, write whole [(T "beam", some_of 0)] (T "elegant") (Some (T "beam")) None = Ok f /\ forall w file, sdds_files w file = Some f -> read_into whole 2 [] w file (T "elegant") None None = Some ([], Err IndexError)).
Proof.
  assert (M : meant (Some (T "beam")) (T "beam")) by (right; split; [reflexivity|discriminate]).
  assert (E : exact whole (Some 1%R)) by (apply (whole_exact 1); cbn; tauto). assert (B := bunch_fits). cbn [bunch coordinates] in B. inversion B as [|? ? B1 B2]; subst.
  split; [|split].
  - destruct (C65_no_charge_refuted whole 2 [(T "beam", uncharged 3)] _ _ (uncharged 3) M) as [f [W H]]; try reflexivity; [exact bunch_fits|lia|]. exists f. split; [exact W|]. intros w file. apply H.
  - destruct (C65_one_particle_refuted whole 2 [(T "beam", some_of 1)] _ _ (some_of 1) (Some 1%R) M) as [f [W H]]; try reflexivity; try assumption; [constructor; [assumption|constructor]|lia|].
    exists f. split; [exact W|]. intros w file. apply H.
  - destruct (C65_no_particles_refuted whole 2 [(T "beam", some_of 0)] _ _ (some_of 0) (Some 1%R) M) as [f [W H]]; try reflexivity; try assumption; [lia|].
    exists f. split; [exact W|]. intros w file. apply H.
Qed.

(* ------------------------------------------------------------------ *)
(** ** C66 Registered species are never replaced.
    After any calls on a new switchyard, failing ones and writes included, and whatever happens to
    the files in between, a species is under a name if and only if it is the one that the first
    successful read under that name gave. *)
Theorem C66_first_kept : forall nb fuel calls y n, run nb fuel new_yard calls = Some y ->
  (forall s, registered y n s <-> first_yield nb fuel calls n s) /\
  (unregistered y n <-> forall c s, In c calls -> ~ yields nb fuel c n s).
Proof. intros nb fuel calls y n H. exact (proj2 (run_registered nb fuel calls new_yard y n H) eq_refl). Qed.
Print Assumptions C66_first_kept.
(** ... and once it is there it stays. *)
Theorem C66_stays : forall nb fuel calls y y' n s, registered y n s -> run nb fuel y calls = Some y' -> registered y' n s.
Proof. intros nb fuel calls y y' n s R H. exact (proj1 (run_registered nb fuel calls y y' n H) s R). Qed.
Print Assumptions C66_stays.

(** A case: OPAL files with one step. *)
Definition dump (x : R) : h5group :=
  {| g_data := [(T "x", [Some x]); (T "px", [Some 0%R]); (T "y", [Some 0%R]); (T "py", [Some 3%R]); (T "z", [Some 1%R]); (T "pz", [Some 4%R])]; g_attrs := [(T "CHARGE", Some 7%R)] |}.
Definition dump_of (x : R) : species :=
  {| coordinates := [{| px := Some x; pux := Some 0%R; py := Some 0%R; puy := Some 3%R; pct := Some 1%R; ppt := Some 4%R |}]; sp_charge := Some (-1)%R; sp_mass := Some 511000%R; total_charge := Charge (Some 7%R) |}.
Definition disk_with (x : R) : world := {| sdds_files := fun _ => None; h5_files := fun n => if teqb n (T "a.h5") then Some [(T "Step#5", dump x)] else None |}.
Definition history : list call :=
  [Read (disk_with 1) (T "b.h5") (T "opal") None None; Read (disk_with 2) (T "a.h5") (T "opal") None None; Write (T "elegant") None (Some (T "3"));
   Read (disk_with 3) (T "a.h5") (T "opal") (Some (T "b")) None; Read (disk_with 4) (T "a.h5") (T "opal") (Some (T "species_0")) None].
Lemma dump_read : forall nb fuel x, read_species nb fuel (disk_with x) (T "a.h5") (T "opal") None = Some (Ok (dump_of x)).
Proof. reflexivity. Qed.
Example C66_applies : forall nb, exists y, run nb 2 new_yard history = Some y /\ registered y (T "species_0") (dump_of 2) /\ registered y (T "b") (dump_of 3) /\ first_yield nb 2 history (T "species_0") (dump_of 2).
Proof.
  intros nb. eexists. split; [reflexivity|]. split; [reflexivity|]. split; [reflexivity|].
  apply (proj1 (C66_first_kept nb 2 history _ (T "species_0") eq_refl)). reflexivity.
Qed.

(* ------------------------------------------------------------------ *)
(** ** C67 OPAL step selection.
    Full statement: without a step number the largest step is read, with one that step is. Missing:
    step 0 (refuted). *)
Theorem C67_last_partial : forall nb fuel y w file f name n k g ps q, h5_files w file = Some f -> meant name n -> unregistered y n ->
  opal_file f -> 0 <= k -> largest_step f k -> has_step f k g -> holds g ps -> charged g q ->
  exists y' s, read_into nb fuel y w file (T "opal") name None = Some (y', Ok tt) /\ registered y' n s /\ Forall2 same_particle ps (coordinates s) /\ total_charge s = Charge q.
Proof.
  intros nb fuel y w file f name n k g ps q W M U O P L H HO C. destruct (opal_last f k g ps q O P L H HO C) as [s [R [F T0]]].
  destruct (opal_works nb fuel y w file name n f None s W M U R) as [y' [RI RG]]. exists y', s. auto.
Qed.
Print Assumptions C67_last_partial.
Theorem C67_step_partial : forall nb fuel y w file f name n k g ps q, h5_files w file = Some f -> meant name n -> unregistered y n ->
  NoDup (map fst f) -> k <> 0 -> has_step f k g -> holds g ps -> charged g q ->
  exists y' s, read_into nb fuel y w file (T "opal") name (Some (Some k)) = Some (y', Ok tt) /\ registered y' n s /\ Forall2 same_particle ps (coordinates s) /\ total_charge s = Charge q.
Proof.
  intros nb fuel y w file f name n k g ps q W M U ND K H HO C. destruct (opal_step f k g ps q ND K H HO C) as [s [R [F T0]]].
  destruct (opal_works nb fuel y w file name n f (Some (Some k)) s W M U R) as [y' [RI RG]]. exists y', s. auto.
Qed.
Print Assumptions C67_step_partial.
(** Asking for a step that is not there raises and registers nothing; so does a file without steps. *)
Theorem C67_absent_partial : forall nb fuel y w file f name k, h5_files w file = Some f -> k <> 0 -> ~ In (step_key k) (map fst f) ->
  read_into nb fuel y w file (T "opal") name (Some (Some k)) = Some (y, Err KeyError).
Proof. intros nb fuel y w file f name k W K N. apply (opal_fails nb fuel y w file name f (Some (Some k)) KeyError W). now apply opal_absent. Qed.
Print Assumptions C67_absent_partial.
Theorem C67_no_steps_partial : forall nb fuel y w file f name, h5_files w file = Some f -> opal_file f -> (forall k, 0 <= k -> ~ In (step_key k) (map fst f)) ->
  read_into nb fuel y w file (T "opal") name None = Some (y, Err ValueError).
Proof. intros nb fuel y w file f name W O N. apply (opal_fails nb fuel y w file name f None ValueError W). now apply opal_no_steps. Qed.
Print Assumptions C67_no_steps_partial.
(** Asking for step 0 reads the last step, whether or not there is a step 0. *)
Theorem C67_zero_refuted : forall nb fuel y w file f name n k g ps q, h5_files w file = Some f -> meant name n -> unregistered y n ->
  opal_file f -> 0 < k -> largest_step f k -> has_step f k g -> holds g ps -> charged g q ->
  exists y' s, read_into nb fuel y w file (T "opal") name (Some (Some 0)) = Some (y', Ok tt) /\ registered y' n s /\ Forall2 same_particle ps (coordinates s) /\ total_charge s = Charge q.
Proof.
  intros nb fuel y w file f name n k g ps q W M U O P L H HO C. destruct (opal_last f k g ps q O ltac:(lia) L H HO C) as [s [R [F T0]]].
  destruct (opal_works nb fuel y w file name n f (Some (Some 0)) s W M U R) as [y' [RI RG]]. exists y', s. auto.
Qed.
Print Assumptions C67_zero_refuted.

(** A case: steps 0, 10 and 9 and a group of another name; the steps differ. *)
Definition three_steps : h5file := [(T "Step#0", dump 1); (T "Step#10", dump 2); (T "Step#9", dump 3); (T "OPAL_VERSION_a", dump 4)].
Definition holding (x : R) : list opal_particle := [{| ox := Some x; opx := Some 0%R; oy := Some 0%R; opy := Some 3%R; oz := Some 1%R; opz := Some 4%R |}].
Ltac key_at := first [exists []; eexists; split; [reflexivity|intros []] | eexists [_]; eexists; split; [reflexivity|no_char] | eexists [_; _]; eexists; split; [reflexivity|no_char] |
  eexists [_; _; _]; eexists; split; [reflexivity|no_char] | eexists [_; _; _; _]; eexists; split; [reflexivity|no_char] | eexists [_; _; _; _; _]; eexists; split; [reflexivity|no_char]].
Lemma dump_holds : forall x, holds (dump x) (holding x).
Proof. intros x. unfold holds, lookup_key. repeat split; key_at. Qed.
Lemma dump_charged : forall x, charged (dump x) (Some 7%R).
Proof. intros x. right. split; [no_char|]. unfold lookup_key. key_at. Qed.
Lemma three_steps_file : opal_file three_steps.
Proof.
  split; [nodup|]. cbn [three_steps map fst In]. intros key [<-|[<-|[<-|[<-|[]]]]].
  - left. exists 0. split; [lia|reflexivity].
  - left. exists 10. split; [lia|reflexivity].
  - left. exists 9. split; [lia|reflexivity].
  - right. exists (T "OPAL_VERSION_"), "a"%char. split; [reflexivity|]. right. cbn. lia.
Qed.
Lemma three_steps_last : largest_step three_steps 10.
Proof.
  split; [cbn; tauto|]. intros j P I. cbn [three_steps map fst In] in I. destruct I as [I|[I|[I|[I|[]]]]].
  - assert (0 = j) by (apply step_key_inj; exact I). lia.
  - assert (10 = j) by (apply step_key_inj; exact I). lia.
  - assert (9 = j) by (apply step_key_inj; exact I). lia.
  - discriminate.
Qed.
Definition disk_3 : world := {| sdds_files := fun _ => None; h5_files := fun _ => Some three_steps |}.
Example C67_applies : forall nb, (exists y s, read_into nb 0 [] disk_3 [] (T "opal") None None = Some (y, Ok tt) /\ registered y (T "species_0") s /\ Forall2 same_particle (holding 2) (coordinates s) /\ total_charge s = Charge (Some 7%R)) /\
  (exists y s, read_into nb 0 [] disk_3 [] (T "opal") None (Some (Some 9)) = Some (y, Ok tt) /\ registered y (T "species_0") s /\ Forall2 same_particle (holding 3) (coordinates s) /\ total_charge s = Charge (Some 7%R)) /\
  (exists y s, read_into nb 0 [] disk_3 [] (T "opal") None (Some (Some 0)) = Some (y, Ok tt) /\ registered y (T "species_0") s /\ Forall2 same_particle (holding 2) (coordinates s) /\ total_charge s = Charge (Some 7%R)).
Proof.
  intros nb. assert (M : meant None (T "species_0")) by (left; auto). split; [|split].
  - apply (C67_last_partial nb 0 [] disk_3 [] three_steps None (T "species_0") 10 (dump 2) (holding 2) (Some 7%R)); auto; try reflexivity; try lia; [apply three_steps_file|apply three_steps_last|cbn; tauto|apply dump_holds|apply dump_charged].
  - apply (C67_step_partial nb 0 [] disk_3 [] three_steps None (T "species_0") 9 (dump 3) (holding 3) (Some 7%R)); auto; try reflexivity; try lia; [apply three_steps_file|cbn; tauto|apply dump_holds|apply dump_charged].
  - apply (C67_zero_refuted nb 0 [] disk_3 [] three_steps None (T "species_0") 10 (dump 2) (holding 2) (Some 7%R)); auto; try reflexivity; try lia; [apply three_steps_file|apply three_steps_last|cbn; tauto|apply dump_holds|apply dump_charged].
Qed.

(* ------------------------------------------------------------------ *)
(** ** C68 Genesis output.
    The file has four lines of header and one line per particle, in order. The times differ from
    the original ones, in seconds, by one common amount and add up to zero; the other five numbers
    are those of the particle. Times must be finite. *)
Theorem C68_genesis : forall nb y name n s version, meant name n -> registered y n s -> Forall (fun p => finite (pct p)) (coordinates s) ->
  exists m ts, Forall2 (fun p t => exists ct, pct p = Some ct /\ t = (ct / 299792458 - m)%R) (coordinates s) ts /\ rsum ts = 0%R /\
    write nb y (T "genesis") name version = Ok (lines ([T "? VERSION = " ++ match version with Some v => v | None => T "2.0" end; T "? CHARGE = " ++ str nb (total_charge s);
      T "? SIZE = " ++ dec (Z.of_nat (List.length (coordinates s))); T "? COLUMNS X PX Y PY T P"] ++
      map (fun pt => shown_row (csv nb) (genesis_row (fst pt) (snd pt))) (combine (coordinates s) ts))).
Proof.
  intros nb y name n s version M R F. destruct (genesis_times s F) as [m [ts [A [B E]]]]. exists m, ts. split; [exact A|]. split; [exact B|].
  unfold write. rewrite (found y name n s M R). change (teqb (T "genesis") (T "genesis")) with true. cbn [rbind]. unfold write_genesis. rewrite E. rewrite (rows_lines _ (csv nb)).
  unfold lines at 2. rewrite map_app, concat_app. cbn [map List.concat]. rewrite <- !app_assoc. reflexivity.
Qed.
Print Assumptions C68_genesis.
(** If a time is not finite, no time is. *)
Theorem C68_not_finite : forall nb y name n s version p, meant name n -> registered y n s -> In p (coordinates s) -> pct p = None ->
  write nb y (T "genesis") name version = Ok (lines ([T "? VERSION = " ++ match version with Some v => v | None => T "2.0" end; T "? CHARGE = " ++ str nb (total_charge s);
      T "? SIZE = " ++ dec (Z.of_nat (List.length (coordinates s))); T "? COLUMNS X PX Y PY T P"] ++
      map (fun p => shown_row (csv nb) [px p; pux p; py p; puy p; None; ppt p]) (coordinates s))).
Proof.
  intros nb y name n s version p M R I N. unfold write. rewrite (found y name n s M R). change (teqb (T "genesis") (T "genesis")) with true. cbn [rbind]. unfold write_genesis.
  rewrite (genesis_undefined s p I N). rewrite (rows_lines _ (csv nb)). unfold lines at 2. rewrite map_app, concat_app. cbn [map List.concat]. rewrite <- !app_assoc. reflexivity.
Qed.
Print Assumptions C68_not_finite.
Example C68_applies : exists m ts, Forall2 (fun p t => exists ct, pct p = Some ct /\ t = (ct / 299792458 - m)%R) (coordinates bunch) ts /\ rsum ts = 0%R /\ List.length ts = 3%nat /\ m = 1%R.
Proof.
  destruct (C68_genesis whole [(T "beam", bunch)] (Some (T "beam")) (T "beam") bunch None) as [m [ts [A [B _]]]].
  - right. split; [reflexivity|discriminate].
  - reflexivity.
  - repeat (constructor; [eexists; reflexivity|]). constructor.
  - exists m, ts. split; [exact A|]. split; [exact B|]. cbn [bunch coordinates] in A. inversion A as [|? t1 ? ? [c1 [E1 F1]] A1]; subst. inversion A1 as [|? t2 ? ? [c2 [E2 F2]] A2]; subst. inversion A2 as [|? t3 ? ? [c3 [E3 F3]] A3]; subst. inversion A3; subst.
    split; [reflexivity|]. cbn in E1, E2, E3. injection E1 as <-. injection E2 as <-. injection E3 as <-. cbn [rsum] in B. lra.
Qed.

(* ------------------------------------------------------------------ *)
(** ** C90 Supported codes can be read and written.
    Full statement: every code that is_supported accepts has a reader and a writer, and no other
    has. Genesis has no reader. *)
Theorem C90_genesis_refuted : is_supported (T "genesis") = true /\
  forall nb fuel y w file name kw, read_into nb fuel y w file (T "genesis") name kw = Some (y, Err LookupError).
Proof. split; reflexivity. Qed.
Print Assumptions C90_genesis_refuted.
(** Any other name of a code is refused, by both, and nothing changes. *)
Theorem C90_unsupported_partial : forall nb fuel y w file code name kw version, ~ In code [T "elegant"; T "opal"; T "genesis"] ->
  is_supported code = false /\ read_into nb fuel y w file code name kw = Some (y, Err LookupError) /\ write nb y code name version = Err KeyError.
Proof.
  intros nb fuel y w file code name kw version N. assert (E : forall k, In k [T "elegant"; T "opal"; T "genesis"] -> teqb code k = false).
  { intros k I. destruct (teqb code k) eqn:E; [|reflexivity]. apply teqb_eq in E. subst. contradiction. }
  unfold is_supported, supported_codes, read_into, read_species, write. cbn [existsb]. rewrite !E by (cbn; tauto). split; [reflexivity|]. split; reflexivity.
Qed.
Print Assumptions C90_unsupported_partial.
(** Writers: genesis and opal always write a registered species; a name that is not registered raises. *)
Theorem C90_writers_partial : forall nb y name n s code, meant name n -> registered y n s -> code = T "genesis" \/ code = T "opal" -> is_supported code = true /\ exists f, write nb y code name None = Ok f.
Proof.
  intros nb y name n s code M R [-> | ->]; (split; [reflexivity|]); unfold write; rewrite (found y name n s M R); eexists; reflexivity.
Qed.
Print Assumptions C90_writers_partial.
Theorem C90_unknown_name_partial : forall nb y name n code, meant name n -> unregistered y n -> write nb y code name None = Err KeyError.
Proof.
  intros nb y name n code M U. apply meant_resolve in M. unfold write, unregistered in *. rewrite M, U. destruct (teqb code (T "genesis")); [reflexivity|]. destruct (teqb code (T "elegant")); [reflexivity|]. destruct (teqb code (T "opal")); reflexivity.
Qed.
Print Assumptions C90_unknown_name_partial.
Example C90_applies : ~ In (T "Elegant") [T "elegant"; T "opal"; T "genesis"] /\ (forall nb, exists f, write nb [(T "beam", bunch)] (T "opal") (Some (T "beam")) None = Ok f).
Proof.
  split; [no_char|]. intros nb. apply (C90_writers_partial nb [(T "beam", bunch)] (Some (T "beam")) (T "beam") bunch (T "opal")); [right; split; [reflexivity|discriminate]|reflexivity|now right].
Qed.

(* ------------------------------------------------------------------ *)
(** ** C91 The last coordinate is the total momentum.
    The conventions of the class say that pt is the total momentum, and ux and uy are momenta
    beta gamma. For OPAL files, pt is the total momentum of a particle exactly when it has no
    transverse momentum and does not move backwards. *)
Theorem C91_opal_refuted : forall f k g ps q, NoDup (map fst f) -> k <> 0 -> has_step f k g -> holds g ps -> charged g q ->
  exists s, read_opal f (Some k) = Ok s /\
    Forall2 (fun o p => forall a b c, opx o = Some a -> opy o = Some b -> opz o = Some c ->
      pux p = Some a /\ puy p = Some b /\ (ppt p = Some (total a b c) <-> a = 0%R /\ b = 0%R /\ (0 <= c)%R)) ps (coordinates s).
Proof.
  intros f k g ps q ND K H HO C. destruct (opal_step f k g ps q ND K H HO C) as [s [R [F _]]]. exists s. split; [exact R|].
  clear - F. induction F as [|o p ps l [S1 [S2 [S3 [S4 [S5 S6]]]]] F IH]; constructor; [|assumption]. intros a b c A B C. rewrite S2, S4, S6, A, B, C. split; [reflexivity|]. split; [reflexivity|].
  rewrite <- (total_longitudinal a b c). split; [intros E; now injection E|congruence].
Qed.
Print Assumptions C91_opal_refuted.
(** ... and of elegant files it is the number in column p, whatever the angles. *)
Theorem C91_elegant_partial : forall nb h ps cs pgs fuel n, header_for h ps cs -> binary_header h -> Forall (sound 100 ps cs) pgs -> (List.length pgs < fuel)%nat -> Forall (same_length n) pgs -> (0 < n)%nat -> elegant_columns cs ->
  charge_readable ps -> pgs <> [] -> (List.length pgs = 1%nat /\ (1 < n)%nat) \/ ((1 < List.length pgs)%nat /\ n = 1%nat) ->
  exists s, read_elegant nb fuel (binary_file h ps cs pgs) = Some (Ok s) /\ Forall2 (fun row p => forall b, cell (map fst cs) row (T "p") (VDouble b) -> ppt p = num nb b) (rows_of_pages pgs) (coordinates s).
Proof.
  intros nb h ps cs pgs fuel n HF BH SO FU EQ N EC CR NE H. destruct (elegant_pages nb h ps cs pgs fuel n HF BH SO FU EQ N EC CR NE H) as [s [q [R [F _]]]]. exists s. split; [exact R|].
  assert (SR := sound_rows ps cs pgs SO). destruct HF as [_ [_ [_ [_ [N2 _]]]]]. clear - F SR EC N2.
  induction F as [|row p rows l P F IH]; [constructor|]. inversion SR as [|? ? S1 S2]; subst. constructor; [|now apply IH]. intros b B.
  assert (G : forall m, In m elegant_names -> exists v, cell (map fst cs) row m (VDouble v)).
  { intros m I. assert (J := EC m I). assert (LN : List.length row = List.length (map fst cs)) by (apply fits_length in S1; rewrite !map_length in *; assumption).
    destruct (position_in m (map fst cs)) as [i [_ [L E]]]; [now apply (in_map fst) in J|]. assert (X := combine_nth_in (map fst cs) row i LN L). rewrite E in X.
    destruct (cell_double 100 (map snd cs) row (map fst cs) m (nth i row (VInt 0)) S1) as [v V]; try assumption; [now rewrite !map_length|now rewrite combine_pairs|]. exists v. unfold cell. rewrite <- V. exact X. }
  destruct names_in as [I1 [I2 [I3 [I4 [I5 I6]]]]]. destruct (G _ I1) as [v1 V1]. destruct (G _ I2) as [v2 V2]. destruct (G _ I3) as [v3 V3]. destruct (G _ I4) as [v4 V4]. destruct (G _ I5) as [v5 V5].
  now destruct (P v1 v2 v3 v4 v5 b V1 V2 V3 V4 V5 B) as [_ [_ [_ [_ [_ ->]]]]].
Qed.
Print Assumptions C91_elegant_partial.
Example C91_applies : exists s, read_opal three_steps (Some 9) = Ok s /\ Forall (fun p => ppt p = Some 4%R /\ puy p = Some 3%R /\ ppt p <> Some (total 0 3 4)) (coordinates s).
Proof.
  destruct (C91_opal_refuted three_steps 9 (dump 3) (holding 3) (Some 7%R)) as [s [R F]]; [apply three_steps_file|lia|cbn; tauto|apply dump_holds|apply dump_charged|].
  assert (P : read_opal three_steps (Some 9) = Ok (dump_of 3)) by reflexivity. rewrite P in R. injection R as <-. exists (dump_of 3). split; [exact P|].
  inversion F as [|o p ? l H F']; subst. destruct (H 0%R 3%R 4%R) as [_ [U [T0 _]]]; try reflexivity. constructor; [|constructor].
  split; [reflexivity|]. split; [reflexivity|]. intros E. apply T0 in E. lra.
Qed.

(* ------------------------------------------------------------------ *)
(** ** C92 The total charge of a species is that of the file.
    Full statement: the total charge is the charge the file gives, in its data or in its header. A
    charge in the data of the only page is read. *)
Theorem C92_data_partial : forall nb h ps cs pg fuel b, header_for h ps cs -> binary_header h -> sound 100 ps cs pg -> (1 < fuel)%nat -> (1 < List.length (pg_rows pg))%nat ->
  elegant_columns cs -> In (T "Charge", Double) ps -> page_charge ps pg b ->
  exists s, read_elegant nb fuel (binary_file h ps cs [pg]) = Some (Ok s) /\ total_charge s = Charge (num nb b).
Proof.
  intros nb h ps cs pg fuel b HF BH SO FU N EC IN B. assert (SS : Forall (sound 100 ps cs) [pg]) by (constructor; [assumption|constructor]).
  destruct (elegant_pages nb h ps cs [pg] fuel (List.length (pg_rows pg))) as [s [q [R [_ [Q E]]]]]; auto; try discriminate.
  - constructor; [reflexivity|constructor].
  - lia.
  - now intros _.
  - destruct HF as [_ [_ [_ [N1 [N2 [N3 N4]]]]]]. destruct (charge_given nb ps cs [pg] SS N1 N4 IN) as [bs [F C]]; [discriminate|]. rewrite C in Q.
    inversion F as [|? b' ? l P F']; subst. inversion F'; subst. cbn [map] in Q. injection Q as Q. exists s. split; [exact R|]. rewrite <- Q.
    enough (X : VDouble b' = VDouble b) by congruence. apply (cell_fun (map fst ps) (pg_params pg) (T "Charge")); assumption.
Qed.
Print Assumptions C92_data_partial.
(** A charge in the header of the file, as a fixed value, is not used: the total charge is zero. *)
Theorem C92_fixed_refuted : forall nb h ps cs pg fuel c v, header_for h ps cs -> binary_header h -> sound 100 ps cs pg -> (1 < fuel)%nat -> (1 < List.length (pg_rows pg))%nat ->
  elegant_columns cs -> In c (params_of (h_lines h)) -> attribute_of c (T "name") = Some (T "Charge") -> attribute_of c (T "fixed_value") = Some v -> ~ In (T "Charge") (map fst ps) ->
  exists s, read_elegant nb fuel (binary_file h ps cs [pg]) = Some (Ok s) /\ total_charge s = Charge (Some 0%R).
Proof.
  intros nb h ps cs pg fuel c v HF BH SO FU N EC _ _ _ IN. assert (SS : Forall (sound 100 ps cs) [pg]) by (constructor; [assumption|constructor]).
  destruct (elegant_pages nb h ps cs [pg] fuel (List.length (pg_rows pg))) as [s [q [R [_ [Q E]]]]]; auto; try discriminate.
  - constructor; [reflexivity|constructor].
  - lia.
  - now intros I.
  - rewrite charge_missing in Q by (assumption || discriminate). injection Q as Q. exists s. split; [exact R|]. congruence.
Qed.
Print Assumptions C92_fixed_refuted.
(** OPAL: a step whose total charge is zero. *)
Theorem C92_zero_refuted : forall f k g ps, NoDup (map fst f) -> k <> 0 -> has_step f k g -> holds g ps -> lookup_key (g_attrs g) (T "TotalCharge") (Some 0%R) ->
  (~ In (T "CHARGE") (map fst (g_attrs g)) -> read_opal f (Some k) = Err AssertionError) /\
  (forall q, lookup_key (g_attrs g) (T "CHARGE") q -> exists s, read_opal f (Some k) = Ok s /\ total_charge s = Charge q).
Proof.
  intros f k g ps ND K H HO TC. assert (E : opal_charge g = match assoc (T "CHARGE") (g_attrs g) with Some q => Ok (Charge q) | None => Err AssertionError end).
  { unfold opal_charge. rewrite (assoc_key _ _ _ _ TC). destruct (Req_EM_T 0 0); [reflexivity|contradiction]. }
  assert (R : read_opal f (Some k) = do q <- opal_charge g; Ok {| coordinates := opal_rows (map ox ps) (map opx ps) (map oy ps) (map opy ps) (map oz ps) (map opz ps); sp_charge := Some (-1)%R; sp_mass := Some 511000%R; total_charge := q |}).
  { unfold read_opal. destruct HO as [H1 [H2 [H3 [H4 [H5 H6]]]]]. replace (match Some k with Some 0 | None => last_step (map fst f) | Some k => Ok k end) with (@Ok Z k) by (destruct k; [contradiction|reflexivity|reflexivity]).
    cbn [rbind]. change (step_prefix ++ dec k) with (step_key k). rewrite (assoc_in _ f _ _ ND H). unfold dataset. rewrite (assoc_key _ _ _ _ H1), (assoc_key _ _ _ _ H2), (assoc_key _ _ _ _ H3), (assoc_key _ _ _ _ H4), (assoc_key _ _ _ _ H5), (assoc_key _ _ _ _ H6).
    cbn [rbind]. unfold assigned. rewrite !map_length, !Nat.eqb_refl. reflexivity. }
  rewrite R, E. split.
  - intros N. now rewrite (assoc_none _ _ _ N).
  - intros q L. rewrite (assoc_key _ _ _ _ L). eexists. split; reflexivity.
Qed.
Print Assumptions C92_zero_refuted.

(** A file with a charge, in its data or as a fixed value. *)
Definition charge_fixed : wparam :=
  {| p_name := T "Charge"; p_data := None; p_type := T "long"; p_units := T "C"; p_symbol := []; p_format := []; p_description := []; p_fixed := FixInt 5 |}.
Definition charge_double : wparam :=
  {| p_name := T "Charge"; p_data := None; p_type := T "double"; p_units := T "C"; p_symbol := []; p_format := []; p_description := []; p_fixed := NoFix |}.
Definition the_charge (fixed : bool) : wparam := if fixed then charge_fixed else charge_double.
Definition beam_column (n : string) : wcol := {| w_name := T n; w_data := CDouble []; w_type := T "double"; w_units := []; w_symbol := []; w_format := []; w_description := []; w_length := 0 |}.
Definition beam_writer (fixed : bool) : writer := {| w_params := [the_charge fixed]; w_cols := map beam_column ["x"; "xp"; "y"; "yp"; "t"; "p"]%string |}.
Definition beam_header (fixed : bool) : header := written_header (beam_writer fixed) false.
Definition beam_params (fixed : bool) : list (text * kind) := if fixed then [] else [(T "Charge", Double)].
Definition beam_columns : list (text * kind) := [(T "x", Double); (T "xp", Double); (T "y", Double); (T "yp", Double); (T "t", Double); (T "p", Double)].
Lemma beam_header_for : forall fixed, header_for (beam_header fixed) (beam_params fixed) beam_columns.
Proof.
  intros fixed. assert (P : param_plain (the_charge fixed)).
  { destruct fixed; (split; [param_is|]); (split; [|first [now left|right; cbn; split; [now right|lia]]]); [exists Long|exists Double]; reflexivity. }
  split; [|split; [|split]].
  - apply written_ok; [constructor; [exact P|constructor]|]. cbn [beam_writer w_cols map]. repeat (constructor; [split; [col_is|exists Double; reflexivity]|]). constructor.
  - destruct fixed; split; repeat constructor; reflexivity.
  - destruct fixed; (constructor; [now apply fixed_readable_written|constructor]).
  - destruct fixed; (split; [nodup|]; split; [nodup|]; split; no_char).
Qed.
Lemma beam_header_binary : forall fixed, binary_header (beam_header fixed).
Proof. intros fixed. split; [discriminate|now left]. Qed.
Lemma beam_elegant : elegant_columns beam_columns.
Proof. intros n I. cbn in *. intuition (subst; tauto). Qed.
Definition beam_row (z : Z) : list value := repeat (VDouble (double_bits z)) 6.
Definition beam_page (fixed : bool) (zs : list Z) : page := {| pg_params := if fixed then [] else [VDouble (double_bits 2)]; pg_rows := map beam_row zs |}.
Lemma beam_sound : forall fixed zs, Z.of_nat (List.length zs) < 2 ^ 31 -> Forall (fun z => List.length (double_bits z) = 8%nat) zs -> sound 100 (beam_params fixed) beam_columns (beam_page fixed zs).
Proof.
  intros fixed zs L F. split; [|split].
  - destruct fixed; repeat constructor.
  - cbn [beam_page pg_rows]. apply Forall_map. eapply Forall_impl; [|exact F]. intros z E. repeat (constructor; [exact E|]). constructor.
  - cbn [beam_page pg_rows]. rewrite map_length. exact L.
Qed.
Example C92_applies :
  (exists s, read_elegant whole 2 (binary_file (beam_header false) (beam_params false) beam_columns [beam_page false [1; 0]]) = Some (Ok s) /\ total_charge s = Charge (Some 2%R)) /\
  (exists s, read_elegant whole 2 (binary_file (beam_header true) (beam_params true) beam_columns [beam_page true [1; 0]]) = Some (Ok s) /\ total_charge s = Charge (Some 0%R)).
Proof.
  split.
  - apply (C92_data_partial whole (beam_header false) (beam_params false) beam_columns (beam_page false [1; 0]) 2 (double_bits 2)); auto; try (cbn; lia); try (cbn; tauto).
    + apply beam_header_for.
    + apply beam_header_binary.
    + apply beam_sound; [cbn; lia|repeat constructor].
    + apply beam_elegant.
  - apply (C92_fixed_refuted whole (beam_header true) (beam_params true) beam_columns (beam_page true [1; 0]) 2 (param_command (charge_fixed)) (T "5")); auto; try (cbn; lia); try (cbn; tauto).
    + apply beam_header_for.
    + apply beam_header_binary.
    + apply beam_sound; [cbn; lia|repeat constructor].
    + apply beam_elegant.
Qed.
Definition monitor (attrs : list (text * fl)) : h5group := {| g_data := g_data (dump 1); g_attrs := attrs |}.
Example C92_zero_applies : read_opal [(T "Step#3", monitor [(T "TotalCharge", Some 0%R)])] (Some 3) = Err AssertionError.
Proof.
  apply (C92_zero_refuted [(T "Step#3", monitor [(T "TotalCharge", Some 0%R)])] 3 (monitor [(T "TotalCharge", Some 0%R)]) (holding 1)).
  - nodup.
  - lia.
  - now left.
  - exact (dump_holds 1).
  - exists [], []. split; [reflexivity|now intros I].
  - no_char.
Qed.

(* ------------------------------------------------------------------ *)
(** ** C93 The species that is written if none is named.
    The documentation says that this is the one registered first. It is the one called species_0,
    whatever was registered before, and if there is none writing fails. *)
Theorem C93_default_partial : forall nb y s code version, write nb ((T "species_0", s) :: y) code None version = write nb [(T "species_0", s)] code (Some (T "species_0")) version.
Proof. reflexivity. Qed.
Print Assumptions C93_default_partial.
Theorem C93_missing_refuted : forall nb n s y code, n <> [] -> registered ((n, s) :: y) n s -> unregistered ((n, s) :: y) (T "species_0") ->
  write nb ((n, s) :: y) code None None = Err KeyError /\ write nb ((n, s) :: y) code (Some n) None = write nb [(n, s)] code (Some n) None.
Proof.
  intros nb n s y code N R U. split.
  - unfold write, resolve, unregistered in *. change default_name with (T "species_0"). rewrite U. destruct (teqb code (T "genesis")), (teqb code (T "elegant")), (teqb code (T "opal")); reflexivity.
  - unfold write. replace (resolve (Some n)) with n by (destruct n; [contradiction|reflexivity]). unfold registered in R. rewrite R. unfold species_of, assoc. cbn [List.find fst]. rewrite teqb_refl. reflexivity.
Qed.
Print Assumptions C93_missing_refuted.
Theorem C93_later_refuted : forall nb n s y s0 code version, n <> [] -> n <> T "species_0" -> registered y (T "species_0") s0 ->
  write nb ((n, s) :: y) code None version = write nb [(T "species_0", s0)] code (Some (T "species_0")) version.
Proof.
  intros nb n s y s0 code version N M R. unfold write. change (resolve None) with (T "species_0"). change (resolve (Some (T "species_0"))) with (T "species_0").
  assert (E : species_of ((n, s) :: y) (T "species_0") = Some s0). { unfold registered, species_of, assoc in *. cbn [List.find fst]. rewrite (teqb_neq _ _ M). exact R. }
  rewrite E. reflexivity.
Qed.
Print Assumptions C93_later_refuted.
Example C93_applies : forall nb, exists y, run nb 2 new_yard [Read (disk_with 2) (T "a.h5") (T "opal") (Some (T "b")) None] = Some y /\ write nb y (T "opal") None None = Err KeyError.
Proof.
  intros nb. exists [(T "b", dump_of 2)]. split; [reflexivity|]. apply (C93_missing_refuted nb (T "b") (dump_of 2) [] (T "opal")); [discriminate|reflexivity|reflexivity].
Qed.

(* ------------------------------------------------------------------ *)
(** ** C94 One particle per row of an elegant file.
    Full statement: reading an elegant file with the six columns gives one particle per row, over
    all its pages, with momenta from the angles. It does for one page with several rows and for
    several pages with one row each. *)
Theorem C94_rows_partial : forall nb h ps cs pgs fuel n, header_for h ps cs -> binary_header h -> Forall (sound 100 ps cs) pgs -> (List.length pgs < fuel)%nat -> Forall (same_length n) pgs -> (0 < n)%nat -> elegant_columns cs ->
  charge_readable ps -> pgs <> [] -> (List.length pgs = 1%nat /\ (1 < n)%nat) \/ ((1 < List.length pgs)%nat /\ n = 1%nat) ->
  forall y w file name nm, sdds_files w file = Some (binary_file h ps cs pgs) -> meant name nm -> unregistered y nm ->
    exists y' s, read_into nb fuel y w file (T "elegant") name None = Some (y', Ok tt) /\ registered y' nm s /\ Forall2 (particle_of nb (map fst cs)) (rows_of_pages pgs) (coordinates s).
Proof.
  intros nb h ps cs pgs fuel n HF BH SO FU EQ N EC CR NE H y w file name nm W M U. destruct (elegant_pages nb h ps cs pgs fuel n HF BH SO FU EQ N EC CR NE H) as [s [q [R [F _]]]].
  destruct (elegant_works nb fuel y w file name nm _ s W M U R) as [y' [A B]]. exists y', s. auto.
Qed.
Print Assumptions C94_rows_partial.
(** ... and fails for a single row, and for several pages with several rows each. *)
Theorem C94_one_row_refuted : forall nb h ps cs pg fuel, header_for h ps cs -> binary_header h -> sound 100 ps cs pg -> (1 < fuel)%nat -> List.length (pg_rows pg) = 1%nat -> elegant_columns cs -> charge_readable ps ->
  forall y w file name, sdds_files w file = Some (binary_file h ps cs [pg]) -> read_into nb fuel y w file (T "elegant") name None = Some (y, Err IndexError).
Proof. intros nb h ps cs pg fuel HF BH SO FU N EC CR y w file name W. apply (elegant_fails nb fuel y w file name _ _ W). now apply elegant_single. Qed.
Print Assumptions C94_one_row_refuted.
Theorem C94_pages_refuted : forall nb h ps cs pgs fuel n, header_for h ps cs -> binary_header h -> Forall (sound 100 ps cs) pgs -> (List.length pgs < fuel)%nat -> Forall (same_length n) pgs -> (1 < n)%nat -> (1 < List.length pgs)%nat ->
  elegant_columns cs -> charge_readable ps ->
  forall y w file name, sdds_files w file = Some (binary_file h ps cs pgs) -> read_into nb fuel y w file (T "elegant") name None = Some (y, Err ValueError).
Proof. intros nb h ps cs pgs fuel n HF BH SO FU EQ N M EC CR y w file name W. apply (elegant_fails nb fuel y w file name _ _ W). now apply (elegant_several nb h ps cs pgs fuel n). Qed.
Print Assumptions C94_pages_refuted.
(** A species read from several pages has a charge for each of them, and cannot be written for elegant. *)
Theorem C92_pages_refuted : forall nb h ps cs pgs fuel, header_for h ps cs -> binary_header h -> Forall (sound 100 ps cs) pgs -> (List.length pgs < fuel)%nat -> Forall (same_length 1) pgs -> (1 < List.length pgs)%nat ->
  elegant_columns cs -> In (T "Charge", Double) ps ->
  forall y w file name nm, sdds_files w file = Some (binary_file h ps cs pgs) -> meant name nm -> unregistered y nm ->
    exists y' s bs, read_into nb fuel y w file (T "elegant") name None = Some (y', Ok tt) /\ registered y' nm s /\ Forall2 (page_charge ps) pgs bs /\ total_charge s = Charges (map (num nb) bs) /\ write nb y' (T "elegant") name None = Err ValueError.
Proof.
  intros nb h ps cs pgs fuel HF BH SO FU EQ M EC IN y w file name nm W MN U. assert (NE : pgs <> []) by (destruct pgs; [cbn in M; lia|discriminate]).
  destruct (elegant_pages nb h ps cs pgs fuel 1 HF BH SO FU EQ ltac:(lia) EC (fun _ => IN) NE (or_intror (conj M eq_refl))) as [s [q [R [F [Q E]]]]].
  destruct (elegant_works nb fuel y w file name nm _ s W MN U R) as [y' [A B]].
  destruct HF as [_ [_ [_ [N1 [N2 [N3 N4]]]]]]. destruct (charge_given nb ps cs pgs SO N1 N4 IN NE) as [bs [G C]]. rewrite C in Q.
  assert (L : List.length bs = List.length pgs) by (clear - G; induction G; cbn; congruence).
  destruct bs as [|b1 [|b2 bs]]; [cbn in L; lia|cbn in L; lia|]. cbn [map] in Q. injection Q as Q.
  exists y', s, (b1 :: b2 :: bs). split; [exact A|]. split; [exact B|]. split; [exact G|]. split; [cbn [map]; congruence|].
  assert (WE : write_elegant nb s = Err ValueError) by (unfold write_elegant; rewrite E, <- Q; reflexivity).
  unfold write. change (teqb (T "elegant") (T "genesis")) with false. change (teqb (T "elegant") (T "elegant")) with true. cbv iota.
  rewrite (found y' name nm s MN B). exact WE.
Qed.
Print Assumptions C92_pages_refuted.
Definition beam_disk (pgs : list page) : world := {| sdds_files := fun _ => Some (binary_file (beam_header false) (beam_params false) beam_columns pgs); h5_files := fun _ => None |}.
Lemma beam_pages_sound : Forall (sound 100 (beam_params false) beam_columns) [beam_page false [1; 0]; beam_page false [2; -3]].
Proof. repeat (constructor; [apply beam_sound; [cbn; lia|repeat constructor]|]). constructor. Qed.
Lemma beam_charge : charge_readable (beam_params false).
Proof. intros _. now left. Qed.
Example C92_pages_applies : exists y s, read_into whole 3 [] (beam_disk [beam_page false [1]; beam_page false [-3]]) [] (T "elegant") None None = Some (y, Ok tt) /\ registered y (T "species_0") s /\
  (exists bs, total_charge s = Charges (map (num whole) bs) /\ List.length bs = 2%nat) /\ write whole y (T "elegant") None None = Err ValueError.
Proof.
  destruct (C92_pages_refuted whole (beam_header false) (beam_params false) beam_columns [beam_page false [1]; beam_page false [-3]] 3) with (y := @nil (text * species)) (w := beam_disk [beam_page false [1]; beam_page false [-3]]) (file := @nil ascii) (name := @None text) (nm := T "species_0") as [y [s [bs [A [B [G [C D]]]]]]].
  - apply beam_header_for.
  - apply beam_header_binary.
  - repeat (constructor; [apply beam_sound; [cbn; lia|repeat constructor]|]). constructor.
  - cbn; lia.
  - repeat constructor.
  - cbn; lia.
  - apply beam_elegant.
  - now left.
  - reflexivity.
  - left. split; [now left|reflexivity].
  - reflexivity.
  - exists y, s. split; [exact A|]. split; [exact B|]. split; [|exact D]. exists bs. split; [exact C|].
    inversion G as [|? ? ? ? ? G1]; subst. inversion G1 as [|? ? ? ? ? G2]; subst. inversion G2; subst. reflexivity.
Qed.
Example C94_applies :
  (exists y s, read_into whole 3 [] (beam_disk [beam_page false [1]; beam_page false [-3]]) [] (T "elegant") None None = Some (y, Ok tt) /\ registered y (T "species_0") s /\
     Forall2 (fun z p => px p = Some (IZR z) /\ pux p = Some (IZR z * IZR z)%R /\ pct p = Some (IZR z * 299792458)%R) [1; -3] (coordinates s)) /\
  read_into whole 3 [] (beam_disk [beam_page false [1]]) [] (T "elegant") None None = Some ([], Err IndexError) /\
  read_into whole 3 [] (beam_disk [beam_page false [1; 0]; beam_page false [2; -3]]) [] (T "elegant") None None = Some ([], Err ValueError).
Proof.
  split; [|split].
  - destruct (C94_rows_partial whole (beam_header false) (beam_params false) beam_columns [beam_page false [1]; beam_page false [-3]] 3 1) with (y := @nil (text * species)) (w := beam_disk [beam_page false [1]; beam_page false [-3]]) (file := @nil ascii) (name := @None text) (nm := T "species_0") as [y [s [A [B F]]]].
    + apply beam_header_for.
    + apply beam_header_binary.
    + repeat (constructor; [apply beam_sound; [cbn; lia|repeat constructor]|]). constructor.
    + cbn; lia.
    + repeat constructor.
    + lia.
    + apply beam_elegant.
    + apply beam_charge.
    + discriminate.
    + right. split; [cbn; lia|reflexivity].
    + reflexivity.
    + left. auto.
    + reflexivity.
    + exists y, s. split; [exact A|]. split; [exact B|].
      assert (X : forall z p, num whole (double_bits z) = Some (IZR z) -> particle_of whole (map fst beam_columns) (beam_row z) p -> px p = Some (IZR z) /\ pux p = Some (IZR z * IZR z)%R /\ pct p = Some (IZR z * 299792458)%R).
      { intros z p E P. destruct (P (double_bits z) (double_bits z) (double_bits z) (double_bits z) (double_bits z) (double_bits z)) as [P1 [P2 [_ [_ [P5 _]]]]]; try (cbn; tauto). rewrite E in P1, P2, P5. split; [exact P1|]. split; [exact P2|exact P5]. }
      destruct (whole_exact 1) as [_ E1]; [cbn; tauto|]. destruct (whole_exact (-3)) as [_ E3]; [cbn; tauto|]. cbn [whole bits] in E1, E3. rewrite int_part in E1, E3.
      change (rows_of_pages [beam_page false [1]; beam_page false [-3]]) with [beam_row 1; beam_row (-3)] in F.
      inversion F as [|? p ? l P1 F1]; subst. inversion F1 as [|? p' ? l' P2 F2]; subst. inversion F2; subst. constructor; [now apply X|]. constructor; [now apply X|constructor].
  - apply (C94_one_row_refuted whole (beam_header false) (beam_params false) beam_columns (beam_page false [1]) 3); try reflexivity; try lia.
    + apply beam_header_for.
    + apply beam_header_binary.
    + apply beam_sound; [cbn; lia|repeat constructor].
    + apply beam_elegant.
    + apply beam_charge.
  - apply (C94_pages_refuted whole (beam_header false) (beam_params false) beam_columns [beam_page false [1; 0]; beam_page false [2; -3]] 3 2); try reflexivity; try (cbn; lia).
    + apply beam_header_for.
    + apply beam_header_binary.
    + apply beam_pages_sound.
    + repeat constructor.
    + apply beam_elegant.
    + apply beam_charge.
Qed.

(* ------------------------------------------------------------------ *)
(** ** C95 OPAL output.
    The file has the number of particles on the first line and then one line per particle, in
    order, with its six coordinates. *)
Theorem C95_opal : forall nb y name n s, meant name n -> registered y n s ->
  write nb y (T "opal") name None = Ok (lines (dec (Z.of_nat (List.length (coordinates s))) ::
    map (fun p => shown_row (sci nb) [px p; pux p; py p; puy p; pct p; ppt p]) (coordinates s))).
Proof.
  intros nb y name n s M R. unfold write. rewrite (found y name n s M R). change (teqb (T "opal") (T "genesis")) with false. change (teqb (T "opal") (T "elegant")) with false. change (teqb (T "opal") (T "opal")) with true. cbn [rbind].
  unfold write_opal. unfold lines. cbn [map List.concat]. rewrite <- app_assoc. do 3 f_equal. rewrite !map_map. reflexivity.
Qed.
Print Assumptions C95_opal.
(** A file written from an OPAL step has its particles: writing changes nothing. *)
Theorem C95_from_opal : forall nb f k g ps q, NoDup (map fst f) -> k <> 0 -> has_step f k g -> holds g ps -> charged g q ->
  exists s, read_opal f (Some k) = Ok s /\ write nb [(T "species_0", s)] (T "opal") None None =
    Ok (lines (dec (Z.of_nat (List.length ps)) :: map (fun o => shown_row (sci nb) [ox o; opx o; oy o; opy o; oz o; opz o]) ps)).
Proof.
  intros nb f k g ps q ND K H HO C. destruct (opal_step f k g ps q ND K H HO C) as [s [R [F _]]]. exists s. split; [exact R|].
  rewrite (C95_opal nb [(T "species_0", s)] None (T "species_0") s); [|left; auto|reflexivity]. do 2 f_equal.
  f_equal; [now rewrite (Forall2_same _ _ _ _ _ F)|]. clear - F. induction F as [|o p ps' l [S1 [S2 [S3 [S4 [S5 S6]]]]] F IH]; [reflexivity|]. cbn [map]. rewrite S1, S2, S3, S4, S5, S6. f_equal. exact IH.
Qed.
Print Assumptions C95_from_opal.
Example C95_applies : forall nb, write nb [(T "beam", bunch)] (T "opal") (Some (T "beam")) None = Ok (lines (T "3" :: map (fun p => shown_row (sci nb) [px p; pux p; py p; puy p; pct p; ppt p]) (coordinates bunch))).
Proof. intros nb. apply (C95_opal nb [(T "beam", bunch)] (Some (T "beam")) (T "beam") bunch); [right; split; [reflexivity|discriminate]|reflexivity]. Qed.

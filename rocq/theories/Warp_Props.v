(** C46, C47, C84, C85: the text written for Warp and the strengths in it. *)
From Coq Require Import List Reals Bool Arith String Ascii ZArith Lia Lra.
From Verif Require Import PyBase PyDict PyText Line_Model Line_Spec Line_Proofs Json_Model Json_Spec Json_Props Warp_Model Warp_Spec Warp_Proofs.
Import ListNotations.
Open Scope R_scope.

(* ====================== C46 ====================== *)
(** Every write, whatever the writer has written before ([before]): the definitions are those of
    the names not written before, each once, each from the first element of its name, all ahead
    of the sum, and the sum lists all elements in order.  For a new writer every name of the line
    is defined. *)
Theorem C46_program_partial : forall m show before line_name els,
  NoDup (map fst m) -> els <> [] -> (forall e, In e els -> complete m e) ->
  exists ds ts, write_file m show before line_name els = (before ++ map uname ds, Ok (program ts line_name (map uname els))) /\
    Forall2 (defines m show) ds ts /\ NoDup (map uname ds) /\
    (forall d, In d ds -> first_of_name els d /\ ~ In (uname d) before) /\
    (forall e, In e els -> In (uname e) before \/ exists d, In d ds /\ uname d = uname e).
Proof.
  intros m show before line_name els N Ne C.
  destruct (write_ok m show els before N) as (ds & ts & E & F & Nd & A & B).
  { intros e (p & q & -> & _) _. apply C. apply in_app_iff. right. left. reflexivity. }
  exists ds, ts. unfold write_file. rewrite E. split; [|auto]. f_equal. f_equal. unfold program. do 3 f_equal.
  rewrite <- (map_map uname (fun n : text => n ++ T " + ")). rewrite cut_app, cut_app.
  - rewrite cut_plus; [reflexivity|]. destruct els; [contradiction|discriminate].
  - destruct els as [|e els]; [contradiction|]. cbn [map List.concat]. rewrite !app_length. cbn. lia.
  - rewrite app_length. cbn. lia.
Qed.
Print Assumptions C46_program_partial.

(** A parameter that is to be written is missing: the write fails. *)
Theorem C46_missing_parameter : forall m show before line_name els e ty ps p, NoDup (map fst m) ->
  first_of_name els e -> ~ In (uname e) before -> In (in_capitals (e_type e), (ty, ps)) m -> In p ps -> agn_get (e_params e) p = None ->
  snd (write_file m show before line_name els) = Err KeyError.
Proof.
  intros m show before line_name els e ty ps p N F Ne I Ip G. pose proof (write_missing m show els before e ty ps p N F Ne I Ip G) as E.
  unfold write_file. destruct (write_elements m show before els) as [ns [[c l]|x|]]; cbn in *; try discriminate. congruence.
Qed.
Print Assumptions C46_missing_parameter.

(** The same writer writing again defines nothing. *)
Theorem C46_second_write_refuted : forall m show line_name els,
  NoDup (map fst m) -> els <> [] -> (forall e, In e els -> complete m e) ->
  let '(written, first) := write_file m show [] line_name els in
  (exists ts, ts <> [] /\ first = Ok (program ts line_name (map uname els))) /\
  write_file m show written line_name els = (written, Ok (program [] line_name (map uname els))).
Proof.
  intros m show line_name els N Ne C.
  destruct (C46_program_partial m show [] line_name els N Ne C) as (ds & ts & E & F & _ & _ & B). rewrite E. cbn [app].
  assert (Nt : ts <> []).
  { destruct els as [|e els]; [contradiction|]. destruct (B e (or_introl eq_refl)) as [[]|(d & I & _)]. destruct F; [destruct I|discriminate]. }
  split; [exists ts; auto|].
  destruct (C46_program_partial m show (map uname ds) line_name els N Ne C) as (ds2 & ts2 & E2 & F2 & _ & A2 & _).
  assert (D2 : ds2 = []).
  { destruct ds2 as [|d ds2]; [reflexivity|]. destruct (A2 d (or_introl eq_refl)) as [(p & q & -> & _) Nd]. exfalso.
    destruct (B d) as [[]|(x & I & Q)]; [apply in_app_iff; right; left; reflexivity|]. apply Nd. rewrite <- Q. apply in_map. exact I. }
  subst ds2. inversion F2; subst. rewrite E2. cbn [map]. rewrite app_nil_r. reflexivity.
Qed.
Print Assumptions C46_second_write_refuted.

(** An empty beamline gives a name alone, which is no definition of a line. *)
Theorem C46_empty_refuted : forall m show before line_name,
  write_file m show before line_name [] = (before, Ok (T "import warp as wp" ++ [newline] ++ line_name ++ T " ")).
Proof.
  intros. unfold write_file. cbn [write_elements]. rewrite cut_app by (cbn; lia). reflexivity.
Qed.
Print Assumptions C46_empty_refuted.

Lemma field_map_nodup : NoDup (map fst field_map).
Proof. repeat (constructor; [intros H; repeat (destruct H as [H|H]; [discriminate|]); destruct H|]). constructor. Qed.

Definition quad (n : string) (db : R) : element := {| e_name := n; e_type := "quad"; e_params := [("l"%string, VNum 1); ("db"%string, VNum db)]; e_line := None |}.
Definition drift (n : string) : element := {| e_name := n; e_type := "drif"; e_params := [("l"%string, VNum 2)]; e_line := None |}.
Definition mark (n : string) : element := {| e_name := n; e_type := "mark"; e_params := []; e_line := None |}.
(** What is written for numbers does not matter here. *)
Definition mute (_ : value) : text := T "#".

(** The beamline q1 d1 q1 m, then q1 d2 d1, with one writer. *)
Example C46_applies :
  (forall e, In e [quad "q1" 5; drift "d1"; quad "q1" 5; mark "m"] -> complete field_map e) /\
  write_file field_map mute [] (T "ring") [quad "q1" 5; drift "d1"; quad "q1" 5; mark "m"] =
    ([T "Q1"; T "D1"; T "M"],
     Ok (T "import warp as wp" ++ [newline] ++ T "Q1 = wp.Quad( l=#, db=#,)" ++ [newline] ++ T "D1 = wp.Drft( l=#,)" ++ [newline] ++
         T "M = wp.Drft( l=#,)" ++ [newline] ++ T "ring = Q1 + D1 + Q1 + M ")).
Proof.
  split.
  - intros e I. cbn in I. intros ty ps p Im Ip. vm_compute in Im.
    repeat (destruct I as [<-|I]; [repeat (destruct Im as [Im|Im]; [try discriminate; injection Im; intros; subst; cbn in Ip; repeat (destruct Ip as [<-|Ip]; [eexists; reflexivity|]); destruct Ip|]); destruct Im|]). destruct I.
  - vm_compute. reflexivity.
Qed.

(** Names that differ in capitalisation only: two elements, one definition. *)
Theorem C46_capitals_refuted : exists x y, e_name x <> e_name y /\ e_params x <> e_params y /\
  (forall e, In e [x; y] -> complete field_map e) /\
  write_file field_map mute [] (T "ring") [x; y] =
    ([T "Q1"], Ok (T "import warp as wp" ++ [newline] ++ T "Q1 = wp.Quad( l=#, db=#,)" ++ [newline] ++ T "ring = Q1 + Q1 ")).
Proof.
  exists (quad "q1" 5), (quad "Q1" 7). split; [discriminate|]. split; [intros H; injection H as H; lra|]. split.
  - intros e I. cbn in I. intros ty ps p Im Ip. vm_compute in Im.
    repeat (destruct I as [<-|I]; [repeat (destruct Im as [Im|Im]; [try discriminate; injection Im; intros; subst; cbn in Ip; repeat (destruct Ip as [<-|Ip]; [eexists; reflexivity|]); destruct Ip|]); destruct Im|]). destruct I.
  - vm_compute. reflexivity.
Qed.
Print Assumptions C46_capitals_refuted.

(** A write that fails, the missing parameter then given: the write that follows does not define d1. *)
Theorem C46_after_failure_refuted : exists written,
  write_file field_map mute [] (T "ring") [drift "d1"; {| e_name := "q1"; e_type := "quad"; e_params := [("l"%string, VNum 1)]; e_line := None |}] = (written, Err KeyError) /\
  snd (write_file field_map mute written (T "ring") [drift "d1"; quad "q1" 5]) =
    Ok (T "import warp as wp" ++ [newline] ++ T "Q1 = wp.Quad( l=#, db=#,)" ++ [newline] ++ T "ring = D1 + Q1 ").
Proof. exists [T "D1"]. split; vm_compute; reflexivity. Qed.
Print Assumptions C46_after_failure_refuted.

(* ====================== C47 ====================== *)
(** The strength of a multipole times a power of the rigidity, at a total energy at least the mass. *)
Theorem C47_gradient : forall k energy mass n, 0 < mass -> mass <= energy ->
  get_gradient k energy mass n = Ok (Some (k * rigidity (momentum_at energy mass) ^ n)).
Proof. exact gradient_value. Qed.
Print Assumptions C47_gradient.

(** Full statement: elegant_to_warp with p_central_mev = p writes -k1 times the rigidity of p.
    Missing: the energy handed to the conversion is the momentum (refuted below).  Proved: given the
    energy, the conversion is right for each quadrupole and bend of a beamline, with its sign, and
    changes nothing else. *)
Theorem C47_conversion_partial : forall energy mass flip h a l h', 0 < mass -> mass <= energy ->
  get_beamline_elements h a = Ok l -> parameter_conversions energy mass flip h a = (h', Ok tt) ->
  lines h' = lines h /\ List.length (elems h') = List.length (elems h) /\
  forall e el, element_at h e = Some el -> exists el', element_at h' e = Some el' /\
    e_name el' = e_name el /\ e_type el' = e_type el /\ e_line el' = e_line el /\ (~ In e l -> el' = el) /\
    (forall k, ~ same_name k "db" -> ~ same_name k "rc" -> agn_get (e_params el') k = agn_get (e_params el) k) /\
    (In e l -> e_type el = "quad"%string \/ e_type el = "kquad"%string -> forall k1, holds (e_params el) "k1" k1 ->
       agn_get (e_params el') "db" = Some (VNum ((if flip then -1 else 1) * (k1 * rigidity (momentum_at energy mass))))) /\
    (In e l -> e_type el = "csbend"%string \/ e_type el = "rben"%string -> forall len angle, holds (e_params el) "l" len -> holds (e_params el) "angle" angle ->
       angle <> 0 /\ agn_get (e_params el') "rc" = Some (VNum (len / angle))).
Proof.
  intros E m f h a l h' Hm HE G H. unfold parameter_conversions in H. rewrite G in H.
  destruct (convert_all_ok E m f l h h' H) as (L & Ln & F). split; [exact L|]. split; [exact Ln|].
  intros e el He. destruct (F e el He) as (el' & He' & N & Ty & Li & O1 & O2). exists el'.
  split; [exact He'|]. split; [exact N|]. split; [exact Ty|]. split; [exact Li|]. split; [exact O1|]. split; [|split].
  - intros k N1 N2. destruct (in_dec Nat.eq_dec e l) as [I|I]; [|rewrite (O1 I); reflexivity].
    destruct (O2 I) as (ps & C & A). rewrite A. apply (convert_other E m f el ps k C N1 N2).
  - intros I T1 k Hk. destruct (O2 I) as (ps & C & A). rewrite A. unfold convert in C.
    replace (String.eqb (e_type el) "kquad" || String.eqb (e_type el) "quad")%bool with true in C by (destruct T1 as [->| ->]; reflexivity).
    rewrite (holds_float _ _ _ Hk) in C. cbn [rbind] in C. rewrite (gradient_value k E m 1 Hm HE) in C. cbn [rbind fmap1 value_of] in C.
    injection C as <-. rewrite agn_same. do 2 f_equal. destruct f; ring.
  - intros I T1 len ang Hl Ha. destruct (O2 I) as (ps & C & A). unfold convert in C.
    replace (String.eqb (e_type el) "kquad" || String.eqb (e_type el) "quad")%bool with false in C by (destruct T1 as [->| ->]; reflexivity).
    replace (String.eqb (e_type el) "csbend" || String.eqb (e_type el) "rben")%bool with true in C by (destruct T1 as [->| ->]; reflexivity).
    rewrite (holds_float _ _ _ Hl), (holds_float _ _ _ Ha) in C. cbn [rbind] in C. unfold pdiv in C.
    destruct (Req_EM_T ang 0) as [Z|Z]; cbn [rbind] in C; [discriminate|]. split; [exact Z|]. injection C as <-. rewrite A. apply agn_same.
Qed.
Print Assumptions C47_conversion_partial.

(** A lattice of one element. *)
Definition single (ty : string) (fields : params) : models :=
  {| m_lines := [ln 1 "MAIN" [2%Z]]; m_elems := [{| je_id := 2; je_name := "E"; je_type := ty; je_fields := fields |}]; m_rpn := [] |}.
Definition quad_lattice (k1 : R) : models := single "QUAD" [("l"%string, VNum 1); ("k1"%string, VNum k1)].

Example C47_applies : forall k1 E mass, 0 < mass -> mass <= E -> exists h a l h' e el,
  parse_json 5 (quad_lattice k1) "MAIN" = Ok (h, a) /\ get_beamline_elements h a = Ok l /\
  parameter_conversions E mass true h a = (h', Ok tt) /\ In e l /\ element_at h e = Some el /\ e_type el = "quad"%string /\ holds (e_params el) "k1" k1.
Proof.
  intros k1 E mass Hm HE. do 6 eexists. split; [vm_compute; reflexivity|]. split; [vm_compute; reflexivity|]. split.
  { unfold parameter_conversions. change (get_beamline_elements _ _) with (@Ok (list nat) [0%nat]). cbn [convert_all nth_error elems].
    rewrite (convert_quad E mass true _ k1 Hm HE) by reflexivity. reflexivity. }
  split; [left; reflexivity|]. split; [reflexivity|]. split; [reflexivity|]. left. reflexivity.
Qed.

(** What is written for a quadrupole: the rigidity of the momentum that a particle of that total
    energy has, which is not the rigidity of the reference momentum. *)
Theorem C47_reference_momentum_refuted : forall show mass p k1, 0 < mass -> mass <= p * 10 ^ 6 -> k1 <> 0 ->
  exists db, elegant_to_warp show 5 mass (quad_lattice k1) [p] "MAIN" =
    Ok (program [T "E = wp.Quad( l=" ++ show (VNum 1) ++ T ", db=" ++ show (VNum db) ++ T ",)" ++ [newline]] (T "MAIN") [T "E"]) /\
  Rabs db < Rabs (k1 * rigidity (p * 10 ^ 6)).
Proof.
  intros show mass p k1 Hm HE Hk. exists (- (k1 * rigidity (momentum_at (p * 10 ^ 6) mass))). split.
  - unfold elegant_to_warp. generalize dependent (p * 10 ^ 6). intros E HE.
    match goal with |- context [parse_json 5 ?M ?n] => let r := eval vm_compute in (parse_json 5 M n) in change (parse_json 5 M n) with r end.
    cbn [rbind]. cbv beta iota zeta. unfold parameter_conversions at 1.
    match goal with |- context [get_beamline_elements (Build_heap ?x ?y) ?z] => change (get_beamline_elements (Build_heap x y) z) with (@Ok (list nat) [0%nat]) end. cbn [convert_all nth_error elems].
    rewrite (convert_quad E mass true _ k1 Hm HE) by reflexivity.
    rewrite pow_1. replace ((1 - 2 * 1) * (k1 * rigidity (momentum_at E mass))) with (- (k1 * rigidity (momentum_at E mass))) by ring.
    generalize (- (k1 * rigidity (momentum_at E mass))). intros db.
    match goal with |- context [get_beamline_elements (upd_elem ?x ?y ?z) ?w] => change (get_beamline_elements (upd_elem x y z) w) with (@Ok (list nat) [0%nat]) end.
    cbn [rbind upd_elem upd elems lines nth_error l_name flat_map app with_params e_name e_type e_params e_line].
    apply (write_single field_map show (T "MAIN")). unfold define.
    match goal with |- context [dget text_dec field_map ?u] => let r := eval vm_compute in (dget text_dec field_map u) in change (dget text_dec field_map u) with r end.
    cbn [params_text]. 
    match goal with |- context [agn_get ?d "l"] => change (agn_get d "l") with (Some (VNum 1)) end.
    match goal with |- context [agn_get ?d "db"] => change (agn_get d "db") with (Some (VNum db)) end.
    cbn [rbind]. f_equal. unfold head, param_text. rewrite <- !app_assoc. reflexivity.
  - rewrite Rabs_Ropp, !Rabs_mult. apply Rmult_lt_compat_l; [apply Rabs_pos_lt; exact Hk|].
    set (E := p * 10 ^ 6) in *. assert (Lp : 0 < light) by (unfold light; lra).
    assert (S0 : 0 <= momentum_at E mass) by apply sqrt_pos.
    assert (S1 : momentum_at E mass < E). { unfold momentum_at. rewrite <- (sqrt_pow2 E) at 2 by lra. apply sqrt_lt_1; nra. }
    unfold rigidity. rewrite !Rabs_pos_eq.
    + unfold Rdiv. apply Rmult_lt_compat_r; [apply Rinv_0_lt_compat; exact Lp|exact S1].
    + apply Rmult_le_pos; [lra|left; apply Rinv_0_lt_compat; exact Lp].
    + apply Rmult_le_pos; [lra|left; apply Rinv_0_lt_compat; exact Lp].
Qed.
Print Assumptions C47_reference_momentum_refuted.

(** A momentum below the mass, and momentum zero, which elegant files that give p_central instead have. *)
Theorem C47_slow_beam_refuted : forall k mass energy n, 0 < mass ->
  (0 < energy < mass -> get_gradient k energy mass n = Ok None) /\ get_gradient k 0 mass n = Err ZeroDivisionError.
Proof. intros k mass energy n H. split; [apply gradient_nan; exact H|apply gradient_zero; lra]. Qed.
Print Assumptions C47_slow_beam_refuted.

(** No run_setup, no conversion. *)
Theorem C47_no_setup : forall show limit mass M name, elegant_to_warp show limit mass M [] name = Err ValueError.
Proof. reflexivity. Qed.
Print Assumptions C47_no_setup.

(* ====================== C84 ====================== *)
(** The strength written for a sextupole has the square of the rigidity where the field of a
    sextupole of strength k2 is k2 times the rigidity. *)
Definition sext_lattice (k2 : R) : models := single "SEXT" [("l"%string, VNum 1); ("k2"%string, VNum k2)].
Theorem C84_sextupole_refuted : forall show mass p k2, 0 < mass -> mass <= p * 10 ^ 6 -> k2 <> 0 ->
  let brho := rigidity (momentum_at (p * 10 ^ 6) mass) in
  exists db, elegant_to_warp show 5 mass (sext_lattice k2) [p] "MAIN" =
    Ok (program [T "E = wp.Sext( l=" ++ show (VNum 1) ++ T ", db=" ++ show (VNum db) ++ T ",)" ++ [newline]] (T "MAIN") [T "E"]) /\
  db = - (k2 * brho ^ 2) /\ (brho <> 0 -> brho <> 1 -> Rabs db <> Rabs (k2 * brho)).
Proof.
  intros show mass p k2 Hm HE Hk brho. exists (- (k2 * brho ^ 2)). split; [|split; [reflexivity|]].
  - unfold elegant_to_warp, brho. clear brho. generalize dependent (p * 10 ^ 6). intros E HE.
    match goal with |- context [parse_json 5 ?M ?n] => let r := eval vm_compute in (parse_json 5 M n) in change (parse_json 5 M n) with r end.
    cbn [rbind]. cbv beta iota zeta. unfold parameter_conversions at 1.
    match goal with |- context [get_beamline_elements (Build_heap ?x ?y) ?z] => change (get_beamline_elements (Build_heap x y) z) with (@Ok (list nat) [0%nat]) end.
    cbn [convert_all nth_error elems].
    rewrite (convert_sext E mass true _ k2 Hm HE) by reflexivity.
    replace ((1 - 2 * 1) * (k2 * rigidity (momentum_at E mass) ^ 2)) with (- (k2 * rigidity (momentum_at E mass) ^ 2)) by ring.
    generalize (- (k2 * rigidity (momentum_at E mass) ^ 2)). intros db.
    match goal with |- context [get_beamline_elements (upd_elem ?x ?y ?z) ?w] => change (get_beamline_elements (upd_elem x y z) w) with (@Ok (list nat) [0%nat]) end.
    cbn [rbind upd_elem upd elems lines nth_error l_name flat_map app with_params e_name e_type e_params e_line].
    apply (write_single field_map show (T "MAIN")). unfold define.
    match goal with |- context [dget text_dec field_map ?u] => let r := eval vm_compute in (dget text_dec field_map u) in change (dget text_dec field_map u) with r end.
    cbn [params_text]. 
    match goal with |- context [agn_get ?d "l"] => change (agn_get d "l") with (Some (VNum 1)) end.
    match goal with |- context [agn_get ?d "db"] => change (agn_get d "db") with (Some (VNum db)) end.
    cbn [rbind]. f_equal. unfold head, param_text. rewrite <- !app_assoc. reflexivity.
  - intros N0 N1 Q. rewrite Rabs_Ropp, !Rabs_mult in Q. apply Rmult_eq_reg_l in Q; [|apply Rabs_no_R0; exact Hk].
    assert (P : 0 <= brho). { unfold brho, rigidity. apply Rmult_le_pos; [apply sqrt_pos|left; apply Rinv_0_lt_compat; unfold light; lra]. }
    rewrite !Rabs_pos_eq in Q by (try apply pow_le; exact P). apply N1. apply (Rmult_eq_reg_l brho); [lra|exact N0].
Qed.
Print Assumptions C84_sextupole_refuted.
Example C84_applies : exists mass p k2, 0 < mass /\ mass <= p * 10 ^ 6 /\ k2 <> 0.
Proof. exists 511000, 100, 3. repeat split; lra. Qed.

(* ====================== C85 ====================== *)
(** Types in the table of the writer whose strengths are not converted: such a lattice cannot be
    converted, whatever its numbers. *)
Definition unconverted : list string := ["SBEN"; "CSRCSBEND"; "KSBEND"; "NIBEND"; "TUBEND"; "KSEXT"]%string.
Theorem C85_unconverted_refuted : forall show mass p ty len angle k2, In ty unconverted ->
  (exists w ps, In (T ty, (w, ps)) field_map) /\
  elegant_to_warp show 5 mass (single ty [("l", VNum len); ("angle", VNum angle); ("k2", VNum k2)]%string) [p] "MAIN" = Err KeyError.
Proof.
  intros show mass p ty len angle k2 I. cbn in I.
  repeat (destruct I as [<-|I]; [split; [eexists; eexists; vm_compute; tauto|unfold elegant_to_warp; generalize (p * 10 ^ 6); intros E; vm_compute; reflexivity]|]).
  destruct I.
Qed.
Print Assumptions C85_unconverted_refuted.
Example C85_applies : exists ty, In ty unconverted.
Proof. exists "SBEN"%string. left. reflexivity. Qed.

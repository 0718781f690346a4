(** * Claim C138: the Warp program that elegant_to_warp writes for a whole lattice. *)
From Coq Require Import List Reals Bool Arith String Ascii ZArith Lia Lra.
From Verif Require Import PyBase PyDict PyText Line_Model Line_Spec Line_Proofs Json_Model Json_Spec Json_Proofs Json_Props Jsonlen_Props Warp_Model Warp_Spec Warp_Proofs Warp_Props.
Import ListNotations.
Open Scope R_scope.

(* ------------------------------------------------------------------ *)
(** ** Specification *)
(** The type of a recorded element, in small letters, and its name in capitals *)
Definition kind (e : jelem) : string := strip (lower (je_type e)).
Definition cname (e : jelem) : text := in_capitals (je_name e).
(** What was recorded last under a name, variables replaced *)
Definition recorded (M : models) (e : jelem) (k : string) (w : value) : Prop := exists v, last_value k (je_fields e) (Some v) /\ meaning M v w.
Definition unrecorded (e : jelem) (k : string) : Prop := last_value k (je_fields e) None.
Definition recorded_number (M : models) (e : jelem) (k : string) (x : R) : Prop :=
  recorded M e k (VNum x) \/ exists s, recorded M e k (VStr s) /\ py_float (T s) = Some x.
Definition drifts : list string := ["drif"; "csrdrift"; "edrift"; "lscdrift"]%string.
Definition quadrupoles : list string := ["quad"; "kquad"]%string.
Definition bends : list string := ["csbend"; "rben"]%string.
(** Types without a counterpart *)
Definition unknown (e : jelem) : Prop := forall t, In t ["DRIF"; "CSRDRIFT"; "EDRIFT"; "LSCDRIFT"; "CSBEND"; "SBEN"; "CSRCSBEND"; "KSBEND"; "NIBEND"; "RBEN"; "TUBEND"; "QUAD"; "KQUAD"; "SEXT"; "KSEXT"]%string -> in_capitals (kind e) <> T t.
(** The definition in the Warp program of a recorded element, for a total energy and a mass: a
    drift of the same length; a quadrupole of the same length with the gradient; a bend of the
    same length with the radius; a sextupole of the same length with the strength times the square
    of the rigidity (which C84 finds wrong); anything else is a drift of its length, or of none. *)
Inductive written (M : models) (show : value -> text) (energy mass : R) (e : jelem) : text -> Prop :=
| written_drift : forall v, In (kind e) drifts -> recorded M e "l" v ->
    written M show energy mass e (cname e ++ T " = wp.Drft( l=" ++ show v ++ T ",)" ++ [newline])
| written_quad : forall v k1, In (kind e) quadrupoles -> recorded M e "l" v -> recorded_number M e "k1" k1 ->
    written M show energy mass e (cname e ++ T " = wp.Quad( l=" ++ show v ++ T ", db=" ++ show (VNum (- (k1 * rigidity (momentum_at energy mass)))) ++ T ",)" ++ [newline])
| written_bend : forall v len angle, In (kind e) bends -> recorded M e "l" v -> recorded_number M e "l" len -> recorded_number M e "angle" angle -> angle <> 0 ->
    written M show energy mass e (cname e ++ T " = wp.Bend( l=" ++ show v ++ T ", rc=" ++ show (VNum (len / angle)) ++ T ",)" ++ [newline])
| written_sext : forall v k2, kind e = "sext"%string -> recorded M e "l" v -> recorded_number M e "k2" k2 ->
    written M show energy mass e (cname e ++ T " = wp.Sext( l=" ++ show v ++ T ", db=" ++ show (VNum (- (k2 * rigidity (momentum_at energy mass) ^ 2))) ++ T ",)" ++ [newline])
| written_other : forall v, unknown e -> recorded M e "l" v -> v <> VNum 0 -> v <> VStr "" ->
    written M show energy mass e (cname e ++ T " = wp.Drft( l=" ++ show v ++ T ",)" ++ [newline])
| written_none : unknown e -> unrecorded e "l" \/ recorded M e "l" (VNum 0) \/ recorded M e "l" (VStr "") ->
    written M show energy mass e (cname e ++ T " = wp.Drft( l=" ++ show (VNum 0) ++ T ",)" ++ [newline]).

(* ------------------------------------------------------------------ *)
(** ** Proofs: what lies under a name after the import *)
Definition fields_of (M : models) (e : jelem) (ps : params) : Prop :=
  forall k, In k ["l"; "k1"; "angle"; "k2"]%string -> (forall w, recorded M e k w -> agn_get ps k = Some w) /\ (unrecorded e k -> agn_get ps k = None).
Lemma imported_fields : forall M h a e, one_meaning M -> imported M h a e ->
  exists x, nth_error (elems h) a = Some x /\ e_name x = je_name e /\ e_type x = kind e /\ fields_of M e (e_params x).
Proof.
  intros M h a e O (x & Ex & N & Ty & K). exists x. split; [exact Ex|]. split; [exact N|]. split; [exact Ty|]. intros k I.
  assert (Nid : ~ same_name k "_id") by (intros Q; apply same_name_lower in Q; cbn in I; repeat (destruct I as [<-|I]; [vm_compute in Q; discriminate|]); destruct I).
  destruct (K k) as [X|[(v & w & L & Mw & G)|(L & G)]]; [now destruct Nid| |].
  - split.
    + intros w' (v' & L' & Mw'). injection (recorded_fun _ _ _ _ L L') as <-. now rewrite <- (meaning_fun M v w w' O Mw Mw').
    + intros L'. discriminate (recorded_fun _ _ _ _ L L').
  - split; [|intros _; exact G]. intros w (v' & L' & _). discriminate (recorded_fun _ _ _ _ L L').
Qed.
Lemma number_holds : forall M e ps k x, In k ["l"; "k1"; "angle"; "k2"]%string -> fields_of M e ps -> recorded_number M e k x -> holds ps k x.
Proof. intros M e ps k x I F [H|(s & H & P)]; [left; now apply (F k I)|right; exists s; split; [now apply (F k I)|exact P]]. Qed.
(** the mapping *)
Lemma mapped_once : forall t a b, In (t, a) field_map -> In (t, b) field_map -> a = b.
Proof.
  pose proof field_map_nodup as N. induction field_map as [|[k x] m IH]; intros t a b I J; [contradiction|]. cbn [map fst] in N. inversion N as [|? ? N1 N2]; subst.
  destruct I as [E|I], J as [E'|J]; [congruence| | |eapply IH; eauto].
  - injection E as -> ->. exfalso. apply N1. now apply (in_map fst) in J.
  - injection E' as -> ->. exfalso. apply N1. now apply (in_map fst) in I.
Qed.
Lemma defines_known : forall show x t ty ps, In (in_capitals (e_type x), (ty, ps)) field_map -> defines field_map show x t ->
  exists vs, Forall2 (fun p v => agn_get (e_params x) p = Some v) ps vs /\ t = uname x ++ T " = wp." ++ ty ++ T "(" ++
      List.concat (map (fun pv => T " " ++ T (fst pv) ++ T "=" ++ show (snd pv) ++ T ",") (combine ps vs)) ++ T ")" ++ [newline].
Proof.
  intros show x t ty ps I H. destruct H as [ty' ps' vs I' F|v N|N].
  - pose proof (mapped_once _ _ _ I I') as E. injection E as <- <-. exists vs. auto.
  - now destruct (N _ I).
  - now destruct (N _ I).
Qed.
Lemma complete_known : forall x ty ps, In (in_capitals (e_type x), (ty, ps)) field_map -> (forall p, In p ps -> exists v, agn_get (e_params x) p = Some v) -> complete field_map x.
Proof. intros x ty ps I H ty' ps' p I' Ip. pose proof (mapped_once _ _ _ I I') as E. injection E as <- <-. auto. Qed.
Lemma field_types : map fst field_map = map T ["DRIF"; "CSRDRIFT"; "EDRIFT"; "LSCDRIFT"; "CSBEND"; "SBEN"; "CSRCSBEND"; "KSBEND"; "NIBEND"; "RBEN"; "TUBEND"; "QUAD"; "KQUAD"; "SEXT"; "KSEXT"]%string.
Proof. reflexivity. Qed.
Lemma unknown_absent : forall e, unknown e -> forall x, ~ In (in_capitals (kind e), x) field_map.
Proof.
  intros e U x I. apply (in_map fst) in I. cbn [fst] in I. rewrite field_types in I. apply in_map_iff in I. destruct I as (t & E & I). apply (U t I). now symmetry.
Qed.
Lemma unknown_kept : forall E m f x e, e_type x = kind e -> unknown e -> convert E m f x = Ok (e_params x).
Proof.
  intros E m f x e Ty U. unfold convert. rewrite Ty. unfold unknown in U. generalize dependent (kind e). intros k _ U.
  assert (A : forall s t, In t ["DRIF"; "CSRDRIFT"; "EDRIFT"; "LSCDRIFT"; "CSBEND"; "SBEN"; "CSRCSBEND"; "KSBEND"; "NIBEND"; "RBEN"; "TUBEND"; "QUAD"; "KQUAD"; "SEXT"; "KSEXT"]%string ->
    in_capitals s = T t -> String.eqb k s = false).
  { intros s t I Q. destruct (String.eqb_spec k s) as [->|_]; [|reflexivity]. now destruct (U t I). }
  rewrite (A "kquad" "KQUAD")%string, (A "quad" "QUAD")%string, (A "csbend" "CSBEND")%string, (A "rben" "RBEN")%string, (A "sext" "SEXT")%string by (cbn; tauto || reflexivity).
  reflexivity.
Qed.
Ltac one_of H := unfold drifts, quadrupoles, bends in H; simpl in H; repeat match type of H with _ \/ _ => destruct H as [H|H] | False => contradiction end.
Lemma l_kept : forall E m f x ps k, In k ["l"; "k1"; "angle"; "k2"]%string -> convert E m f x = Ok ps -> agn_get ps k = agn_get (e_params x) k.
Proof.
  intros E m f x ps k I C. apply (convert_other E m f x ps k C); intros Q; apply same_name_lower in Q; cbn in I; repeat (destruct I as [<-|I]; [vm_compute in Q; discriminate|]); destruct I.
Qed.
(** one element: it is converted, and what is then written is what should be *)
Lemma element_written : forall M show E m e x, 0 < m -> m <= E -> (exists t, written M show E m e t) ->
  e_name x = je_name e -> e_type x = kind e -> fields_of M e (e_params x) ->
  exists ps, convert E m true x = Ok ps /\ forall x', e_name x' = e_name x -> e_type x' = e_type x -> (forall k, agn_get (e_params x') k = agn_get ps k) ->
    complete field_map x' /\ forall t, defines field_map show x' t -> written M show E m e t.
Proof.
  intros M show E m e x Hm HE (t0 & W) Nm Ty F.
  assert (Il : In "l"%string ["l"; "k1"; "angle"; "k2"]%string) by (cbn; tauto). assert (Ik : In "k1"%string ["l"; "k1"; "angle"; "k2"]%string) by (cbn; tauto).
  assert (Ia : In "angle"%string ["l"; "k1"; "angle"; "k2"]%string) by (cbn; tauto).
  destruct W as [v K L|v k1 K L N1|v len ang K L Nl Na Z0|v k2 K L N2|v U L V0 V1|U L].
  - assert (C : convert E m true x = Ok (e_params x)) by (unfold convert; rewrite Ty; one_of K; rewrite <- K; reflexivity).
    exists (e_params x). split; [exact C|]. intros x' Nx Tx G.
    assert (I : In (in_capitals (e_type x'), (T "Drft", ["l"%string])) field_map) by (rewrite Tx, Ty; one_of K; rewrite <- K; vm_compute; tauto).
    assert (Gl : agn_get (e_params x') "l" = Some v) by (rewrite G; now apply (F _ Il)). split.
    + apply (complete_known _ _ _ I). intros p [<-|[]]. eauto.
    + intros t D. destruct (defines_known _ _ _ _ _ I D) as (vs & F2 & ->). inversion F2 as [|? v' ? vs' A B]; subst. inversion B; subst. rewrite Gl in A. injection A as <-.
      unfold uname. rewrite Nx, Nm. cbn [combine map List.concat fst snd]. pose proof (written_drift M show E m e v K L) as Q. rewrite app_nil_r. rewrite <- ?app_assoc. exact Q.
  - assert (C : convert E m true x = Ok (agn_set (e_params x) "db" (VNum (- (k1 * rigidity (momentum_at E m)))))).
    { unfold convert. rewrite Ty. replace (String.eqb (kind e) "kquad" || String.eqb (kind e) "quad")%bool with true by (one_of K; rewrite <- K; reflexivity).
      rewrite (holds_float _ _ _ (number_holds M e _ _ _ Ik F N1)). cbn [rbind]. rewrite (gradient_value k1 E m 1 Hm HE). cbn [rbind fmap1 value_of]. do 4 f_equal. ring. }
    eexists. split; [exact C|]. intros x' Nx Tx G.
    assert (I : In (in_capitals (e_type x'), (T "Quad", ["l"; "db"]%string)) field_map) by (rewrite Tx, Ty; one_of K; rewrite <- K; vm_compute; tauto).
    assert (Gl : agn_get (e_params x') "l" = Some v) by (rewrite G, (l_kept E m true x _ "l" Il C); now apply (F _ Il)).
    assert (Gd : agn_get (e_params x') "db" = Some (VNum (- (k1 * rigidity (momentum_at E m))))) by (rewrite G; apply agn_same). split.
    + apply (complete_known _ _ _ I). intros p [<-|[<-|[]]]; eauto.
    + intros t D. destruct (defines_known _ _ _ _ _ I D) as (vs & F2 & ->). inversion F2 as [|? v' ? vs' A B]; subst. inversion B as [|? v'' ? vs'' A' B']; subst. inversion B'; subst.
      rewrite Gl in A. injection A as <-. rewrite Gd in A'. injection A' as <-. unfold uname. rewrite Nx, Nm. cbn [combine map List.concat fst snd].
      pose proof (written_quad M show E m e v k1 K L N1) as Q. rewrite app_nil_r. rewrite <- ?app_assoc. exact Q.
  - assert (C : convert E m true x = Ok (agn_set (e_params x) "rc" (VNum (len / ang)))).
    { unfold convert. rewrite Ty. replace (String.eqb (kind e) "kquad" || String.eqb (kind e) "quad")%bool with false by (one_of K; rewrite <- K; reflexivity).
      replace (String.eqb (kind e) "csbend" || String.eqb (kind e) "rben")%bool with true by (one_of K; rewrite <- K; reflexivity).
      rewrite (holds_float _ _ _ (number_holds M e _ _ _ Il F Nl)), (holds_float _ _ _ (number_holds M e _ _ _ Ia F Na)). cbn [rbind]. unfold pdiv.
      destruct (Req_EM_T ang 0) as [Z1|_]; [contradiction|]. reflexivity. }
    eexists. split; [exact C|]. intros x' Nx Tx G.
    assert (I : In (in_capitals (e_type x'), (T "Bend", ["l"; "rc"]%string)) field_map) by (rewrite Tx, Ty; one_of K; rewrite <- K; vm_compute; tauto).
    assert (Gl : agn_get (e_params x') "l" = Some v) by (rewrite G, (l_kept E m true x _ "l" Il C); now apply (F _ Il)).
    assert (Gd : agn_get (e_params x') "rc" = Some (VNum (len / ang))) by (rewrite G; apply agn_same). split.
    + apply (complete_known _ _ _ I). intros p [<-|[<-|[]]]; eauto.
    + intros t D. destruct (defines_known _ _ _ _ _ I D) as (vs & F2 & ->). inversion F2 as [|? v' ? vs' A B]; subst. inversion B as [|? v'' ? vs'' A' B']; subst. inversion B'; subst.
      rewrite Gl in A. injection A as <-. rewrite Gd in A'. injection A' as <-. unfold uname. rewrite Nx, Nm. cbn [combine map List.concat fst snd].
      pose proof (written_bend M show E m e v len ang K L Nl Na Z0) as Q. rewrite app_nil_r. rewrite <- ?app_assoc. exact Q.
  - assert (C : convert E m true x = Ok (agn_set (e_params x) "db" (VNum (- (k2 * rigidity (momentum_at E m) ^ 2))))).
    { unfold convert. rewrite Ty, K. change (String.eqb "sext" "kquad" || String.eqb "sext" "quad")%bool with false. change (String.eqb "sext" "csbend" || String.eqb "sext" "rben")%bool with false.
      change (String.eqb "sext" "sext") with true. cbv iota.
      rewrite (holds_float _ _ _ (number_holds M e _ _ _ (or_intror (or_intror (or_intror (or_introl eq_refl)))) F N2)). cbn [rbind]. rewrite (gradient_value k2 E m 2 Hm HE). cbn [rbind fmap1 value_of]. do 4 f_equal. ring. }
    eexists. split; [exact C|]. intros x' Nx Tx G.
    assert (I : In (in_capitals (e_type x'), (T "Sext", ["l"; "db"]%string)) field_map) by (rewrite Tx, Ty, K; vm_compute; tauto).
    assert (Gl : agn_get (e_params x') "l" = Some v) by (rewrite G, (l_kept E m true x _ "l" Il C); now apply (F _ Il)).
    assert (Gd : agn_get (e_params x') "db" = Some (VNum (- (k2 * rigidity (momentum_at E m) ^ 2)))) by (rewrite G; apply agn_same). split.
    + apply (complete_known _ _ _ I). intros p [<-|[<-|[]]]; eauto.
    + intros t D. destruct (defines_known _ _ _ _ _ I D) as (vs & F2 & ->). inversion F2 as [|? v' ? vs' A B]; subst. inversion B as [|? v'' ? vs'' A' B']; subst. inversion B'; subst.
      rewrite Gl in A. injection A as <-. rewrite Gd in A'. injection A' as <-. unfold uname. rewrite Nx, Nm. cbn [combine map List.concat fst snd].
      pose proof (written_sext M show E m e v k2 K L N2) as Q. rewrite app_nil_r. rewrite <- ?app_assoc. exact Q.
  - exists (e_params x). split; [exact (unknown_kept E m true x e Ty U)|]. intros x' Nx Tx G. split.
    + intros ty ps p I. rewrite Tx, Ty in I. now destruct (unknown_absent e U _ I).
    + assert (Gl : agn_get (e_params x') "l" = Some v) by (rewrite G; now apply (F _ Il)). intros t D. destruct D as [ty ps vs I _|v' _ A _ _|_ A].
      * rewrite Tx, Ty in I. now destruct (unknown_absent e U _ I).
      * rewrite Gl in A. injection A as <-. unfold uname. rewrite Nx, Nm. exact (written_other M show E m e v U L V0 V1).
      * rewrite Gl in A. destruct A as [A|[A|A]]; [discriminate| |]; injection A as ->; contradiction.
  - exists (e_params x). split; [exact (unknown_kept E m true x e Ty U)|]. intros x' Nx Tx G. split.
    + intros ty ps p I. rewrite Tx, Ty in I. now destruct (unknown_absent e U _ I).
    + intros t D. destruct D as [ty ps vs I _|v' _ A B1 B2|_ A].
      * rewrite Tx, Ty in I. now destruct (unknown_absent e U _ I).
      * exfalso. rewrite G in A. destruct L as [L|[L|L]]; [rewrite (proj2 (F _ Il) L) in A; discriminate| |]; rewrite (proj1 (F _ Il) _ L) in A; injection A as <-; contradiction.
      * unfold uname. rewrite Nx, Nm. exact (written_none M show E m e U L).
Qed.
(** the heap *)
Lemma convert_all_total : forall E m f addrs h, (forall a, In a addrs -> exists x ps, nth_error (elems h) a = Some x /\ convert E m f x = Ok ps) ->
  exists h', convert_all E m f h addrs = (h', Ok tt).
Proof.
  intros E m f. induction addrs as [|a r IH]; intros h H; cbn [convert_all]; [eauto|].
  destruct (H a (or_introl eq_refl)) as (x & ps & Hx & C). rewrite Hx, C. apply IH. intros b I. unfold upd_elem. cbn [elems].
  destruct (Nat.eq_dec a b) as [<-|N].
  - exists (with_params x ps). rewrite (upd_same _ _ _ _ Hx). destruct (convert_again E m f x ps C) as [Q _]. eauto.
  - rewrite upd_other by exact N. apply H. now right.
Qed.
Lemma flatten_lines : forall f h h' s, lines h' = lines h -> flatten f h' s = flatten f h s.
Proof.
  induction f as [|f IH]; intros h h' s L; [reflexivity|]. cbn [flatten]. induction s as [|[e|b] s IHs]; [reflexivity|now rewrite IHs|].
  rewrite IHs. rewrite L at 1. destruct (nth_error (lines h) b) as [l|]; [|reflexivity]. now rewrite (IH h h' _ L).
Qed.
(** the name of the beamline *)
Definition keeps_names (h h' : heap) : Prop := forall b l, nth_error (lines h) b = Some l -> exists l', nth_error (lines h') b = Some l' /\ l_name l' = l_name l.
Lemma names_refl : forall h, keeps_names h h.
Proof. intros h b l H. eauto. Qed.
Lemma names_trans : forall h1 h2 h3, keeps_names h1 h2 -> keeps_names h2 h3 -> keeps_names h1 h3.
Proof. intros h1 h2 h3 A B b l H. destruct (A b l H) as (l2 & H2 & N2). destruct (B b l2 H2) as (l3 & H3 & N3). exists l3. split; [exact H3|congruence]. Qed.
Lemma names_upd : forall h a f, (forall l, l_name (f l) = l_name l) -> keeps_names h (upd_line h a f).
Proof.
  intros h a f H b l E. unfold upd_line. cbn [lines]. destruct (Nat.eq_dec a b) as [<-|N]; [rewrite (upd_same _ _ _ _ E); eauto|]. rewrite upd_other by exact N. eauto.
Qed.
Lemma names_elems : forall h es, keeps_names h {| elems := es; lines := lines h |}.
Proof. intros h es b l H. eauto. Qed.
Lemma names_add_element : forall h a n ty ps s h' r, add_element h a n ty ps s = (h', r) -> keeps_names h h'.
Proof.
  intros h a n ty ps s h' r H. unfold add_element in H. destruct (nth_error (lines h) a) as [l|]; [|injection H as <- _; apply names_refl].
  assert (A : forall h1 e, the_element h a l n ty ps = (h1, e) -> keeps_names h h1).
  { intros h1 e Q. unfold the_element in Q. destruct (dget _ _ _); [injection Q as <- _; apply names_refl|]. destruct (new_element n ty ps); injection Q as <- _; try apply names_refl.
    eapply names_trans; [apply (names_elems h)|apply names_upd; reflexivity]. }
  destruct (the_element h a l n ty ps) as [h1 [e|x|]]; specialize (A _ _ eq_refl); [|injection H as <- _; exact A|injection H as <- _; exact A].
  assert (B : keeps_names h (upd_elem h1 e (fun el => with_e_line el (l_top l)))) by (eapply names_trans; [exact A|apply names_elems]).
  destruct s; [destruct (last_ref l) as [[]|]|]; injection H as <- _; try exact B; (eapply names_trans; [exact B|apply names_upd; reflexivity]).
Qed.
Lemma names_add_beamline : forall h a n h' r, add_beamline h a n = (h', r) -> keeps_names h h'.
Proof.
  intros h a n h' r H. unfold add_beamline in H. destruct (nth_error (lines h) a) as [l|]; [|injection H as <- _; apply names_refl].
  assert (A : forall b0, keeps_names h (upd_line (fst (new_line h n)) a (register_line n b0))).
  { intros b0. eapply names_trans; [|apply names_upd; reflexivity]. intros b l0 E. unfold new_line. cbn [fst lines]. exists l0. split; [|reflexivity]. rewrite nth_error_app1; [exact E|]. apply nth_error_Some. congruence. }
  destruct (dget name_dec (l_lines l) n) as [b|].
  - injection H as <- _. eapply names_trans; apply names_upd; reflexivity.
  - cbn [new_line] in H. injection H as <- _. eapply names_trans; [apply (A (List.length (lines h)))|]. eapply names_trans; apply names_upd; reflexivity.
Qed.
Lemma names_generate : forall M limit items h a h' r, generate limit M items h a = (h', r) -> keeps_names h h'.
Proof.
  intros M. induction limit as [|n IH]; intros items h a h' r H; cbn [generate] in H; [injection H as <- _; apply names_refl|].
  revert h H. induction items as [|i items IHi]; intros h H; [injection H as <- _; apply names_refl|].
  destruct (dget Z.eq_dec (line_dict M) (Z.abs i)) as [l|].
  - destruct (add_beamline h a (Some (jl_name l))) as [h1 q] eqn:E1. pose proof (names_add_beamline _ _ _ _ _ E1) as N1.
    destruct q as [u|x|]; [|injection H as <- _; exact N1|injection H as <- _; exact N1].
    destruct (option_map l_lines (nth_error (lines h1) a)) as [ls|]; [|injection H as <- _; exact N1].
    destruct (dget name_dec ls (Some (jl_name l))) as [b|]; [|injection H as <- _; exact N1].
    destruct (generate n M (if (0 <=? i)%Z then jl_items l else rev (jl_items l)) h1 b) as [h2 q] eqn:E2. pose proof (IH _ _ _ _ _ E2) as N2.
    destruct q as [u2|x|]; [|injection H as <- _; eapply names_trans; eauto|injection H as <- _; eapply names_trans; eauto].
    eapply names_trans; [exact N1|]. eapply names_trans; [exact N2|]. exact (IHi _ H).
  - destruct (dget Z.eq_dec (elem_dict M) i) as [e|]; [|injection H as <- _; apply names_refl].
    destruct (add_element h a (je_name e) (je_type e) (special_removed M e) false) as [h1 q] eqn:E1. pose proof (names_add_element _ _ _ _ _ _ _ _ E1) as N1.
    destruct q as [u|x|]; [|injection H as <- _; exact N1|injection H as <- _; exact N1]. eapply names_trans; [exact N1|]. exact (IHi _ H).
Qed.
Lemma parsed_name : forall limit M k h a, one_meaning M -> In k (m_lines M) -> parse_json limit M (jl_name k) = Ok (h, a) -> exists l, nth_error (lines h) a = Some l /\ l_name l = Some (jl_name k).
Proof.
  intros limit M k h a O I H. unfold parse_json in H. rewrite (found_name M k O I) in H. cbn [new_line] in H.
  destruct (generate limit M (jl_items k) _ _) as [h1 q] eqn:E in H. destruct q as [u|x|]; try discriminate. injection H as <- <-.
  destruct (names_generate _ _ _ _ _ _ _ E 0%nat _ eq_refl) as (l & A & B). exists l. auto.
Qed.
(** the elements that are written *)
Definition stands (M : models) (show : value -> text) (E m : R) (x : element) (e : jelem) : Prop :=
  e_name x = je_name e /\ complete field_map x /\ forall t, defines field_map show x t -> written M show E m e t.
Lemma converted_elements : forall M show E m h h' addrs es, one_meaning M -> 0 < m -> m <= E -> Forall2 (imported M h) addrs es -> (forall e, In e es -> exists t, written M show E m e t) ->
  (forall a x, In a addrs -> nth_error (elems h) a = Some x -> exists x' ps, nth_error (elems h') a = Some x' /\ e_name x' = e_name x /\ e_type x' = e_type x /\
    convert E m true x = Ok ps /\ forall k, agn_get (e_params x') k = agn_get ps k) ->
  Forall2 (stands M show E m) (flat_map (fun e => match nth_error (elems h') e with Some x => [x] | None => [] end) addrs) es.
Proof.
  intros M show E m h h' addrs es O Hm HE F. induction F as [|a e addrs es A F IH]; intros W C; cbn [flat_map]; [constructor|].
  destruct (imported_fields M h a e O A) as (x & Hx & Nm & Ty & Fx). destruct (C a x (or_introl eq_refl) Hx) as (x' & ps & Hx' & Nx & Tx & Cx & G). rewrite Hx'. cbn [app].
  destruct (element_written M show E m e x Hm HE (W e (or_introl eq_refl)) Nm Ty Fx) as (ps' & C' & Q). rewrite Cx in C'. injection C' as <-.
  constructor; [destruct (Q x' Nx Tx G); split; [congruence|auto]|]. apply IH; [intros e' I; apply W; now right|intros b y I; apply C; now right].
Qed.
Lemma stands_in : forall M show E m els es, Forall2 (stands M show E m) els es -> forall x, In x els -> exists e, In e es /\ stands M show E m x e.
Proof. intros M show E m els es F. induction F as [|y e els es A F IH]; intros x I; [contradiction|]. destruct I as [<-|I]; [exists e; split; [now left|exact A]|]. destruct (IH x I) as (e' & J & B). exists e'. split; [now right|exact B]. Qed.
Lemma stands_names : forall M show E m els es, Forall2 (stands M show E m) els es -> map uname els = map cname es.
Proof. intros M show E m els es F. induction F as [|y e els es (A & _) F IH]; [reflexivity|]. cbn [map]. rewrite IH. f_equal. unfold uname, cname. now rewrite A. Qed.

(* ------------------------------------------------------------------ *)
(** ** C138 The program for a whole lattice.
    Full statement: for every lattice.  Proved for the lattices of C45, made of drifts,
    quadrupoles, bends and elements without a counterpart that have their numbers, with names that
    differ in more than capitals, at a total energy of p_central_mev.  Missing: what C45 misses,
    sextupoles (C84), types that are not converted (C85), the reference momentum (C47). *)
Theorem C138_program_partial : forall show mass p setups M k es, one_meaning M -> free_keys M -> lines_named_once M -> back_flat M ->
  In k (m_lines M) -> expansion M (jl_items k) es -> es <> [] -> 0 < mass -> mass <= p * 10 ^ 6 ->
  (forall e, In e es -> exists t, written M show (p * 10 ^ 6) mass e t) -> (forall e e', In e es -> In e' es -> cname e = cname e' -> e = e') ->
  exists enough, forall limit, (enough <= limit)%nat -> exists ds ts,
    elegant_to_warp show limit mass M (p :: setups) (jl_name k) = Ok (program ts (T (jl_name k)) (map cname es)) /\
    Forall2 (written M show (p * 10 ^ 6) mass) ds ts /\ NoDup ds /\ forall e, In e ds <-> In e es.
Proof.
  intros show mass p setups M k es O Fk Nm Bf Ik H Ne Hm HE W Ds. set (E := p * 10 ^ 6) in *.
  destruct (C45_expansion_partial M k es O Fk Nm Bf Ik H) as (enough & Q). exists enough. intros limit L. destruct (Q limit L) as (h & a & addrs & P & G & F).
  destruct (parsed_name limit M k h a O Ik P) as (l & Hl & Ln).
  destruct (convert_all_total E mass true addrs h) as (h' & C).
  { intros b I. clear - F I O W Hm HE. induction F as [|c e addrs es A F IH]; [contradiction|]. destruct I as [<-|I]; [|apply IH; [intros e' J; apply W; now right|exact I]].
    destruct (imported_fields M h c e O A) as (x & Hx & Nx & Tx & Fx). destruct (element_written M show E mass e x Hm HE (W e (or_introl eq_refl)) Nx Tx Fx) as (ps & C & _). eauto. }
  destruct (convert_all_ok E mass true addrs h h' C) as (Lh & _ & Ce).
  set (els := flat_map (fun e => match nth_error (elems h') e with Some x => [x] | None => [] end) addrs).
  assert (S : Forall2 (stands M show E mass) els es).
  { apply (converted_elements M show E mass h h' addrs es O Hm HE F W). intros b x I Hx. destruct (Ce b x Hx) as (x' & Hx' & N1 & T1 & _ & _ & O2). destruct (O2 I) as (ps & Cx & Gx). exists x', ps. auto. }
  destruct (C46_program_partial field_map show [] (T (jl_name k)) els field_map_nodup) as (dx & ts & Wf & Fd & Nd & First & All).
  { intros Z. rewrite Z in S. inversion S. congruence. }
  { intros x I. destruct (stands_in _ _ _ _ _ _ S x I) as (e & _ & _ & B & _). exact B. }
  assert (X : exists ds, Forall2 (fun x e => In e es /\ stands M show E mass x e) dx ds).
  { assert (Y : forall x, In x dx -> exists e, In e es /\ stands M show E mass x e).
    { intros x I. apply (stands_in _ _ _ _ _ _ S). destruct (First x I) as ((q & r & -> & _) & _). apply in_app_iff. right. now left. }
    clear - Y. induction dx as [|x dx IH]; [exists []; constructor|]. destruct (Y x (or_introl eq_refl)) as (e & A). destruct IH as (ds & B); [intros y J; apply Y; now right|]. exists (e :: ds). now constructor. }
  destruct X as (ds & X). exists ds, ts. split; [|split; [|split]].
  - unfold elegant_to_warp. fold E. rewrite P. cbn [rbind]. unfold parameter_conversions. rewrite G, C.
    replace (get_beamline_elements h' a) with (@Ok (list nat) addrs) by (symmetry; rewrite <- G; unfold get_beamline_elements; rewrite Lh; destruct (nth_error (lines h) a); [apply flatten_lines; exact Lh|reflexivity]).
    cbn [rbind]. rewrite Lh, Hl, Ln. fold els. rewrite Wf. cbn [snd]. now rewrite (stands_names _ _ _ _ _ _ S).
  - clear - Fd X. revert ds X. induction Fd as [|x t dx ts A F IH]; intros ds X; inversion X as [|? e ? ds' (_ & _ & _ & B) Y]; subst; constructor; auto.
  - clear - Nd X. induction X as [|x e dx ds (_ & A & _) X IH]; [constructor|]. cbn [map] in Nd. inversion Nd as [|? ? N1 N2]; subst. constructor; [|auto].
    intros I. apply N1. clear - I X A. induction X as [|y e' dx ds (_ & B & _) X IH]; [contradiction|]. destruct I as [->|I]; [left; unfold uname; now rewrite A, B|right; auto].
  - intros e. split.
    + intros I. clear - I X. induction X as [|y e' dx ds (B & _) X IH]; [contradiction|]. destruct I as [->|I]; auto.
    + intros I.
      assert (Y : exists x, In x els /\ stands M show E mass x e).
      { clear - S I. induction S as [|y e' els es A S IH]; [contradiction|]. destruct I as [<-|I]; [exists y; split; [now left|exact A]|]. destruct (IH I) as (x & J & B). exists x. split; [now right|exact B]. }
      destruct Y as (x & Ix & Nx & _). destruct (All x Ix) as [[]|(d & Id & Un)].
      assert (Z : exists e', In e' ds /\ In e' es /\ cname e' = uname d).
      { clear - X Id. induction X as [|y e' dx ds (B & (A & _)) X IH]; [contradiction|]. destruct Id as [<-|Id]; [exists e'; split; [now left|split; [exact B|unfold cname, uname; now rewrite A]]|].
        destruct (IH Id) as (e1 & J & B1). exists e1. split; [now right|exact B1]. }
      destruct Z as (e' & I1 & I2 & Cn). rewrite (Ds e e' I I2); [exact I1|]. rewrite Cn, Un. unfold cname, uname. now rewrite Nx.
Qed.
Print Assumptions C138_program_partial.

(** An element that cannot be converted stops the conversion; nothing is written. *)
Lemma convert_all_app : forall E m f p q h h', convert_all E m f h p = (h', Ok tt) -> convert_all E m f h (p ++ q) = convert_all E m f h' q.
Proof.
  intros E m f. induction p as [|a p IH]; intros q h h' H; cbn [app convert_all] in *; [now injection H as <-|].
  destruct (nth_error (elems h) a) as [x|]; [|discriminate]. destruct (convert E m f x); try discriminate. now apply IH.
Qed.
Lemma stopped : forall show mass p setups M k before e after err, one_meaning M -> free_keys M -> lines_named_once M -> back_flat M ->
  In k (m_lines M) -> expansion M (jl_items k) (before ++ e :: after) -> 0 < mass -> mass <= p * 10 ^ 6 ->
  (forall e', In e' before -> exists t, written M show (p * 10 ^ 6) mass e' t) ->
  (forall x, e_type x = kind e -> fields_of M e (e_params x) -> convert (p * 10 ^ 6) mass true x = Err err) ->
  exists enough, forall limit, (enough <= limit)%nat -> elegant_to_warp show limit mass M (p :: setups) (jl_name k) = Err err.
Proof.
  intros show mass p setups M k before e after err O Fk Nm Bf Ik H Hm HE W St. set (E := p * 10 ^ 6) in *.
  destruct (C45_expansion_partial M k _ O Fk Nm Bf Ik H) as (enough & Q). exists enough. intros limit L. destruct (Q limit L) as (h & a & addrs & P & G & F).
  apply Forall2_app_inv_r in F. destruct F as (ab & ar & Fb & Fr & ->). inversion Fr as [|b ? ar' ? A Fa]; subst.
  destruct (convert_all_total E mass true ab h) as (h' & C).
  { intros c I. clear - Fb I O W Hm HE. induction Fb as [|c' e' addrs es A F IH]; [contradiction|]. destruct I as [<-|I]; [|apply IH; [intros e1 J; apply W; now right|exact I]].
    destruct (imported_fields M h c' e' O A) as (x & Hx & Nx & Tx & Fx). destruct (element_written M show E mass e' x Hm HE (W e' (or_introl eq_refl)) Nx Tx Fx) as (ps & C & _). eauto. }
  destruct (convert_all_ok E mass true ab h h' C) as (_ & _ & Ce). destruct (imported_fields M h b e O A) as (x & Hx & _ & Tx & Fx).
  destruct (Ce b x Hx) as (x' & Hx' & _ & Tx' & _ & O1 & O2).
  unfold elegant_to_warp. fold E. rewrite P. cbn [rbind]. unfold parameter_conversions. rewrite G, (convert_all_app E mass true _ _ _ _ C). cbn [convert_all]. rewrite Hx', (St x'); [reflexivity|congruence|].
  intros key I. replace (agn_get (e_params x') key) with (agn_get (e_params x) key); [exact (Fx key I)|]. destruct (in_dec Nat.eq_dec b ab) as [J|J]; [|now rewrite (O1 J)].
  destruct (O2 J) as (ps & Cx & Gx). rewrite Gx. symmetry. exact (l_kept E mass true x ps key I Cx).
Qed.
Theorem C138_no_strength : forall show mass p setups M k before e after, one_meaning M -> free_keys M -> lines_named_once M -> back_flat M ->
  In k (m_lines M) -> expansion M (jl_items k) (before ++ e :: after) -> 0 < mass -> mass <= p * 10 ^ 6 ->
  (forall e', In e' before -> exists t, written M show (p * 10 ^ 6) mass e' t) -> In (kind e) quadrupoles -> unrecorded e "k1" ->
  exists enough, forall limit, (enough <= limit)%nat -> elegant_to_warp show limit mass M (p :: setups) (jl_name k) = Err KeyError.
Proof.
  intros show mass p setups M k before e after O Fk Nm Bf Ik H Hm HE W K U. apply (stopped show mass p setups M k before e after KeyError); auto.
  intros x Tx Fx. unfold convert. rewrite Tx. replace (String.eqb (kind e) "kquad" || String.eqb (kind e) "quad")%bool with true by (one_of K; rewrite <- K; reflexivity).
  unfold float_param. rewrite (proj2 (Fx "k1"%string ltac:(cbn; tauto)) U). reflexivity.
Qed.
Print Assumptions C138_no_strength.
(** A bend by no angle has no radius. *)
Theorem C138_straight_bend : forall show mass p setups M k before e after len, one_meaning M -> free_keys M -> lines_named_once M -> back_flat M ->
  In k (m_lines M) -> expansion M (jl_items k) (before ++ e :: after) -> 0 < mass -> mass <= p * 10 ^ 6 ->
  (forall e', In e' before -> exists t, written M show (p * 10 ^ 6) mass e' t) -> In (kind e) bends -> recorded_number M e "l" len -> recorded_number M e "angle" 0 ->
  exists enough, forall limit, (enough <= limit)%nat -> elegant_to_warp show limit mass M (p :: setups) (jl_name k) = Err ZeroDivisionError.
Proof.
  intros show mass p setups M k before e after len O Fk Nm Bf Ik H Hm HE W K Hl Ha. apply (stopped show mass p setups M k before e after ZeroDivisionError); auto.
  intros x Tx Fx. unfold convert. rewrite Tx. replace (String.eqb (kind e) "kquad" || String.eqb (kind e) "quad")%bool with false by (one_of K; rewrite <- K; reflexivity).
  replace (String.eqb (kind e) "csbend" || String.eqb (kind e) "rben")%bool with true by (one_of K; rewrite <- K; reflexivity).
  rewrite (holds_float _ _ _ (number_holds M e _ "l" _ ltac:(cbn; tauto) Fx Hl)), (holds_float _ _ _ (number_holds M e _ "angle" _ ltac:(cbn; tauto) Fx Ha)). cbn [rbind]. unfold pdiv.
  destruct (Req_EM_T 0 0) as [_|Z]; [reflexivity|contradiction].
Qed.
Print Assumptions C138_straight_bend.

(* ====================== C84 ====================== *)
(** Full statement: the field given to a sextupole is k2 times the rigidity.  Missing: the square
    of the rigidity is used (C84_sextupole_refuted).  Proved, for every sextupole of every
    beamline: the field is k2 times that square, with its sign, so it is the right one exactly for
    strength 0, momentum 0 or rigidity 1. *)
Theorem C84_conversion_partial : forall energy mass flip h a l h' e el k2, 0 < mass -> mass <= energy ->
  get_beamline_elements h a = Ok l -> parameter_conversions energy mass flip h a = (h', Ok tt) -> In e l ->
  element_at h e = Some el -> e_type el = "sext"%string -> holds (e_params el) "k2" k2 ->
  let brho := rigidity (momentum_at energy mass) in
  exists el' db, element_at h' e = Some el' /\ agn_get (e_params el') "db" = Some (VNum db) /\ db = (if flip then -1 else 1) * (k2 * brho ^ 2) /\
    (Rabs db = Rabs (k2 * brho) <-> k2 = 0 \/ brho = 0 \/ brho = 1).
Proof.
  intros E m f h a l h' e el k2 Hm HE G H I He Ty Hk brho. unfold parameter_conversions in H. rewrite G in H.
  destruct (convert_all_ok E m f l h h' H) as (_ & _ & F). destruct (F e el He) as (el' & He' & _ & _ & _ & _ & O2). destruct (O2 I) as (ps & C & A).
  exists el', ((if f then -1 else 1) * (k2 * brho ^ 2)). split; [exact He'|]. split; [|split; [reflexivity|]].
  - rewrite A. unfold convert in C. rewrite Ty in C. change (String.eqb "sext" "kquad" || String.eqb "sext" "quad")%bool with false in C.
    change (String.eqb "sext" "csbend" || String.eqb "sext" "rben")%bool with false in C. change (String.eqb "sext" "sext") with true in C. cbv iota in C.
    rewrite (holds_float _ _ _ Hk) in C. cbn [rbind] in C. rewrite (gradient_value k2 E m 2 Hm HE) in C. cbn [rbind fmap1 value_of] in C.
    injection C as <-. rewrite agn_same. do 2 f_equal. unfold brho. destruct f; ring.
  - assert (B0 : 0 <= brho). { unfold brho, rigidity. apply Rmult_le_pos; [apply sqrt_pos|]. left. apply Rinv_0_lt_compat. unfold light. lra. }
    replace (Rabs ((if f then -1 else 1) * (k2 * brho ^ 2))) with (Rabs k2 * brho ^ 2).
    2:{ rewrite !Rabs_mult, (Rabs_pos_eq (brho ^ 2)) by (apply pow_le; exact B0). replace (Rabs (if f then -1 else 1)) with 1; [ring|]. destruct f; [rewrite Rabs_left by lra; lra|rewrite Rabs_pos_eq; lra]. }
    rewrite Rabs_mult, (Rabs_pos_eq brho B0). split.
    + intros Q. destruct (Req_dec k2 0) as [Z|Z]; [now left|right]. destruct (Req_dec brho 0) as [Y|Y]; [now left|right].
      apply Rabs_no_R0 in Z. apply (Rmult_eq_reg_l (Rabs k2 * brho)); [lra|]. now apply Rmult_integral_contrapositive_currified.
    + intros [->|[->| ->]]; [rewrite Rabs_R0|..]; ring.
Qed.
Print Assumptions C84_conversion_partial.
Example C84_conversion_applies : forall k2 E mass, 0 < mass -> mass <= E -> exists h a l h' e el,
  parse_json 5 (sext_lattice k2) "MAIN" = Ok (h, a) /\ get_beamline_elements h a = Ok l /\
  parameter_conversions E mass true h a = (h', Ok tt) /\ In e l /\ element_at h e = Some el /\ e_type el = "sext"%string /\ holds (e_params el) "k2" k2.
Proof.
  intros k2 E mass Hm HE. do 6 eexists. split; [vm_compute; reflexivity|]. split; [vm_compute; reflexivity|]. split.
  { unfold parameter_conversions. change (get_beamline_elements _ _) with (@Ok (list nat) [0%nat]). cbn [convert_all nth_error elems].
    rewrite (convert_sext E mass true _ k2 Hm HE) by reflexivity. reflexivity. }
  split; [left; reflexivity|]. split; [reflexivity|]. split; [reflexivity|]. left. reflexivity.
Qed.

(* ====================== C85 ====================== *)
(** An element of a listed type that is converted, with what elegant needs for it: a drift with its
    length, a quadrupole with length and strength, a bend with length and an angle that is not 0, a
    sextupole with length and strength. *)
Definition convertible (M : models) (e : jelem) : Prop :=
  (exists v, recorded M e "l" v) /\
  (In (kind e) drifts \/
   In (kind e) quadrupoles /\ (exists k1, recorded_number M e "k1" k1) \/
   In (kind e) bends /\ (exists len angle, recorded_number M e "l" len /\ recorded_number M e "angle" angle /\ angle <> 0) \/
   kind e = "sext"%string /\ exists k2, recorded_number M e "k2" k2).
(** Full statement: as this one, for all fifteen listed types.  Missing: the six types of
    C85_unconverted_refuted. *)
Theorem C85_converted_partial : forall show mass p setups M k es, one_meaning M -> free_keys M -> lines_named_once M -> back_flat M ->
  In k (m_lines M) -> expansion M (jl_items k) es -> es <> [] -> 0 < mass -> mass <= p * 10 ^ 6 ->
  (forall e, In e es -> convertible M e) -> (forall e e', In e es -> In e' es -> cname e = cname e' -> e = e') ->
  exists enough, forall limit, (enough <= limit)%nat -> exists ts,
    elegant_to_warp show limit mass M (p :: setups) (jl_name k) = Ok (program ts (T (jl_name k)) (map cname es)).
Proof.
  intros show mass p setups M k es O Fk Nm Bf Ik H Ne Hm HE W Ds.
  destruct (C138_program_partial show mass p setups M k es O Fk Nm Bf Ik H Ne Hm HE) as (n & Q); [|exact Ds|].
  - intros e I. destruct (W e I) as ((v & L) & [K|[(K & k1 & N1)|[(K & len & ang & N1 & N2 & Z)|(K & k2 & N2)]]]); eexists;
      [eapply written_drift|eapply written_quad|eapply written_bend|eapply written_sext]; eassumption.
  - exists n. intros limit L. destruct (Q limit L) as (ds & ts & R & _). now exists ts.
Qed.
Print Assumptions C85_converted_partial.

(** An element of one of the six types anywhere in a line stops the conversion, if the records do
    not hold the parameters of Warp themselves. *)
Lemma kind_unconverted : forall E m f x ty, In ty unconverted -> in_capitals (e_type x) = T ty -> (forall s t, In t ["KQUAD"; "QUAD"; "CSBEND"; "RBEN"; "SEXT"]%string -> in_capitals s = T t -> e_type x <> s) -> convert E m f x = Ok (e_params x).
Proof.
  intros E m f x ty I Q N. unfold convert.
  assert (A : forall s t, In t ["KQUAD"; "QUAD"; "CSBEND"; "RBEN"; "SEXT"]%string -> in_capitals s = T t -> String.eqb (e_type x) s = false).
  { intros s t J R. destruct (String.eqb_spec (e_type x) s) as [X|_]; [|reflexivity]. now destruct (N s t J R). }
  rewrite (A "kquad" "KQUAD")%string, (A "quad" "QUAD")%string, (A "csbend" "CSBEND")%string, (A "rben" "RBEN")%string, (A "sext" "SEXT")%string by (cbn; tauto || reflexivity).
  reflexivity.
Qed.
Theorem C85_anywhere_refuted : forall show mass p setups M k before e after ty, one_meaning M -> free_keys M -> lines_named_once M -> back_flat M ->
  In k (m_lines M) -> expansion M (jl_items k) (before ++ e :: after) -> 0 < mass -> mass <= p * 10 ^ 6 ->
  (forall e', In e' (before ++ after) -> exists t, written M show (p * 10 ^ 6) mass e' t) -> (forall e', In e' before -> cname e' <> cname e) ->
  In ty unconverted -> in_capitals (kind e) = T ty -> unrecorded e "rc" -> unrecorded e "db" ->
  exists enough, forall limit, (enough <= limit)%nat -> elegant_to_warp show limit mass M (p :: setups) (jl_name k) = Err KeyError.
Proof.
  intros show mass p setups M k before e after ty O Fk Nm Bf Ik H Hm HE W Fi Iu Ku Ur Ud. set (E := p * 10 ^ 6) in *.
  destruct (C45_expansion_partial M k _ O Fk Nm Bf Ik H) as (enough & Q). exists enough. intros limit L. destruct (Q limit L) as (h & a & addrs & P & G & F).
  destruct (parsed_name limit M k h a O Ik P) as (l & Hl & Ln).
  assert (Kx : forall x, e_type x = kind e -> convert E mass true x = Ok (e_params x)).
  { intros x Tx. apply (kind_unconverted E mass true x ty Iu); [now rewrite Tx|]. intros s t J R X. rewrite <- X, Tx, Ku in R.
    cbn in Iu, J. repeat (destruct Iu as [<-|Iu]; [repeat (destruct J as [<-|J]; [vm_compute in R; discriminate|]); destruct J|]). destruct Iu. }
  assert (Cv : forall b e', In e' (before ++ e :: after) -> imported M h b e' -> exists x ps, nth_error (elems h) b = Some x /\ convert E mass true x = Ok ps).
  { intros b e' I A. destruct (imported_fields M h b e' O A) as (x & Hx & Nx & Tx & Fx). apply in_app_iff in I.
    assert (D : In e' (before ++ after) \/ e' = e) by (rewrite in_app_iff; destruct I as [I|[<-|I]]; tauto). destruct D as [D| ->].
    - destruct (element_written M show E mass e' x Hm HE (W e' D) Nx Tx Fx) as (ps & C & _). eauto.
    - exists x, (e_params x). auto. }
  destruct (convert_all_total E mass true addrs h) as (h' & C).
  { intros b I. clear - F I Cv. generalize dependent (before ++ e :: after). intros es F Cv. induction F as [|c e' addrs es A F IH]; [contradiction|].
    destruct I as [<-|I]; [apply (Cv c e'); [now left|exact A]|apply IH; [exact I|intros b' e1 J; apply Cv; now right]]. }
  destruct (convert_all_ok E mass true addrs h h' C) as (Lh & _ & Ce).
  set (els := flat_map (fun e => match nth_error (elems h') e with Some x => [x] | None => [] end) addrs).
  assert (S : Forall2 (fun x e' => uname x = cname e' /\ e_type x = kind e' /\ (e' = e -> agn_get (e_params x) "rc" = None /\ agn_get (e_params x) "db" = None)) els (before ++ e :: after)).
  { unfold els. assert (Ce' : forall b x, In b addrs -> nth_error (elems h) b = Some x -> exists x' ps, nth_error (elems h') b = Some x' /\ e_name x' = e_name x /\ e_type x' = e_type x /\ convert E mass true x = Ok ps /\ forall k, agn_get (e_params x') k = agn_get ps k).
    { intros b x I Hx. destruct (Ce b x Hx) as (x' & Hx' & N1 & T1 & _ & _ & O2). destruct (O2 I) as (ps & Cx & Gx). exists x', ps. auto. }
    clear - F Ce' Kx Ur Ud O. generalize dependent (before ++ e :: after). intros es F. induction F as [|c e' addrs es A F IH]; [constructor|]. cbn [flat_map].
    pose proof A as (x0 & Hx0 & _ & _ & K0). destruct (imported_fields M h c e' O A) as (x & Hx & Nx & Tx & _). destruct (Ce' c x (or_introl eq_refl) Hx) as (x' & ps & Hx' & N1 & T1 & C1 & G1). rewrite Hx'.
    cbn [app]. constructor; [|apply IH; intros b y I; apply Ce'; now right]. split; [unfold uname, cname; congruence|]. split; [congruence|]. intros ->.
    rewrite (Kx x Tx) in C1. injection C1 as <-. change (nth_error (elems h) c = Some x0) in Hx0. rewrite Hx in Hx0. injection Hx0 as <-. rewrite !G1.
    assert (Z : forall key, ~ same_name key "_id" -> unrecorded e key -> agn_get (e_params x) key = None).
    { intros key Nk U. destruct (K0 key) as [X|[(v & w & Lv & _)|(_ & Gk)]]; [contradiction| |exact Gk]. discriminate (recorded_fun _ _ _ _ Lv U). }
    split; apply Z; try assumption; intros X; apply same_name_lower in X; vm_compute in X; discriminate. }
  apply Forall2_app_inv_r in S. destruct S as (xb & xr & Sb & Sr & Sx). inversion Sr as [|x ? xa ? (Ux & Tx & Mx) Sa]; subst. destruct (Mx eq_refl) as (M1 & M2).
  unfold elegant_to_warp. fold E. rewrite P. cbn [rbind]. unfold parameter_conversions. rewrite G, C.
  replace (get_beamline_elements h' a) with (@Ok (list nat) addrs) by (symmetry; rewrite <- G; unfold get_beamline_elements; rewrite Lh; destruct (nth_error (lines h) a); [apply flatten_lines; exact Lh|reflexivity]).
  cbn [rbind]. rewrite Lh, Hl, Ln. fold els. rewrite Sx.
  assert (Ft : first_of_name (xb ++ x :: xa) x).
  { exists xb, xa. split; [reflexivity|]. rewrite Ux. clear - Sb Fi. induction Sb as [|y e' xb before (Uy & _) Sb IH]; [intros y []|]. intros z [<-|I]; [rewrite Uy; apply Fi; now left|apply IH; [intros e1 J; apply Fi; now right|exact I]]. }
  assert (Fm : exists w q, In (in_capitals (e_type x), (w, ["l"; q]%string)) field_map /\ agn_get (e_params x) q = None).
  { rewrite Tx, Ku. cbn in Iu. repeat (destruct Iu as [<-|Iu]; [first [exists (T "Bend"), "rc"%string; split; [vm_compute; tauto|exact M1]|exists (T "Sext"), "db"%string; split; [vm_compute; tauto|exact M2]]|]). destruct Iu. }
  destruct Fm as (w & q & If & Gq). apply (C46_missing_parameter field_map show [] _ _ x w ["l"; q]%string q field_map_nodup Ft); auto; cbn; tauto.
Qed.
Print Assumptions C85_anywhere_refuted.

(** Two elements whose names differ in capitals only are one in the program: the second has the
    length of the first. *)
Definition twins (x y : R) : models :=
  {| m_lines := [ln 1 "MAIN" [2; 3]%Z]; m_elems := [{| je_id := 2; je_name := "d1"; je_type := "DRIF"; je_fields := [("l"%string, VNum x)] |};
     {| je_id := 3; je_name := "D1"; je_type := "DRIF"; je_fields := [("l"%string, VNum y)] |}]; m_rpn := [] |}.
Theorem C138_capitals_refuted : forall show mass p setups x y,
  elegant_to_warp show 5 mass (twins x y) (p :: setups) "MAIN" = Ok (program [T "D1 = wp.Drft( l=" ++ show (VNum x) ++ T ",)" ++ [newline]] (T "MAIN") [T "D1"; T "D1"]).
Proof.
  intros show mass p setups x y. unfold elegant_to_warp. generalize (p * 10 ^ 6). intros E.
  match goal with |- context [parse_json 5 ?M ?n] => let r := eval vm_compute in (parse_json 5 M n) in change (parse_json 5 M n) with r end.
  cbn [rbind]. cbv beta iota zeta. unfold parameter_conversions.
  match goal with |- context [get_beamline_elements (Build_heap ?x ?y) ?z] => change (get_beamline_elements (Build_heap x y) z) with (@Ok (list nat) [0%nat; 1%nat]) end.
  cbv beta iota. match goal with |- context [convert_all ?a ?b ?c ?d ?e] => let r := eval vm_compute in (convert_all a b c d e) in change (convert_all a b c d e) with r end. cbv iota beta.
  match goal with |- context [get_beamline_elements ?h ?z] => change (get_beamline_elements h z) with (@Ok (list nat) [0%nat; 1%nat]) end.
  cbn [rbind elems lines nth_error l_name flat_map app].
  match goal with |- snd (write_file _ _ _ _ [?a; ?b]) = _ => set (ea := a); set (eb := b) end.
  destruct (C46_program_partial field_map show [] (T "MAIN") [ea; eb] field_map_nodup) as (ds & ts & Wf & Fd & Nd & First & All); [discriminate| |].
  { intros e I. assert (If : In (in_capitals (e_type e), (T "Drft", ["l"%string])) field_map) by (destruct I as [<-|[<-|[]]]; vm_compute; tauto).
    apply (complete_known _ _ _ If). intros q [<-|[]]. destruct I as [<-|[<-|[]]]; eexists; reflexivity. }
  rewrite Wf. cbn [snd]. assert (D : ds = [ea]).
  { assert (U : forall d, In d ds -> d = ea).
    { intros d I. destruct (First d I) as ((q & r & Q & Nq) & _). destruct q as [|q0 q]; [now injection Q|]. injection Q as <- Q. destruct q as [|q1 q]; [|destruct q; discriminate].
      injection Q as <- _. exfalso. apply (Nq ea (or_introl eq_refl)). reflexivity. }
    destruct (All ea (or_introl eq_refl)) as [[]|(d & Id & _)]. destruct ds as [|d0 [|d1' ds]]; [contradiction| |].
    - now rewrite (U d0 (or_introl eq_refl)).
    - exfalso. rewrite (U d0 (or_introl eq_refl)), (U d1' (or_intror (or_introl eq_refl))) in Nd. inversion Nd as [|? ? N1 _]. apply N1. now left. }
  subst ds. inversion Fd as [|? t ? ts' Dt F2]; subst. inversion F2; subst.
  assert (If : In (in_capitals (e_type ea), (T "Drft", ["l"%string])) field_map) by (vm_compute; tauto).
  destruct (defines_known _ _ _ _ _ If Dt) as (vs & Fv & ->). inversion Fv as [|? v ? vs' A B]; subst. inversion B; subst.
  change (agn_get (e_params ea) "l") with (Some (VNum x)) in A. injection A as <-. cbn [combine map List.concat fst snd]. rewrite app_nil_r.
  rewrite <- ?app_assoc. reflexivity.
Qed.
Print Assumptions C138_capitals_refuted.

(** A case: two cells of quadrupole, drift and bend, a cell taken backwards, a mark; and lines that
    stop the conversion. *)
Definition je (i : Z) (n ty : string) (f : params) : jelem := {| je_id := i; je_name := n; je_type := ty; je_fields := f |}.
Definition q1 : jelem := je 1 "q1" "QUAD" [("l", VNum 1); ("k1", VStr "strength")]%string.
Definition d1 : jelem := je 2 "d1" "DRIF" [("L", VNum 2)]%string.
Definition b1 : jelem := je 3 "b1" "CSBEND" [("l", VNum 3); ("angle", VNum 4)]%string.
Definition s1 : jelem := je 7 "s1" "SEXT" [("l", VNum 6); ("K2", VNum 7)]%string.
Definition n1 : jelem := je 8 "n1" "SBEN" [("l", VNum 1); ("angle", VNum 1)]%string.
Definition m1 : jelem := je 4 "m1" "MARK" [].
Definition q2 : jelem := je 5 "q2" "KQUAD" [("l", VNum 1)]%string.
Definition b2 : jelem := je 6 "b2" "RBEN" [("l", VNum 1); ("angle", VNum 0)]%string.
Definition ring : models := {| m_lines := [ln 10 "RING" [20; 4; 7; -30]%Z; ln 20 "CELL" [1; 2; 3]%Z; ln 30 "ARC" [3; 2; 1]%Z; ln 40 "WEAK" [2; 5; 1]%Z; ln 50 "STRAIGHT" [1; 6]%Z; ln 60 "SECTOR" [1; 8; 2]%Z];
  m_elems := [q1; d1; b1; m1; q2; b2; s1; n1]; m_rpn := [("strength"%string, VNum 5)] |}.
Lemma ring_ok : one_meaning ring /\ free_keys ring /\ lines_named_once ring /\ back_flat ring.
Proof.
  unfold one_meaning. repeat match goal with |- _ /\ _ => split end.
  - cbn. repeat (constructor; [cbn; intuition discriminate|]). constructor.
  - intros i H. named H; lia.
  - cbn. repeat (constructor; [cbn; intuition discriminate|]). constructor.
  - cbn. repeat (constructor; [cbn; intuition discriminate|]). constructor.
  - cbn. repeat (constructor; [cbn; intuition discriminate|]). constructor.
  - intros e k v H1 H2. named H1; subst e; named H2; injection H2 as <- _; repeat split; discriminate.
  - intros k H. apply once_by. named H; subst k; reflexivity.
  - intros k i c H1 H2 H3 H4 H5 j H6. named H1; subst k; named H2; subst i; try lia. named H4; subst c; cbn in H5; try discriminate.
    named H6; subst j; unfold is_line; cbn; intros L; repeat destruct L as [L|L]; try discriminate; contradiction.
Qed.
Lemma same_refl : forall s, same_name s s.
Proof. induction s; constructor; [now left|assumption]. Qed.
Ltac differ := let Q := fresh in intros Q; apply same_name_lower in Q; vm_compute in Q; discriminate.
Lemma ring_written : forall show E m e, In e [q1; d1; b1; s1; m1] -> exists t, written ring show E m e t.
Proof.
  intros show E m e [<-|[<-|[<-|[<-|[<-|[]]]]]]; eexists.
  - eapply (written_quad ring show E m q1 (VNum 1) 5); [left; reflexivity| |].
    + exists (VNum 1). split; [|constructor]. apply (lv_some "l" [] "l" (VNum 1) [("k1"%string, VStr "strength")] (same_refl _)). intros k w [Q|[]]. injection Q as <- _. differ.
    + left. exists (VStr "strength"). split; [|constructor; left; reflexivity]. apply (lv_some "k1" [("l"%string, VNum 1)] "k1" (VStr "strength") [] (same_refl _)). intros k w [].
  - eapply (written_drift ring show E m d1 (VNum 2)); [left; reflexivity|]. exists (VNum 2). split; [|constructor]. apply (lv_some "l" [] "L" (VNum 2) []); [apply same_name_lower; reflexivity|]. intros k w [].
  - eapply (written_bend ring show E m b1 (VNum 3) 3 4); [left; reflexivity| | | |lra].
    + exists (VNum 3). split; [|constructor]. apply (lv_some "l" [] "l" (VNum 3) [("angle"%string, VNum 4)] (same_refl _)). intros k w [Q|[]]. injection Q as <- _. differ.
    + left. exists (VNum 3). split; [|constructor]. apply (lv_some "l" [] "l" (VNum 3) [("angle"%string, VNum 4)] (same_refl _)). intros k w [Q|[]]. injection Q as <- _. differ.
    + left. exists (VNum 4). split; [|constructor]. apply (lv_some "angle" [("l"%string, VNum 3)] "angle" (VNum 4) [] (same_refl _)). intros k w [].
  - eapply (written_sext ring show E m s1 (VNum 6) 7); [reflexivity| |].
    + exists (VNum 6). split; [|constructor]. apply (lv_some "l" [] "l" (VNum 6) [("K2"%string, VNum 7)] (same_refl _)). intros k w [Q|[]]. injection Q as <- _. differ.
    + left. exists (VNum 7). split; [|constructor]. apply (lv_some "k2" [("l"%string, VNum 6)] "K2" (VNum 7) []); [apply same_name_lower; reflexivity|]. intros k w [].
  - apply (written_none ring show E m m1); [|left; constructor; intros k w []]. intros t I. cbn in I. repeat (destruct I as [<-|I]; [vm_compute; discriminate|]). destruct I.
Qed.
Example C138_applies : forall show setups, exists enough, forall limit, (enough <= limit)%nat ->
  (exists ds ts, elegant_to_warp show limit 500000 ring (100 :: setups) "RING" = Ok (program ts (T "RING") (map T ["Q1"; "D1"; "B1"; "M1"; "S1"; "Q1"; "D1"; "B1"]%string)) /\
    Forall2 (written ring show (100 * 10 ^ 6) 500000) ds ts /\ NoDup ds /\ forall e, In e ds <-> In e [q1; d1; b1; m1; s1; q1; d1; b1]) /\
  elegant_to_warp show limit 500000 ring (100 :: setups) "WEAK" = Err KeyError /\
  elegant_to_warp show limit 500000 ring (100 :: setups) "STRAIGHT" = Err ZeroDivisionError.
Proof.
  intros show setups. destruct ring_ok as (O & Fk & Nm & Bf). assert (P : 500000 <= 100 * 10 ^ 6) by lra. assert (P0 : 0 < 500000) by lra.
  destruct (C138_program_partial show 500000 100 setups ring (ln 10 "RING" [20; 4; 7; -30]%Z) [q1; d1; b1; m1; s1; q1; d1; b1] O Fk Nm Bf) as (n1 & A1); try assumption.
  - left. reflexivity.
  - apply (ex_line ring 20 (ln 20 "CELL" [1; 2; 3]%Z) _ [q1; d1; b1] [m1; s1; q1; d1; b1]); [cbn; tauto|reflexivity|repeat (apply ex_elem; [cbn; tauto|reflexivity|]); constructor|].
    do 2 (apply ex_elem; [cbn; tauto|reflexivity|]). apply (ex_back ring (-30) (ln 30 "ARC" [3; 2; 1]%Z) [] [b1; d1; q1] []); [cbn; tauto|reflexivity|lia|repeat (apply ex_elem; [cbn; tauto|reflexivity|]); constructor|constructor].
  - discriminate.
  - intros e I. apply ring_written. cbn in *. tauto.
  - intros e e' I J Q. cbn in I, J. repeat (destruct I as [<-|I]; [repeat (destruct J as [<-|J]; [try reflexivity; vm_compute in Q; discriminate|]); destruct J|]). destruct I.
  - destruct (C138_no_strength show 500000 100 setups ring (ln 40 "WEAK" [2; 5; 1]%Z) [d1] q2 [q1] O Fk Nm Bf) as (n2 & A2); try assumption.
    + cbn. tauto.
    + repeat (apply ex_elem; [cbn; tauto|reflexivity|]). constructor.
    + intros e I. apply ring_written. cbn in *. tauto.
    + right. left. reflexivity.
    + constructor. intros k w [Q|[]]. injection Q as <- _. differ.
    + destruct (C138_straight_bend show 500000 100 setups ring (ln 50 "STRAIGHT" [1; 6]%Z) [q1] b2 [] 1 O Fk Nm Bf) as (n3 & A3); try assumption.
      * cbn. tauto.
      * repeat (apply ex_elem; [cbn; tauto|reflexivity|]). constructor.
      * intros e I. apply ring_written. cbn in *. tauto.
      * right. left. reflexivity.
      * left. exists (VNum 1). split; [|constructor]. apply (lv_some "l" [] "l" (VNum 1) [("angle"%string, VNum 0)] (same_refl _)). intros k w [Q|[]]. injection Q as <- _. differ.
      * left. exists (VNum 0). split; [|constructor]. apply (lv_some "angle" [("l"%string, VNum 1)] "angle" (VNum 0) [] (same_refl _)). intros k w [].
      * exists (n1 + n2 + n3)%nat. intros limit L. split; [exact (A1 limit ltac:(lia))|]. split; [exact (A2 limit ltac:(lia))|exact (A3 limit ltac:(lia))].
Qed.
(** The cell is converted; the line with a sector bend is not. *)
Example C85_anywhere_applies : forall show setups, exists enough, forall limit, (enough <= limit)%nat ->
  (exists ts, elegant_to_warp show limit 500000 ring (100 :: setups) "CELL" = Ok (program ts (T "CELL") (map T ["Q1"; "D1"; "B1"]%string))) /\
  elegant_to_warp show limit 500000 ring (100 :: setups) "SECTOR" = Err KeyError.
Proof.
  intros show setups. destruct ring_ok as (O & Fk & Nm & Bf). assert (P : 500000 <= 100 * 10 ^ 6) by lra. assert (P0 : 0 < 500000) by lra.
  destruct (C85_converted_partial show 500000 100 setups ring (ln 20 "CELL" [1; 2; 3]%Z) [q1; d1; b1] O Fk Nm Bf) as (n1' & A1); try assumption.
  - cbn. tauto.
  - repeat (apply ex_elem; [cbn; tauto|reflexivity|]). constructor.
  - discriminate.
  - intros e [<-|[<-|[<-|[]]]].
    + destruct (ring_written show 1 1 q1 ltac:(cbn; tauto)) as (t & W). inversion W; subst; split; eauto 8; try (exfalso; match goal with K : In (kind q1) ?l |- _ => vm_compute in K; intuition discriminate end); try discriminate.
      all: match goal with U : unknown q1 |- _ => exfalso; apply (U "QUAD"%string); [cbn; tauto|reflexivity] end.
    + destruct (ring_written show 1 1 d1 ltac:(cbn; tauto)) as (t & W). inversion W; subst; split; eauto 8; try (exfalso; match goal with K : In (kind d1) ?l |- _ => vm_compute in K; intuition discriminate end); try discriminate.
      all: match goal with U : unknown d1 |- _ => exfalso; apply (U "DRIF"%string); [cbn; tauto|reflexivity] end.
    + destruct (ring_written show 1 1 b1 ltac:(cbn; tauto)) as (t & W). inversion W; subst; split; eauto 12; try (exfalso; match goal with K : In (kind b1) ?l |- _ => vm_compute in K; intuition discriminate end); try discriminate.
      all: match goal with U : unknown b1 |- _ => exfalso; apply (U "CSBEND"%string); [cbn; tauto|reflexivity] end.
  - intros e e' I J Q. cbn in I, J. repeat (destruct I as [<-|I]; [repeat (destruct J as [<-|J]; [try reflexivity; vm_compute in Q; discriminate|]); destruct J|]). destruct I.
  - destruct (C85_anywhere_refuted show 500000 100 setups ring (ln 60 "SECTOR" [1; 8; 2]%Z) [q1] n1 [d1] "SBEN" O Fk Nm Bf) as (n2 & A2); try assumption.
    + cbn. tauto.
    + repeat (apply ex_elem; [cbn; tauto|reflexivity|]). constructor.
    + intros e I. apply ring_written. cbn in *. tauto.
    + intros e [<-|[]]. vm_compute. discriminate.
    + left. reflexivity.
    + reflexivity.
    + constructor. intros k w [Q|[Q|[]]]; injection Q as <- _; differ.
    + constructor. intros k w [Q|[Q|[]]]; injection Q as <- _; differ.
    + exists (n1' + n2)%nat. intros limit L. split; [exact (A1 limit ltac:(lia))|exact (A2 limit ltac:(lia))].
Qed.

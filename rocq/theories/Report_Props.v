(** Theorems about the report and the command line of
    rsbeams/rsstats/kinematic.py (properties C107, C108). *)
From Coq Require Import List Reals Lra Bool String.
From Verif Require Import PyBase Kin_Model Kin_Spec Kin_Proofs Kin_Props.
From Verif Require Import Report_Model Report_Spec.
Import ListNotations.
Open Scope R_scope.
Open Scope string_scope.

(** The converter of a call knows what was given and how. *)
Lemma call_input : forall K cv cv' k v, given (cv_args cv) k v -> call K cv = Ok cv' ->
  cv_args cv' = cv_args cv /\ o_input (cv_out cv') = Some v /\ o_input_type (cv_out cv') = Some k.
Proof.
  intros K cv cv' k v Hg. unfold call. rewrite (set_beta_gamma_given K cv k v _ Hg).
  destruct (startup K (cv_mass cv) k v) as [bg|e|]; cbn [rbind]; try discriminate.
  intros E. inversion E. cbn [cv_args cv_out].
  destruct (unit_eqb (a_output_unit (cv_args cv)) USI); auto.
Qed.

Lemma app_assoc_s : forall a b c : string, (a ++ b) ++ c = a ++ (b ++ c).
Proof. induction a as [|x a IH]; intros b c; cbn; [reflexivity|]. rewrite IH. reflexivity. Qed.
Lemma app_nil_s : forall a : string, a ++ "" = a.
Proof. induction a as [|x a IH]; cbn; [reflexivity|]. rewrite IH. reflexivity. Qed.

Lemma has_line_later : forall s text line, has_line text line -> has_line (s ++ text) line.
Proof.
  intros s text line (b & a & ->). exists (s ++ b), a. rewrite app_assoc_s. reflexivity.
Qed.

(** The text as a list of lines, each after a line break and eight spaces. *)
Fixpoint page (ls : list string) : string :=
  match ls with
  | [] => nl ++ "        "
  | l :: ls' => nl ++ "        " ++ l ++ page ls'
  end.

Lemma page_line : forall ls l, In l ls -> has_line (page ls) l.
Proof.
  induction ls as [|x ls IH]; intros l; [intros []|]. intros [->|Hin].
  - cbn [page]. destruct ls as [|y ls'].
    + exists "", "        ". reflexivity.
    + exists "", ("        " ++ y ++ page ls'). reflexivity.
  - cbn [page]. repeat rewrite <- app_assoc_s. apply has_line_later. exact (IH l Hin).
Qed.

Lemma report_page : forall show cv, report_text show cv =
  let a := cv_args cv in
  let o := cv_out cv in
  let typ := match o_input_type o with Some k => key k | None => "None" end in
  page
   ["Based on an input " ++ typ ++ " of " ++
      match o_input o with Some v => show (Some v) | None => "None" end ++ " " ++ input_unit a typ;
    "For a particle with mass: " ++ show (Some (o_mass o)) ++ " " ++ mass_unit a;
    "";
    "velocity: " ++ slot_text show (o_derived o Dvelocity) ++ " m/s";
    "beta: " ++ opt_text show (o_beta o);
    "gamma: " ++ opt_text show (o_gamma o);
    "momentum: " ++ slot_text show (o_derived o Dmomentum) ++ " " ++ p_unit a;
    "beta * gamma: " ++ slot_text show (o_derived o Dbetagamma);
    "energy: " ++ slot_text show (o_derived o Denergy) ++ " " ++ e_unit a;
    "kinetic energy: " ++ slot_text show (o_derived o Dkenergy) ++ " " ++ e_unit a;
    "Brho: " ++ slot_text show (o_derived o Dbrho) ++ " T*m"].
Proof. intros. cbn [page]. cbv zeta. repeat rewrite app_assoc_s. reflexivity. Qed.

Lemma slot_value : forall show o d v,
  match o_derived o d with Value v => Some v | Method => None end = Some v ->
  slot_text show (o_derived o d) = show v.
Proof. intros show o d v. destruct (o_derived o d); intros E; inversion E; reflexivity. Qed.

Lemma report_quantities : forall show K cv q, proper_unit (a_output_unit (cv_args cv)) ->
  reports K (a_output_unit (cv_args cv)) (cv_out cv) q ->
  forall k, has_line (report_text show cv)
    (title k ++ ": " ++ show (Some (in_unit K (a_output_unit (cv_args cv)) k (quantity q k)))
             ++ unit_text (a_output_unit (cv_args cv)) k).
Proof.
  intros show K cv q HU Hr k. rewrite report_page. apply page_line. cbv zeta.
  pose proof (Hr k) as H. unfold reported in H.
  assert (HP : p_unit (cv_args cv) = match a_output_unit (cv_args cv) with USI => "kg * m/s" | _ => "eV/c" end).
  { unfold p_unit. destruct HU as [->| ->]; reflexivity. }
  assert (HE : e_unit (cv_args cv) = match a_output_unit (cv_args cv) with USI => "J" | _ => "eV" end).
  { unfold e_unit. destruct HU as [->| ->]; reflexivity. }
  destruct k; cbn [title unit_text] in *; try rewrite <- (slot_value show _ _ _ H); rewrite ?HP, ?HE.
  - do 6 right; left. destruct HU as [->| ->]; reflexivity.
  - do 3 right; left. reflexivity.
  - do 8 right; left. destruct HU as [->| ->]; reflexivity.
  - do 9 right; left. destruct HU as [->| ->]; reflexivity.
  - do 7 right; left. rewrite app_nil_s. reflexivity.
  - do 10 right; left. reflexivity.
  - do 4 right; left. rewrite app_nil_s. rewrite H. reflexivity.
  - do 5 right; left. rewrite app_nil_s. rewrite H. reflexivity.
Qed.

(** ** C107: the report *)

(** The report states all eight quantities of one and the same particle, the one
    with the given quantity, each under its name, in the requested unit and with
    that unit after it. *)
Theorem C107_quantities : forall (show : fl -> string) K a k x,
  exact_consts K -> proper_units a -> positive_mass a ->
  given a k (in_unit K (a_input_unit a) k x) ->
  physical (c_light K) (meant_mass K a) k x ->
  exists q cv cv' text, construct K a = Ok cv /\
    call_printing show K false cv = Ok (cv', Some text) /\
    relativistic (c_light K) (meant_mass K a) q /\ quantity q k = x /\
    reports K (a_output_unit a) (cv_out cv') q /\
    forall k', has_line text
      (title k' ++ ": " ++ show (Some (in_unit K (a_output_unit a) k' (quantity q k')))
                ++ unit_text (a_output_unit a) k').
Proof.
  intros show K a k x He HU Hm Hg Hp.
  destruct (converter_correct K a k x He HU Hm Hg Hp) as (q & cv & cv' & C1 & C2 & C3 & C4 & C5 & _).
  destruct (construct_ok K a k _ HU Hg) as (cw & D1 & D2 & _).
  rewrite C1 in D1. inversion D1; subst cw. clear D1.
  pose proof (eff_given K a k _ Hg) as Hg'. rewrite <- D2 in Hg'.
  destruct (call_input K cv cv' k _ Hg' C2) as (E1 & _ & _).
  exists q, cv, cv', (report_text show cv').
  split; [exact C1|]. split; [unfold call_printing; rewrite C2; reflexivity|].
  split; [exact C3|]. split; [exact C4|]. split; [exact C5|].
  assert (Eu : a_output_unit (cv_args cv') = a_output_unit a).
  { rewrite E1, D2. apply eff_unit. }
  rewrite <- Eu in *. apply report_quantities; [rewrite Eu; apply HU|exact C5].
Qed.
Print Assumptions C107_quantities.

Example C107_applies : forall show, exists q cv cv' text,
  construct K0 (one_arg Kgamma 2 None UeV UeV USI) = Ok cv /\
  call_printing show K0 false cv = Ok (cv', Some text) /\ q_gamma q = 2 /\
  has_line text ("gamma: " ++ show (Some 2)) /\
  has_line text ("energy: " ++ show (Some (q_energy q * e_charge K0)) ++ " J").
Proof.
  intros show.
  destruct (C107_quantities show K0 (one_arg Kgamma 2 None UeV UeV USI) Kgamma 2)
    as (q & cv & cv' & text & H1 & H2 & H3 & H4 & H5 & H6).
  { apply K0_exact. } { repeat split; [left|left|right]; reflexivity. }
  { intros m E; discriminate. } { apply one_arg_given. } { simpl. lra. }
  exists q, cv, cv', text. split; [exact H1|]. split; [exact H2|]. split; [exact H4|]. split.
  - pose proof (H6 Kgamma) as G. rewrite H4 in G. cbn [title unit_text in_unit a_output_unit one_arg] in G.
    rewrite app_nil_s in G. unfold si_per_ev in G. rewrite Rmult_1_r in G. exact G.
  - exact (H6 Kenergy).
Qed.

(** A silent call returns the same dictionary, in particular the same numbers, and
    prints nothing. *)
Theorem C107_silent : forall show K cv,
  call_printing show K true cv =
  match call_printing show K false cv with
  | Ok (cv', _) => Ok (cv', None) | Err e => Err e | Diverges => Diverges end.
Proof. intros show K cv. unfold call_printing. destruct (call K cv); reflexivity. Qed.
Print Assumptions C107_silent.

(** Full statement: the first line of the report repeats the quantity that was
    given, its value and its unit.  It holds when no unit conversion applies to
    the input: input in eV-based units, or a quantity whose unit is the same. *)
Theorem C107_input_partial : forall (show : fl -> string) K a k v cv cv' text, wf_consts K ->
  proper_units a -> given a k v ->
  construct K a = Ok cv -> call_printing show K false cv = Ok (cv', Some text) ->
  a_input_unit a = UeV \/ rescaled k = false ->
  has_line text ("Based on an input " ++ key k ++ " of " ++ show (Some v) ++ " "
                 ++ input_unit_text (a_input_unit a) k) /\
  o_input (cv_out cv') = Some v.
Proof.
  intros show K a k v cv cv' text Hw HU Hg C1 C2 Hr.
  destruct (construct_ok K a k v HU Hg) as (cw & D1 & D2 & _).
  rewrite C1 in D1. inversion D1; subst cw. clear D1.
  unfold call_printing in C2. destruct (call K cv) as [cv1|e|] eqn:Ec; cbn [rbind] in C2; try discriminate.
  inversion C2; subst cv1 text. clear C2.
  assert (Hv : given (cv_args cv) k v).
  { rewrite D2. unfold eff_args. destruct Hg as [G1 G2]. split.
    - destruct (unit_eqb (a_input_unit a) USI) eqn:E; [|exact G1].
      destruct Hr as [Hr|Hr]; [rewrite Hr in E; discriminate|].
      cbn [convert_args a_val]. rewrite G1. destruct k; try discriminate Hr; reflexivity.
    - intros k' Hk. destruct (unit_eqb (a_input_unit a) USI); [|exact (G2 k' Hk)].
      cbn [convert_args a_val]. rewrite (G2 k' Hk). reflexivity. }
  destruct (call_input K cv cv' k v Hv Ec) as (E1 & E2 & E3).
  split; [|exact E2].
  rewrite report_page. apply page_line. cbv zeta. rewrite E2, E3. left.
  assert (Ei : a_input_unit (cv_args cv') = a_input_unit a).
  { rewrite E1, D2. unfold eff_args. destruct (unit_eqb (a_input_unit a) USI); reflexivity. }
  unfold input_unit. rewrite Ei. destruct HU as (_ & [Hi|Hi] & _); rewrite Hi; destruct k; reflexivity.
Qed.
Print Assumptions C107_input_partial.

Example C107_input_applies : forall show, exists cv cv' text,
  construct K0 (one_arg Kgamma 2 None UeV USI USI) = Ok cv /\
  call_printing show K0 false cv = Ok (cv', Some text) /\
  has_line text ("Based on an input gamma of " ++ show (Some 2) ++ " ").
Proof.
  intros show.
  destruct (C107_quantities show K0 (one_arg Kgamma 2 None UeV USI USI) Kgamma 2)
    as (q & cv & cv' & text & H1 & H2 & _).
  { apply K0_exact. } { repeat split; [left|right|right]; reflexivity. }
  { intros m E; discriminate. }
  { cbn [in_unit a_input_unit one_arg si_per_ev]. rewrite Rmult_1_r. apply one_arg_given. } { simpl. lra. }
  exists cv, cv', text. split; [exact H1|]. split; [exact H2|].
  destruct (C107_input_partial show K0 (one_arg Kgamma 2 None UeV USI USI) Kgamma 2 cv cv' text
    (proj1 K0_exact)) as [L _]; auto.
  { repeat split; [left|right|right]; reflexivity. } { apply one_arg_given. }
Qed.

(** With SI input the first line shows the converted number beside the SI unit:
    an energy of e joule (1 eV) is reported as 1 J. *)
Theorem C107_input_refuted : forall show, exists cv cv' text,
  let a := one_arg Kenergy (e_charge K0) (Some (e_charge K0 / (2 * c_light K0 ^ 2))) USI USI UeV in
  construct K0 a = Ok cv /\ call_printing show K0 false cv = Ok (cv', Some text) /\
  given a Kenergy (e_charge K0) /\ e_charge K0 < 1 /\
  o_input (cv_out cv') = Some 1 /\
  has_line text ("Based on an input energy of " ++ show (Some 1) ++ " J").
Proof.
  intros show.
  set (a := one_arg Kenergy (e_charge K0) (Some (e_charge K0 / (2 * c_light K0 ^ 2))) USI USI UeV).
  assert (HU : proper_units a) by (repeat split; [right|right|left]; reflexivity).
  assert (HM : meant_mass K0 a = 1 / 2).
  { unfold meant_mass, a, kg_per_ev. cbn [a_mass a_mass_unit one_arg].
    field. split; cbn; lra. }
  destruct (C107_quantities show K0 a Kenergy 1) as (q & cv & cv' & text & H1 & H2 & _).
  { apply K0_exact. } { exact HU. }
  { intros m E. inversion E. apply Rdiv_lt_0_compat; [cbn; lra|].
    apply Rmult_lt_0_compat; [lra|]. lra. }
  { cbn [in_unit a_input_unit one_arg a si_per_ev]. rewrite Rmult_1_l. apply one_arg_given. }
  { rewrite HM. cbn. lra. }
  exists cv, cv', text. cbv zeta. fold a. split; [exact H1|]. split; [exact H2|].
  split; [apply one_arg_given|]. split; [cbn; lra|].
  destruct (construct_ok K0 a Kenergy (e_charge K0) HU (one_arg_given _ _ _ _ _ _)) as (cw & D1 & D2 & _).
  rewrite H1 in D1. inversion D1; subst cw. clear D1.
  unfold call_printing in H2. destruct (call K0 cv) as [cv1|e|] eqn:Ec; cbn [rbind] in H2; try discriminate.
  inversion H2; subst cv1 text. clear H2.
  assert (Hv : given (cv_args cv) Kenergy 1).
  { rewrite D2. unfold eff_args. split.
    - cbn [unit_eqb a_input_unit a one_arg convert_args a_val conversion_factor pow_sign].
      f_equal. cbn. field.
    - intros k' Hk. cbn [unit_eqb a_input_unit a one_arg convert_args a_val].
      destruct k'; try reflexivity. congruence. }
  destruct (call_input K0 cv cv' Kenergy 1 Hv Ec) as (E1 & E2 & E3).
  split; [exact E2|]. rewrite report_page. apply page_line. cbv zeta. rewrite E2, E3. left.
  rewrite E1, D2. reflexivity.
Qed.
Print Assumptions C107_input_refuted.

(** The line about the mass names the unit the mass was declared in; its number is
    the mass that was supplied exactly in the cases of C05. *)
Theorem C107_mass_partial : forall (show : fl -> string) K a k x cv cv' text,
  wf_consts K -> kg_per_ev K <> 1 -> proper_units a -> positive_mass a ->
  given a k (in_unit K (a_input_unit a) k x) ->
  construct K a = Ok cv -> call_printing show K false cv = Ok (cv', Some text) ->
  match a_mass a with
  | Some _ => a_input_unit a = a_output_unit a
  | None => a_output_unit a = UeV
  end ->
  has_line text ("For a particle with mass: " ++ show (Some (supplied_mass K a)) ++ " "
                 ++ mass_unit_text (a_mass_unit a)).
Proof.
  intros show K a k x cv cv' text Hw Hne HU Hm Hg C1 C2 Hc.
  unfold call_printing in C2. destruct (call K cv) as [cv1|e|] eqn:Ec; cbn [rbind] in C2; try discriminate.
  inversion C2; subst cv1 text. clear C2.
  destruct (C05_reported_mass_partial K a k x cv cv' Hw Hne HU Hm Hg C1 Ec) as [_ L].
  apply L in Hc.
  destruct (construct_ok K a k _ HU Hg) as (cw & D1 & D2 & _).
  rewrite C1 in D1. inversion D1; subst cw. clear D1.
  pose proof (eff_given K a k _ Hg) as Hg'. rewrite <- D2 in Hg'.
  destruct (call_input K cv cv' k _ Hg' Ec) as (E1 & _ & _).
  rewrite report_page. apply page_line. cbv zeta. right; left. rewrite Hc.
  assert (Em : a_mass_unit (cv_args cv') = a_mass_unit a).
  { rewrite E1, D2. unfold eff_args. destruct (unit_eqb (a_input_unit a) USI); reflexivity. }
  unfold mass_unit. rewrite Em. destruct HU as [[Hi|Hi] _]; rewrite Hi; reflexivity.
Qed.
Print Assumptions C107_mass_partial.

(** ** C108: the command line *)

Lemma key_inj : forall k k', key k = key k' -> k = k'.
Proof. intros k k'. destruct k, k'; cbn; intros E; try reflexivity; discriminate E. Qed.
Lemma kind_eqb_iff : forall k k', kind_eqb k k' = true <-> k = k'.
Proof.
  intros k k'. unfold kind_eqb. rewrite String.eqb_eq. split; [apply key_inj|intros ->; reflexivity].
Qed.

(** What a prefix of the options has set so far. *)
Definition settled (l : list cli_option) (a : kargs) : Prop :=
  (forall k, setting (names_quantity k) l (a_val a k)) /\
  setting names_mass l (a_mass a) /\
  setting_or names_mass_unit l UeV (a_mass_unit a) /\
  setting_or names_input_unit l UeV (a_input_unit a) /\
  setting_or names_output_unit l UeV (a_output_unit a) /\
  Forall proper_option l /\
  (forall k k', a_val a k <> None -> a_val a k' <> None -> k = k').

Lemma setting_snoc : forall A (sets : cli_option -> option A) l o v,
  setting sets l v ->
  setting sets (l ++ [o])%list (match sets o with Some x => Some x | None => v end).
Proof.
  intros A sets l o v H. destruct (sets o) as [x|] eqn:E.
  - exists l, o, []. repeat split; [exact E|constructor].
  - destruct v as [x|]; cbn [setting] in *.
    + destruct H as (l1 & p & l2 & -> & H1 & H2). exists l1, p, (l2 ++ [o])%list.
      rewrite <- app_assoc. repeat split; [exact H1|]. apply Forall_app. auto.
    + unfold never_set in *. apply Forall_app. auto.
Qed.
Lemma setting_or_snoc : forall A (sets : cli_option -> option A) l o d v,
  setting_or sets l d v ->
  setting_or sets (l ++ [o])%list d (match sets o with Some x => x | None => v end).
Proof.
  intros A sets l o d v H. destruct (sets o) as [x|] eqn:E.
  - left. exists l, o, []. repeat split; [exact E|constructor].
  - destruct H as [(l1 & p & l2 & -> & H1 & H2)|[H ->]].
    + left. exists l1, p, (l2 ++ [o])%list.
      rewrite <- app_assoc. repeat split; [exact H1|]. apply Forall_app. auto.
    + right. split; [|reflexivity]. apply Forall_app. auto.
Qed.

Lemma take_settled : forall l o a a', settled l a -> take o a = Some a' -> settled (l ++ [o])%list a'.
Proof.
  intros l o a a' (S1 & S2 & S3 & S4 & S5 & S6 & S7) T.
  pose proof (fun k => setting_snoc _ (names_quantity k) l o _ (S1 k)) as T1.
  pose proof (setting_snoc _ names_mass l o _ S2) as T2.
  pose proof (setting_or_snoc _ names_mass_unit l o _ _ S3) as T3.
  pose proof (setting_or_snoc _ names_input_unit l o _ _ S4) as T4.
  pose proof (setting_or_snoc _ names_output_unit l o _ _ S5) as T5.
  assert (HC : forall u u', choice u = Some u' -> u' = u /\ proper_unit u).
  { intros [| |] u' E; inversion E; split; try reflexivity; [left|right]; reflexivity. }
  assert (HF : proper_option o -> Forall proper_option (l ++ [o])%list).
  { intros H. apply Forall_app. auto. }
  destruct o as [k v|m|u|u|u|]; cbn [take] in T.
  - destruct (existsb _ all_kinds) eqn:E; [discriminate|]. inversion T; subst a'. clear T.
    assert (Hn : forall k', k' <> k -> a_val a k' = None).
    { intros k' Hk. destruct (a_val a k') as [x|] eqn:Ev; [|reflexivity]. exfalso.
      assert (Ht : existsb (fun k' => negb (kind_eqb k' k) &&
                     match a_val a k' with Some _ => true | None => false end) all_kinds = true).
      { apply existsb_exists. exists k'. split; [apply all_kinds_complete|]. rewrite Ev.
        destruct (kind_eqb k' k) eqn:Ek; [|reflexivity]. apply kind_eqb_iff in Ek. contradiction. }
      rewrite Ht in E. discriminate. }
    assert (Hv : forall k', a_val (set_val a k v) k' =
              match names_quantity k' (Quantity k v) with Some x => Some x | None => a_val a k' end).
    { intros k'. cbn [set_val a_val names_quantity].
      destruct (kind_eqb k' k) eqn:Ek; destruct (string_dec (key k') (key k)) as [Hd|Hd]; try reflexivity.
      - apply kind_eqb_iff in Ek. subst k'. contradiction.
      - apply key_inj in Hd. apply kind_eqb_iff in Hd. congruence. }
    repeat split; auto.
    + intros k'. rewrite Hv. apply T1.
    + apply HF. exact I.
    + intros k1 k2. cbn [set_val a_val].
      destruct (kind_eqb k1 k) eqn:E1; destruct (kind_eqb k2 k) eqn:E2.
      * apply kind_eqb_iff in E1, E2. congruence.
      * intros _ H2. exfalso. apply H2. apply Hn. intros ->. rewrite (proj2 (kind_eqb_iff k k) eq_refl) in E2. discriminate.
      * intros H1. exfalso. apply H1. apply Hn. intros ->. rewrite (proj2 (kind_eqb_iff k k) eq_refl) in E1. discriminate.
      * intros H1. exfalso. apply H1. apply Hn. intros ->. rewrite (proj2 (kind_eqb_iff k k) eq_refl) in E1. discriminate.
  - inversion T; subst a'. repeat split; auto. apply HF. exact I.
  - destruct (choice u) as [u'|] eqn:E; inversion T; subst a'. destruct (HC u u' E) as [-> Hu].
    repeat split; auto.
  - destruct (choice u) as [u'|] eqn:E; inversion T; subst a'. destruct (HC u u' E) as [-> Hu].
    repeat split; auto.
  - destruct (choice u) as [u'|] eqn:E; inversion T; subst a'. destruct (HC u u' E) as [-> Hu].
    repeat split; auto.
  - discriminate.
Qed.

Lemma take_all_settled : forall l2 l1 a a', settled l1 a -> take_all l2 a = Some a' ->
  settled (l1 ++ l2)%list a'.
Proof.
  induction l2 as [|o l2 IH]; intros l1 a a' S T; cbn [take_all] in T.
  - inversion T; subst. rewrite app_nil_r. exact S.
  - destruct (take o a) as [a1|] eqn:E; [|discriminate].
    pose proof (take_settled l1 o a a1 S E) as S1. pose proof (IH _ _ _ S1 T) as R.
    rewrite <- app_assoc in R. exact R.
Qed.

Lemma settled_nil : settled [] no_options.
Proof.
  split; [intros k; constructor|]. split; [constructor|].
  do 3 (split; [right; split; [constructor|reflexivity]|]). split; [constructor|].
  intros k k' H. exfalso. apply H. reflexivity.
Qed.

(** A proper line is taken to the end. *)
Lemma take_all_proper : forall k l2 l1 a, settled l1 a -> Forall proper_option l2 ->
  (forall k' v', In (Quantity k' v') l2 -> k' = k) -> (forall k', a_val a k' <> None -> k' = k) ->
  exists a', take_all l2 a = Some a'.
Proof.
  intros k. induction l2 as [|o l2 IH]; intros l1 a S F Q V; [eexists; reflexivity|].
  inversion F as [|? ? Ho F']; subst. cbn [take_all].
  assert (HT : exists a1, take o a = Some a1 /\ forall k', a_val a1 k' <> None -> k' = k).
  { destruct o as [k1 v|m|u|u|u|]; cbn [take].
    - assert (k1 = k) by (apply (Q k1 v); left; reflexivity). subst k1.
      destruct (existsb _ all_kinds) eqn:E.
      + exfalso. apply existsb_exists in E. destruct E as (k' & _ & E).
        apply andb_prop in E. destruct E as [E1 E2].
        destruct (a_val a k') as [x|] eqn:Ev; [|discriminate].
        assert (k' = k) by (apply V; rewrite Ev; discriminate). subst k'.
        rewrite (proj2 (kind_eqb_iff k k) eq_refl) in E1. discriminate.
      + eexists. split; [reflexivity|]. cbn [set_val a_val]. intros k' Hk.
        destruct (kind_eqb k' k) eqn:Ek; [apply kind_eqb_iff; exact Ek|]. apply V. exact Hk.
    - eexists. split; [reflexivity|]. exact V.
    - cbn [proper_option] in Ho. destruct Ho as [->| ->]; eexists; (split; [reflexivity|]); exact V.
    - cbn [proper_option] in Ho. destruct Ho as [->| ->]; eexists; (split; [reflexivity|]); exact V.
    - cbn [proper_option] in Ho. destruct Ho as [->| ->]; eexists; (split; [reflexivity|]); exact V.
    - destruct Ho. }
  destruct HT as (a1 & E & V1). rewrite E.
  apply (IH (l1 ++ [o])%list a1); [exact (take_settled l1 o a a1 S E)|exact F'| |exact V1].
  intros k' v' Hin. apply (Q k' v'). right. exact Hin.
Qed.

Lemma setting_given : forall k l v, setting (names_quantity k) l v ->
  v <> None <-> exists x, In (Quantity k x) l.
Proof.
  intros k l v H. destruct v as [x|]; cbn [setting] in H.
  - split; [|discriminate]. intros _. destruct H as (l1 & o & l2 & -> & H1 & _).
    destruct o as [k' y|m|u|u|u|]; cbn [names_quantity] in H1; try discriminate.
    destruct (string_dec (key k) (key k')) as [Hd|Hd]; [|discriminate].
    apply key_inj in Hd. subst k'. inversion H1; subst. exists x.
    apply in_or_app. right. left. reflexivity.
  - split; [congruence|]. intros [x Hin]. unfold never_set in H. rewrite Forall_forall in H.
    pose proof (H _ Hin) as E. cbn [names_quantity] in E.
    destruct (string_dec (key k) (key k)); [discriminate|congruence].
Qed.

Lemma parse_args_settled : forall l a, parse_args l = Some a ->
  settled l a /\ exists k v, given a k v.
Proof.
  intros l a H. unfold parse_args in H.
  destruct (take_all l no_options) as [a1|] eqn:E; [|discriminate].
  destruct (existsb _ all_kinds) eqn:X; [|discriminate]. inversion H; subst a1. clear H.
  pose proof (take_all_settled l [] no_options a settled_nil E) as S. cbn [app] in S.
  split; [exact S|]. apply existsb_exists in X. destruct X as (k & _ & X).
  destruct (a_val a k) as [v|] eqn:Ev; [|discriminate]. exists k, v. split; [exact Ev|].
  destruct S as (_ & _ & _ & _ & _ & _ & S7). intros k' Hk.
  destruct (a_val a k') as [w|] eqn:Ew; [|reflexivity]. exfalso. apply Hk.
  apply S7; congruence.
Qed.

Lemma parse_args_iff : forall l, (exists a, parse_args l = Some a) <-> proper_line l.
Proof.
  intros l. split.
  - intros [a H]. destruct (parse_args_settled l a H) as [S (k & v & G1 & G2)].
    destruct S as (S1 & _ & _ & _ & _ & S6 & _). split; [exact S6|]. exists k. split.
    + apply (setting_given k l (a_val a k) (S1 k)). congruence.
    + intros k' v' Hin. assert (N : a_val a k' <> None).
      { apply (setting_given k' l _ (S1 k')). exists v'. exact Hin. }
      destruct (kind_eqb k' k) eqn:Ek; [apply kind_eqb_iff; exact Ek|].
      exfalso. apply N. apply G2. intros ->. rewrite (proj2 (kind_eqb_iff k k) eq_refl) in Ek. discriminate.
  - intros [F (k & [v Hin] & Q)].
    destruct (take_all_proper k l [] no_options settled_nil F Q) as [a E].
    { intros k' H. exfalso. apply H. reflexivity. }
    pose proof (take_all_settled l [] no_options a settled_nil E) as S. cbn [app] in S.
    exists a. unfold parse_args. rewrite E.
    assert (X : existsb (fun k => match a_val a k with Some _ => true | None => false end) all_kinds = true).
    { apply existsb_exists. exists k. split; [apply all_kinds_complete|].
      assert (N : a_val a k <> None).
      { apply (setting_given k l _ (proj1 S k)). exists v. exact Hin. }
      destruct (a_val a k); [reflexivity|congruence]. }
    rewrite X. reflexivity.
Qed.

Lemma settled_proper : forall l a, settled l a -> proper_units a.
Proof.
  intros l a (_ & _ & S3 & S4 & S5 & S6 & _). rewrite Forall_forall in S6.
  assert (H : forall sets u, (forall o u', sets o = Some u' -> proper_option o -> proper_unit u') ->
            setting_or sets l UeV u -> proper_unit u).
  { intros sets u Hs [(l1 & o & l2 & -> & E & _)|[_ ->]]; [|left; reflexivity].
    apply (Hs o u E). apply S6. apply in_or_app. right. left. reflexivity. }
  repeat split; [apply (H names_mass_unit); auto|apply (H names_input_unit); auto|apply (H names_output_unit); auto];
    intros [k v|m|u|u|u|] u' E P; cbn in E; inversion E; subst; exact P.
Qed.

(** The program accepts exactly the command lines that name one and only one of the
    eight quantities, with known options and proper units; any other makes it
    exit without a report, and without any option the help is shown first. *)
Theorem C108_accepts : forall show K l,
  ((exists r, main show K l = Runs r) <-> proper_line l) /\
  (~ proper_line l -> main show K l = Exits (match l with [] => true | _ => false end)).
Proof.
  intros show K l. unfold main. pose proof (parse_args_iff l) as P.
  destruct (parse_args l) as [a|].
  - split; [split; [intros _; apply P; exists a; reflexivity|intros _; eexists; reflexivity]|].
    intros N. exfalso. apply N. apply P. exists a. reflexivity.
  - split; [|reflexivity]. split; [intros [r E]; discriminate|].
    intros N. apply P in N. destruct N as [a E]. discriminate.
Qed.
Print Assumptions C108_accepts.

Example C108_accepts_applies :
  proper_line [Mass 938272088; Quantity Kkenergy 1000000; OutputUnit USI] /\
  ~ proper_line [Quantity Kgamma 2; Quantity Kbeta (1/2)] /\ ~ proper_line [Mass 1] /\
  ~ proper_line [Quantity Kgamma 2; InputUnit Uother].
Proof.
  split; [|split; [|split]].
  - split; [repeat constructor; right; reflexivity|]. exists Kkenergy. split.
    + exists 1000000. right; left; reflexivity.
    + intros k' v' [E|[E|[E|[]]]]; inversion E; reflexivity.
  - intros [_ (k & _ & Q)]. pose proof (Q Kgamma 2 ltac:(left; reflexivity)).
    pose proof (Q Kbeta (1/2) ltac:(right; left; reflexivity)). congruence.
  - intros [_ (k & [v [E|[]]] & _)]. discriminate.
  - intros [F _]. inversion F as [|? ? _ F']. inversion F' as [|? ? P _]. destruct P; discriminate.
Qed.

(** An accepted command line does what the keyword call with its settings does:
    every setting is the one of the last option that names it, or its default, and
    the printed report and the numbers are those of Converter(...)(). *)
Theorem C108_same_as_keywords : forall show K l, proper_line l ->
  exists a cv, construct K a = Ok cv /\
    main show K l = Runs (call_printing show K false cv) /\
    (forall k, setting (names_quantity k) l (a_val a k)) /\
    setting names_mass l (a_mass a) /\
    setting_or names_mass_unit l UeV (a_mass_unit a) /\
    setting_or names_input_unit l UeV (a_input_unit a) /\
    setting_or names_output_unit l UeV (a_output_unit a).
Proof.
  intros show K l P. apply parse_args_iff in P. destruct P as [a H].
  destruct (parse_args_settled l a H) as [S (k & v & G)].
  pose proof (settled_proper l a S) as HU.
  exists a, (construct_parsed K a).
  assert (C : construct K a = Ok (construct_parsed K a)).
  { unfold construct, construct_parsed. pose proof HU as (U1 & U2 & U3).
    apply unit_ok_iff in U1, U2, U3. rewrite U1, U2, U3. cbn [andb negb].
    rewrite (declaration_given a k v G). cbn [Nat.eqb negb].
    destruct (choose_mass K (if unit_eqb (a_input_unit a) USI then convert_args K true a else a)).
    reflexivity. }
  split; [exact C|]. split; [unfold main; rewrite H; reflexivity|].
  destruct S as (S1 & S2 & S3 & S4 & S5 & _). auto.
Qed.
Print Assumptions C108_same_as_keywords.

(** From the command line to the particle: the report of a proper line with a
    physical quantity states the quantities of one particle. *)
Theorem C108_report : forall (show : fl -> string) K l, exact_consts K -> proper_line l ->
  exists a,
    (forall k, setting (names_quantity k) l (a_val a k)) /\
    setting names_mass l (a_mass a) /\
    setting_or names_mass_unit l UeV (a_mass_unit a) /\
    setting_or names_input_unit l UeV (a_input_unit a) /\
    setting_or names_output_unit l UeV (a_output_unit a) /\
    forall k x, positive_mass a -> given a k (in_unit K (a_input_unit a) k x) ->
    physical (c_light K) (meant_mass K a) k x ->
    exists q cv' text, main show K l = Runs (Ok (cv', Some text)) /\
      relativistic (c_light K) (meant_mass K a) q /\ quantity q k = x /\
      forall k', has_line text
        (title k' ++ ": " ++ show (Some (in_unit K (a_output_unit a) k' (quantity q k')))
                  ++ unit_text (a_output_unit a) k').
Proof.
  intros show K l He P.
  destruct (C108_same_as_keywords show K l P) as (a & cv & C & M & B1 & B2 & B3 & B4 & B5).
  exists a. do 5 (split; [assumption|]). intros k x Hm Hg Hp.
  destruct (construct_inv K a cv C) as [HU _].
  destruct (C107_quantities show K a k x He HU Hm Hg Hp) as (q & cw & cv' & text & D1 & D2 & D3 & D4 & _ & D5).
  rewrite C in D1. inversion D1; subst cw.
  exists q, cv', text. rewrite M, D2. auto.
Qed.
Print Assumptions C108_report.

Example C108_applies : forall show, exists q cv' text,
  main show K0 [Quantity Kbeta (1/2); Mass 1000000; Quantity Kbeta (3/5)] = Runs (Ok (cv', Some text)) /\
  q_beta q = 3/5 /\ has_line text ("beta: " ++ show (Some (3/5))).
Proof.
  intros show.
  destruct (C108_report show K0 [Quantity Kbeta (1/2); Mass 1000000; Quantity Kbeta (3/5)] K0_exact)
    as (a & A1 & A2 & A3 & A4 & A5 & H).
  { split; [repeat constructor|]. exists Kbeta. split; [exists (1/2); left; reflexivity|].
    intros k' v' [E|[E|[E|[]]]]; inversion E; reflexivity. }
  assert (Hno : forall (sets : cli_option -> option unit_name) u,
            setting_or sets [Quantity Kbeta (1/2); Mass 1000000; Quantity Kbeta (3/5)] UeV u ->
            (forall k v, sets (Quantity k v) = None) -> (forall m, sets (Mass m) = None) -> u = UeV).
  { intros sets u [(l1 & o & l2 & E & E1 & _)|[_ ->]] N1 N2; [|reflexivity]. exfalso.
    assert (Hin : In o [Quantity Kbeta (1/2); Mass 1000000; Quantity Kbeta (3/5)]).
    { rewrite E. apply in_or_app. right; left; reflexivity. }
    destruct Hin as [<-|[<-|[<-|[]]]]; congruence. }
  pose proof (Hno _ _ A3 ltac:(reflexivity) ltac:(reflexivity)) as U1.
  pose proof (Hno _ _ A4 ltac:(reflexivity) ltac:(reflexivity)) as U2.
  pose proof (Hno _ _ A5 ltac:(reflexivity) ltac:(reflexivity)) as U3.
  assert (Hm : a_mass a = Some 1000000).
  { destruct (a_mass a) as [m|]; cbn [setting] in A2.
    - destruct A2 as (l1 & o & l2 & E & E1 & _).
      assert (Hin : In o [Quantity Kbeta (1/2); Mass 1000000; Quantity Kbeta (3/5)]).
      { rewrite E. apply in_or_app. right; left; reflexivity. }
      destruct Hin as [<-|[<-|[<-|[]]]]; cbn in E1; congruence.
    - unfold never_set in A2. inversion A2 as [|? ? _ F]. inversion F; discriminate. }
  assert (Hb : a_val a Kbeta = Some (3/5)).
  { pose proof (A1 Kbeta) as B. destruct (a_val a Kbeta) as [v|]; cbn [setting] in B.
    - destruct B as (l1 & o & l2 & E & E1 & F).
      destruct l1 as [|y [|z [|w l1]]]; cbn [app] in E; inversion E; subst; cbn in E1; try discriminate.
      + inversion F as [|? ? _ F1]. inversion F1 as [|? ? F2 _]. cbn in F2. discriminate.
      + symmetry. exact E1.
      + destruct l1; discriminate.
    - unfold never_set in B. inversion B as [|? ? Bx _]. cbn in Bx. discriminate. }
  destruct (H Kbeta (3/5)) as (q & cv' & text & R1 & R2 & R3 & R4).
  { intros m E. rewrite Hm in E. inversion E. lra. }
  { rewrite U2. cbn [in_unit]. split; [exact Hb|]. intros k' Hk. pose proof (A1 k') as B.
    destruct (a_val a k') as [v|]; [|reflexivity]. cbn [setting] in B.
    destruct B as (l1 & o & l2 & E & E1 & _). exfalso.
    assert (Hin : In o [Quantity Kbeta (1/2); Mass 1000000; Quantity Kbeta (3/5)]).
    { rewrite E. apply in_or_app. right; left; reflexivity. }
    destruct Hin as [<-|[<-|[<-|[]]]]; cbn [names_quantity] in E1; try discriminate;
      (destruct (string_dec (key k') (key Kbeta)) as [Hd|Hd]; [apply key_inj in Hd; contradiction|discriminate]). }
  { cbn. lra. }
  exists q, cv', text. split; [exact R1|]. split; [exact R3|].
  pose proof (R4 Kbeta) as G. rewrite R3, U3 in G. cbn [title unit_text in_unit] in G.
  rewrite app_nil_s in G. exact G.
Qed.

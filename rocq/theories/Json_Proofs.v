From Coq Require Import List Reals Bool Arith String ZArith Lia.
From Verif Require Import PyBase PyDict Line_Model Line_Spec Line_Proofs Line_Proofs2 Json_Model Json_Spec.
Import ListNotations.
Open Scope Z_scope.

(* ---------------- dictionaries by number ---------------- *)
Lemma fold_dict : forall {V} (key : V -> Z) (l : list V) d i,
  NoDup (map key l) -> (forall x, In x l -> dget Z.eq_dec d (key x) = None) ->
  (forall x, In x l -> key x = i -> dget Z.eq_dec (fold_left (fun d x => dset Z.eq_dec d (key x) x) l d) i = Some x) /\
  (~ In i (map key l) -> dget Z.eq_dec (fold_left (fun d x => dset Z.eq_dec d (key x) x) l d) i = dget Z.eq_dec d i).
Proof.
  intros V key. induction l as [|y l IH]; intros d i N F; cbn; [split; [intros ? []|reflexivity]|].
  inversion N as [|? ? N1 N2]; subst.
  assert (F' : forall x, In x l -> dget Z.eq_dec (dset Z.eq_dec d (key y) y) (key x) = None).
  { intros x I. rewrite dget_dset_other; [apply F; right; exact I|]. intros E. apply N1. rewrite <- E. apply in_map. exact I. }
  destruct (IH (dset Z.eq_dec d (key y) y) i N2 F') as [A B]. split.
  - intros x [->|I] E; [|apply A; assumption]. rewrite B; [subst i; apply dget_dset_same|]. subst i. exact N1.
  - intros Ni. rewrite B by tauto. apply dget_dset_other. intros ->. tauto.
Qed.

Lemma nodup_key : forall {A B} (f : A -> B) l x y, NoDup (map f l) -> In x l -> In y l -> f x = f y -> x = y.
Proof.
  intros A B f. induction l as [|z l IH]; intros x y N Ix Iy E; [destruct Ix|]. inversion N as [|? ? N1 N2]; subst.
  destruct Ix as [->|Ix]; destruct Iy as [->|Iy]; auto.
  - exfalso. apply N1. rewrite E. apply in_map. exact Iy.
  - exfalso. apply N1. rewrite <- E. apply in_map. exact Ix.
Qed.
Lemma nodup_app : forall {A} (l m : list A), NoDup (l ++ m) -> NoDup l /\ NoDup m /\ forall x, In x l -> ~ In x m.
Proof.
  intros A l m. induction l as [|y l IH]; intros N; cbn in N; [repeat split; [constructor|exact N|intros ? []]|].
  inversion N as [|? ? N1 N2]; subst. destruct (IH N2) as (H1 & H2 & H3). rewrite in_app_iff in N1. repeat split; [constructor; tauto|exact H2|].
  intros x [->|I]; [tauto|auto].
Qed.

Lemma line_found : forall M k, one_meaning M -> In k (m_lines M) -> dget Z.eq_dec (line_dict M) (jl_id k) = Some k.
Proof.
  intros M k (N & _) I. destruct (nodup_app _ _ N) as (N1 & _ & _). unfold line_dict.
  destruct (fold_dict jl_id (m_lines M) [] (jl_id k) N1) as [A _]; [reflexivity|]. apply A; auto.
Qed.
Lemma line_not_found : forall M i, one_meaning M -> ~ In i (map jl_id (m_lines M)) -> dget Z.eq_dec (line_dict M) i = None.
Proof.
  intros M i (N & _) I. destruct (nodup_app _ _ N) as (N1 & _ & _). unfold line_dict.
  destruct (fold_dict jl_id (m_lines M) [] i N1) as [_ B]; [reflexivity|]. rewrite B; auto.
Qed.
Lemma elem_found : forall M e, one_meaning M -> In e (m_elems M) -> dget Z.eq_dec (elem_dict M) (je_id e) = Some e.
Proof.
  intros M k (N & _) I. destruct (nodup_app _ _ N) as (_ & N1 & _). unfold elem_dict.
  destruct (fold_dict je_id (m_elems M) [] (je_id k) N1) as [A _]; [reflexivity|]. apply A; auto.
Qed.
Lemma elem_no_line : forall M e, one_meaning M -> In e (m_elems M) -> Z.abs (je_id e) = je_id e /\ ~ In (je_id e) (map jl_id (m_lines M)).
Proof.
  intros M e (N & P & _) I. destruct (nodup_app _ _ N) as (_ & _ & D). split.
  - apply Z.abs_eq. assert (0 < je_id e); [|lia]. apply P. apply in_app_iff. right. apply in_map. exact I.
  - intros J. apply (D _ J). apply in_map. exact I.
Qed.

(* ---------------- what the code expands ---------------- *)
Inductive coded (M : models) : list Z -> list jelem -> Prop :=
| c_nil : coded M [] []
| c_elem : forall e r l, In e (m_elems M) -> coded M r l -> coded M (je_id e :: r) (e :: l)
| c_line : forall i k r l1 l2, In k (m_lines M) -> jl_id k = Z.abs i ->
    coded M (if 0 <=? i then jl_items k else rev (jl_items k)) l1 -> coded M r l2 -> coded M (i :: r) (l1 ++ l2).

Lemma flat_elems : forall M items l, one_meaning M -> (forall j, In j items -> ~ is_line M j) -> expansion M items l ->
  Forall2 (fun i e => In e (m_elems M) /\ je_id e = i) items l.
Proof.
  intros M items l O F H. induction H.
  - constructor.
  - constructor; [auto|]. apply IHexpansion. intros j J. apply F. right. exact J.
  - exfalso. apply (F i); [left; reflexivity|]. destruct O as (_ & P & _). assert (0 < i) by (apply P; apply in_app_iff; left; subst i; apply in_map; exact H).
    unfold is_line. rewrite Z.abs_eq by lia. subst i. apply in_map. exact H.
  - exfalso. apply (F i); [left; reflexivity|]. unfold is_line. rewrite Z.abs_neq by lia. rewrite <- H0. apply in_map. exact H.
Qed.
Lemma flat_coded : forall M items l, Forall2 (fun i e => In e (m_elems M) /\ je_id e = i) items l -> coded M items l.
Proof. intros M items l H. induction H as [|i e r l [I <-]]; constructor; auto. Qed.
Lemma forall2_rev : forall {A B} (P : A -> B -> Prop) l m, Forall2 P l m -> Forall2 P (rev l) (rev m).
Proof.
  intros A B P l m H. induction H; cbn; [constructor|]. apply Forall2_app; [exact IHForall2|]. constructor; [assumption|constructor].
Qed.

Definition back_ok (M : models) (items : list Z) : Prop := forall i c, In i items -> i < 0 -> In c (m_lines M) -> jl_id c = - i ->
  forall j, In j (jl_items c) -> ~ is_line M j.
Lemma expansion_coded : forall M, one_meaning M -> back_flat M -> forall items l, expansion M items l -> back_ok M items -> coded M items l.
Proof.
  intros M O F items l H. induction H as [|i e r l I E H IH|i k r l1 l2 I E H1 IH1 H2 IH2|i k r l1 l2 I E Ng H1 IH1 H2 IH2]; intros B.
  - constructor.
  - subst i. constructor; [exact I|]. apply IH. intros i c J. apply B. right. exact J.
  - assert (Pi : 0 < i) by (destruct O as (_ & P & _); apply P; apply in_app_iff; left; subst i; apply in_map; exact I).
    apply c_line with k; [exact I|rewrite Z.abs_eq; lia| |].
    + destruct (0 <=? i) eqn:Q; [|apply Z.leb_gt in Q; lia]. apply IH1. intros j c J1 J2 J3 J4. exact (F k j c I J1 J2 J3 J4).
    + apply IH2. intros j c J. apply B. right. exact J.
  - apply c_line with k; [exact I|rewrite Z.abs_neq; lia| |].
    + destruct (0 <=? i) eqn:Q; [apply Z.leb_le in Q; lia|]. apply flat_coded. apply forall2_rev. apply flat_elems; [exact O| |exact H1].
      apply (B i k); auto. left. reflexivity.
    + apply IH2. intros j c J. apply B. right. exact J.
Qed.

(* ---------------- the heap ---------------- *)
Definition exact_import (M : models) (h : heap) (a : nat) (e : jelem) : Prop := exists x,
  nth_error (elems h) a = Some x /\ e_name x = je_name e /\ e_type x = interpret_element (je_type e) /\
  e_params x = assigns [] (special_removed M e).
Definition registered (M : models) (h : heap) (l : line) : Prop := forall n e, dget string_dec (l_elements l) n = Some e ->
  exists x, In x (m_elems M) /\ je_name x = n /\ exact_import M h e x.
Definition keeps_elems (h h' : heap) : Prop := forall e x, nth_error (elems h) e = Some x ->
  exists x', nth_error (elems h') e = Some x' /\ e_name x' = e_name x /\ e_type x' = e_type x /\ e_params x' = e_params x.
Definition keeps_lines (a : nat) (h h' : heap) : Prop := (List.length (lines h) <= List.length (lines h'))%nat /\
  forall x, x <> a -> (x < List.length (lines h))%nat -> nth_error (lines h') x = nth_error (lines h) x.

Lemma keeps_elems_refl : forall h, keeps_elems h h.
Proof. intros h e x H. exists x. auto. Qed.
Lemma keeps_elems_trans : forall h1 h2 h3, keeps_elems h1 h2 -> keeps_elems h2 h3 -> keeps_elems h1 h3.
Proof.
  intros h1 h2 h3 A B e x H. destruct (A _ _ H) as (x2 & H2 & N2 & T2 & P2). destruct (B _ _ H2) as (x3 & H3 & N3 & T3 & P3).
  exists x3. repeat split; congruence.
Qed.
Lemma exact_keeps : forall M h h' a e, keeps_elems h h' -> exact_import M h a e -> exact_import M h' a e.
Proof. intros M h h' a e K (x & H & N & T & P). destruct (K _ _ H) as (x' & H' & N' & T' & P'). exists x'. repeat split; congruence. Qed.
Lemma registered_keeps : forall M h h' l, keeps_elems h h' -> registered M h l -> registered M h' l.
Proof. intros M h h' l K Rg n e H. destruct (Rg n e H) as (x & I & N & X). exists x. repeat split; auto. eapply exact_keeps; eauto. Qed.

(** Expansions do not look at lines at or before [a], nor at new ones. *)
Lemma expands_keep : forall h h' a, wf h -> (forall x, (a < x)%nat -> (x < List.length (lines h))%nat -> nth_error (lines h') x = nth_error (lines h) x) ->
  forall s l, expands h s l -> (forall b, In (RL b) s -> (a < b)%nat) -> expands h' s l.
Proof.
  intros h h' a W K s l H. induction H as [|e r l H IH|b s r l1 l2 Hs H1 IH1 H2 IH2]; intros F.
  - constructor.
  - constructor. apply IH. intros b I. apply F. right. exact I.
  - assert (Lb : (a < b)%nat) by (apply F; left; reflexivity). unfold sequence in Hs. destruct (nth_error (lines h) b) as [lb|] eqn:Hb; [|discriminate]. injection Hs as Hs.
    apply x_line with s.
    + unfold sequence. rewrite K; [rewrite Hb; cbn; congruence|exact Lb|]. apply nth_error_Some. congruence.
    + apply IH1. intros c I. destruct W as [W _]. destruct (W b lb Hb) as (_ & W2 & _). rewrite <- Hs in I. destruct (W2 c I). lia.
    + apply IH2. intros c I. apply F. right. exact I.
Qed.

Lemma free_special : forall M e, free_keys M -> In e (m_elems M) -> existsb (fun kv => reserved (fst kv)) (special_removed M e) = false.
Proof.
  intros M e F I. destruct (existsb _ _) eqn:E; [|reflexivity]. exfalso. apply existsb_exists in E. destruct E as ([k v] & J & Rk).
  unfold special_removed in J. cbn [map] in J. destruct J as [J|J]; [injection J as <- _; discriminate|].
  apply in_map_iff in J. destruct J as ([k' v'] & Q & J). cbn in Q. injection Q as -> _. cbn in Rk. unfold reserved in Rk.
  destruct (F e k v' I J) as (A & B & C).
  apply orb_prop in Rk. destruct Rk as [Rk|Rk]; [apply orb_prop in Rk; destruct Rk as [Rk|Rk]|]; apply String.eqb_eq in Rk; contradiction.
Qed.

Lemma add_element_ok : forall M h a l e, one_meaning M -> free_keys M -> wf h -> nth_error (lines h) a = Some l -> registered M h l -> In e (m_elems M) ->
  exists h' l' x, add_element h a (je_name e) (je_type e) (special_removed M e) false = (h', Ok tt) /\ wf h' /\
    keeps_elems h h' /\ keeps_lines a h h' /\ nth_error (lines h') a = Some l' /\ l_seq l' = l_seq l ++ [RE x] /\ l_lines l' = l_lines l /\
    exact_import M h' x e /\ registered M h' l'.
Proof.
  intros M h a l e O Fk W Ha Rg Ie.
  assert (OK : exists h', add_element h a (je_name e) (je_type e) (special_removed M e) false = (h', Ok tt)).
  { unfold add_element, the_element, new_element. rewrite Ha. destruct (dget string_dec (l_elements l) (je_name e)) as [x|]; [eexists; reflexivity|].
    rewrite free_special by assumption. eexists. reflexivity. }
  destruct OK as [h' E]. pose proof (wf_add_element h a (je_name e) (je_type e) (special_removed M e) false W) as W'. rewrite E in W'. cbn [fst] in W'.
  destruct (add_element_effect _ _ _ _ _ _ _ W E) as (l0 & s & b & x & el & Ha0 & -> & Hb & Sq & _ & Hx & Hn & _ & C).
  rewrite Ha in Ha0. injection Ha0 as <-. destruct Hb as [[_ ->]|[D _]]; [|discriminate].
  assert (K : keeps_elems h h').
  { intros y z Hy. destruct C as [(_ & Ee & _)|(_ & _ & Ee & _)]; exists z; rewrite Ee.
    - auto.
    - rewrite nth_error_app1; [auto|]. apply nth_error_Some. congruence. }
  assert (KL : keeps_lines a h h').
  { split; [|intros y Ny Ly]; destruct C as [(_ & _ & El)|(_ & _ & _ & _ & _ & El)]; rewrite El.
    - rewrite upd_length. auto.
    - rewrite !upd_length. auto.
    - rewrite upd_other by congruence. reflexivity.
    - rewrite !upd_other by congruence. reflexivity. }
  destruct C as [(D & Ee & El)|(D & Ex & Ee & Ty & Ps & El)].
  - exists h', (append_ref (RE x) l), x. refine (conj E (conj W' (conj K (conj KL (conj _ (conj eq_refl (conj eq_refl (conj _ _)))))))).
    + rewrite El. apply upd_same. exact Ha.
    + destruct (Rg _ _ D) as (y & Iy & Ny & X). assert (y = e) by (destruct O as (_ & _ & _ & N & _); eapply nodup_key; eauto). subst y.
      eapply exact_keeps; eauto.
    + intros n z Hz. cbn in Hz. destruct (Rg _ _ Hz) as (y & Iy & Ny & X). exists y. repeat split; auto. eapply exact_keeps; eauto.
  - exists h', (append_ref (RE x) (register_element (je_name e) x l)), x.
    assert (X : exact_import M h' x e) by (exists el; repeat split; assumption).
    refine (conj E (conj W' (conj K (conj KL (conj _ (conj eq_refl (conj eq_refl (conj X _)))))))).
    + rewrite El. apply upd_same. apply upd_same. exact Ha.
    + intros n z Hz. cbn in Hz. destruct (string_dec n (je_name e)) as [->|Nn].
      * rewrite dget_dset_same in Hz. injection Hz as <-. exists e. auto.
      * rewrite dget_dset_other in Hz by exact Nn. destruct (Rg _ _ Hz) as (y & Iy & Ny & X'). exists y. repeat split; auto. eapply exact_keeps; eauto.
Qed.

Definition once (M : models) (items : list Z) : Prop := forall p i q j r, items = p ++ i :: q ++ j :: r -> is_line M i -> Z.abs i <> Z.abs j.
Lemma once_rev : forall M items, once M items -> once M (rev items).
Proof.
  intros M items H p i q j r E L Q. apply (H (rev r) j (rev q) i (rev p)).
  - rewrite <- (rev_involutive items), E, rev_app_distr. cbn. rewrite rev_app_distr. cbn. repeat (rewrite <- app_assoc; cbn). reflexivity.
  - unfold is_line in *. rewrite <- Q. exact L.
  - symmetry. exact Q.
Qed.
Lemma once_tail : forall M i r, once M (i :: r) -> once M r.
Proof. intros M i r H p j q k t E. apply (H (i :: p) j q k t). rewrite E. reflexivity. Qed.
Lemma once_head : forall M i r j, once M (i :: r) -> is_line M i -> In j r -> Z.abs i <> Z.abs j.
Proof. intros M i r j H L I. apply in_split in I. destruct I as (q & t & ->). apply (H [] i q j t); [reflexivity|exact L]. Qed.

Lemma generate_nil : forall n M h a, generate (S n) M [] h a = (h, Ok tt).
Proof. reflexivity. Qed.
Lemma generate_elem : forall n M e r h a, one_meaning M -> In e (m_elems M) ->
  generate (S n) M (je_id e :: r) h a =
  match add_element h a (je_name e) (je_type e) (special_removed M e) false with
  | (h, Ok _) => generate (S n) M r h a | (h, x) => (h, x) end.
Proof.
  intros n M e r h a O I. destruct (elem_no_line M e O I) as [A B].
  cbn [generate]. rewrite A, (line_not_found M _ O B), (elem_found M e O I). reflexivity.
Qed.
Lemma generate_line : forall n M i k r h a, one_meaning M -> In k (m_lines M) -> jl_id k = Z.abs i ->
  generate (S n) M (i :: r) h a =
  match add_beamline h a (Some (jl_name k)) with
  | (h, Ok _) =>
      match option_map l_lines (nth_error (lines h) a) with
      | Some ls => match dget name_dec ls (Some (jl_name k)) with
                   | Some b => match generate n M (if 0 <=? i then jl_items k else rev (jl_items k)) h b with
                               | (h, Ok _) => generate (S n) M r h a | (h, e) => (h, e) end
                   | None => (h, Err KeyError) end
      | None => (h, Err NameError) end
  | (h, e) => (h, e) end.
Proof.
  intros n M i k r h a O I E. pose proof (line_found M k O I) as F. rewrite E in F.
  cbn [generate]. rewrite F. reflexivity.
Qed.

Lemma gen_ok : forall M, one_meaning M -> free_keys M -> lines_named_once M ->
  forall items es, coded M items es -> once M items ->
  exists k, forall limit, (k <= limit)%nat -> forall h a l, wf h -> nth_error (lines h) a = Some l -> registered M h l ->
  (forall c i, In i items -> In c (m_lines M) -> jl_id c = Z.abs i -> dget name_dec (l_lines l) (Some (jl_name c)) = None) ->
  exists h' l' s addrs, generate limit M items h a = (h', Ok tt) /\ wf h' /\ keeps_elems h h' /\ keeps_lines a h h' /\
    nth_error (lines h') a = Some l' /\ l_seq l' = l_seq l ++ s /\ (forall b, In (RL b) s -> (List.length (lines h) <= b)%nat) /\
    expands h' s addrs /\ Forall2 (exact_import M h') addrs es.
Proof.
  intros M O Fk Nm items es H. induction H as [|e r l Ie H IH|i k r l1 l2 Ik Ek H1 IH1 H2 IH2]; intros On.
  - exists 1%nat. intros [|n] Hn h a l W Ha _ _; [lia|]. exists h, l, [], []. rewrite app_nil_r.
    refine (conj eq_refl (conj W (conj (keeps_elems_refl h) (conj (conj (le_n _) (fun _ _ _ => eq_refl)) (conj Ha (conj eq_refl (conj _ (conj (x_nil h) (Forall2_nil _))))))))).
    intros b [].
  - destruct (IH (once_tail _ _ _ On)) as [k Hk]. exists (S k). intros [|n] Hn h a ln W Ha Rg Fr; [lia|].
    destruct (add_element_ok M h a ln e O Fk W Ha Rg Ie) as (h1 & ln1 & x & E1 & W1 & K1 & KL1 & Ha1 & Sq1 & Ll1 & X & Rg1).
    destruct (Hk (S n) ltac:(lia) h1 a ln1 W1 Ha1 Rg1) as (h2 & ln2 & s & addrs & E2 & W2 & K2 & KL2 & Ha2 & Sq2 & B2 & Ex2 & F2).
    { intros c j J. rewrite Ll1. apply Fr. right. exact J. }
    exists h2, ln2, (RE x :: s), (x :: addrs). rewrite (generate_elem n M e r h a O Ie), E1.
    refine (conj E2 (conj W2 (conj _ (conj (conj _ _) (conj Ha2 (conj _ (conj _ (conj _ _)))))))).
    + eapply keeps_elems_trans; eauto.
    + destruct KL1, KL2; lia.
    + intros y Ny Ly. destruct KL1 as [L1 KL1], KL2 as [L2 KL2]. rewrite KL2 by (auto; lia). apply KL1; auto.
    + rewrite Sq2, Sq1, <- app_assoc. reflexivity.
    + intros b [D|I]; [discriminate|]. destruct KL1. apply B2 in I. lia.
    + constructor. exact Ex2.
    + constructor; [eapply exact_keeps; eauto|exact F2].
  - assert (Li : is_line M i) by (unfold is_line; rewrite <- Ek; apply in_map; exact Ik).
    assert (Ons : once M (if 0 <=? i then jl_items k else rev (jl_items k))).
    { destruct (0 <=? i); [|apply once_rev]; unfold once; apply Nm; exact Ik. }
    destruct (IH1 Ons) as [k1 Hk1]. destruct (IH2 (once_tail _ _ _ On)) as [k2 Hk2]. exists (S (Nat.max k1 k2)).
    intros [|n] Hn h a ln W Ha Rg Fr; [lia|].
    pose proof (Fr k i (or_introl eq_refl) Ik Ek) as New.
    pose proof (add_beamline_new h a ln (Some (jl_name k)) Ha New) as EB. cbn zeta in EB.
    pose proof (wf_add_beamline h a (Some (jl_name k)) W) as WB. rewrite EB in WB. cbn [fst] in WB.
    rewrite (generate_line n M i k r h a O Ik Ek), EB.
    match type of EB with _ = (?x, _) => set (hB := x) in * end.
    assert (La : (a < List.length (lines h))%nat) by (apply nth_error_Some; congruence).
    assert (LB : List.length (lines hB) = S (List.length (lines h))) by (unfold hB; cbn [lines]; rewrite app_length, upd_length; cbn; lia).
    set (b := List.length (lines h)) in *.
    assert (HaB : exists lnB, nth_error (lines hB) a = Some lnB /\ l_seq lnB = l_seq ln ++ [RL b] /\ l_elements lnB = l_elements ln /\
               l_lines lnB = dset name_dec (l_lines ln) (Some (jl_name k)) b).
    { unfold hB. cbn [lines]. rewrite nth_error_app1 by (rewrite upd_length; exact La). rewrite upd_nth, Nat.eqb_refl, Ha. eexists. split; [reflexivity|]. repeat split. }
    destruct HaB as (lnB & HaB & SqB & ElB & LlB). rewrite HaB. cbn [option_map]. rewrite LlB, dget_dset_same.
    assert (HbB : exists lb, nth_error (lines hB) b = Some lb /\ l_seq lb = [] /\ l_elements lb = [] /\ l_lines lb = []).
    { unfold hB. cbn [lines]. rewrite nth_error_app2 by (rewrite upd_length; unfold b; lia). rewrite upd_length. unfold b. rewrite Nat.sub_diag. eexists. split; [reflexivity|]. repeat split. }
    destruct HbB as (lb & HbB & Sqb & Elb & Llb).
    assert (KB : keeps_elems h hB) by (intros y z Hy; exists z; auto).
    assert (KLB : keeps_lines a h hB).
    { split; [lia|]. intros y Ny Ly. unfold hB. cbn [lines]. rewrite nth_error_app1 by (rewrite upd_length; exact Ly). apply upd_other. congruence. }
    destruct (Hk1 n ltac:(lia) hB b lb WB HbB) as (h1 & lb1 & s1 & ad1 & E1 & W1 & K1 & KL1 & Hb1 & Sq1 & B1 & Ex1 & F1).
    { intros m y Hy. rewrite Elb in Hy. discriminate. }
    { intros c j _ _ _. rewrite Llb. reflexivity. }
    rewrite E1. rewrite Sqb in Sq1. cbn [app] in Sq1.
    assert (Ha1 : nth_error (lines h1) a = Some lnB) by (destruct KL1 as [_ KL1]; rewrite KL1 by lia; exact HaB).
    destruct (Hk2 (S n) ltac:(lia) h1 a lnB W1 Ha1) as (h2 & ln2 & s2 & ad2 & E2 & W2 & K2 & KL2 & Ha2 & Sq2 & B2 & Ex2 & F2).
    { intros m y Hy. rewrite ElB in Hy. destruct (Rg m y Hy) as (z & Iz & Nz & X). exists z. repeat split; auto. eapply exact_keeps; [exact K1|]. eapply exact_keeps; [exact KB|exact X]. }
    { intros c j J Ic Ec. rewrite LlB. rewrite dget_dset_other; [apply Fr with j; auto; right; exact J|].
      intros Q. injection Q as Q. assert (c = k) by (destruct O as (_ & _ & N & _); eapply nodup_key; eauto). subst c.
      apply (once_head M i r j On Li J). congruence. }
    exists h2, ln2, (RL b :: s2), (ad1 ++ ad2).
    assert (L1 : (S b <= List.length (lines h1))%nat) by (destruct KL1; lia).
    assert (L2 : (List.length (lines h1) <= List.length (lines h2))%nat) by (destruct KL2; lia).
    refine (conj E2 (conj W2 (conj _ (conj (conj _ _) (conj Ha2 (conj _ (conj _ (conj _ _)))))))).
    + eapply keeps_elems_trans; [exact KB|]. eapply keeps_elems_trans; eauto.
    + fold b. lia.
    + intros y Ny Ly. fold b in Ly. destruct KL1 as [_ KL1], KL2 as [_ KL2], KLB as [_ KLB].
      rewrite KL2 by lia. rewrite KL1 by lia. apply KLB; auto.
    + rewrite Sq2, SqB, <- app_assoc. reflexivity.
    + intros c [D|I]; [injection D as <-; lia|]. apply B2 in I. lia.
    + apply x_line with s1.
      * unfold sequence. destruct KL2 as [_ KL2]. rewrite KL2 by lia. rewrite Hb1. cbn. congruence.
      * apply (expands_keep h1 h2 a W1); [intros y Ly1 Ly2; destruct KL2 as [_ KL2]; apply KL2; lia|exact Ex1|].
        intros c I. apply B1 in I. lia.
      * exact Ex2.
    + apply Forall2_app; [|exact F2]. clear - F1 K2. induction F1; constructor; auto. eapply exact_keeps; eauto.
Qed.

(* ---------------- the parameters ---------------- *)
Lemma meaning_replace : forall M v, NoDup (map fst (m_rpn M)) -> meaning M v (replace_rpn M v).
Proof.
  intros M [r|s] N; cbn; [constructor|]. destruct (dget string_dec (m_rpn M) s) as [w|] eqn:D.
  - constructor. apply dget_in in D. exact D.
  - apply mean_text. intros v I. apply dget_none in D. apply D. change s with (fst (s, v)). apply in_map. exact I.
Qed.
Lemma last_map : forall {A B} (f : A -> B) k l o, last_value k l o -> last_value k (map (fun kv => (fst kv, f (snd kv))) l) (option_map f o).
Proof.
  intros A B f k l o H. destruct H as [l H|l1 k' v l2 Sm H]; cbn.
  - constructor. intros k' v I. apply in_map_iff in I. destruct I as ([k0 v0] & Q & I). cbn in Q. injection Q as <- <-. eapply H; eauto.
  - rewrite map_app. cbn. constructor; [exact Sm|]. intros k'' w I. apply in_map_iff in I. destruct I as ([k0 v0] & Q & I). cbn in Q. injection Q as <- <-. eapply H; eauto.
Qed.
Lemma last_cons : forall {A} k k0 (v0 : A) l o, ~ same_name k k0 -> last_value k l o -> last_value k ((k0, v0) :: l) o.
Proof.
  intros A k k0 v0 l o N H. destruct H as [l H|l1 k' v l2 Sm H].
  - constructor. intros k' v [Q|I]; [injection Q as <- <-; exact N|eapply H; eauto].
  - apply (lv_some k ((k0, v0) :: l1)); assumption.
Qed.

Lemma exact_imported : forall M h a e, one_meaning M -> exact_import M h a e -> imported M h a e.
Proof.
  intros M h a e (_ & _ & _ & _ & Nr) (x & Hx & N & Ty & Ps). exists x. refine (conj Hx (conj N (conj Ty _))). intros k.
  destruct (same_dec k "_id") as [Q|Q]; [left; exact Q|right].
  destruct (last_value_exists k (je_fields e)) as [o Ho].
  pose proof (last_cons _ _ (replace_rpn M (VNum (IZR (je_id e)))) _ _ Q (last_map (replace_rpn M) _ _ _ Ho)) as L.
  change (last_value k (special_removed M e) (option_map (replace_rpn M) o)) in L.
  apply (last_value_get _ _ _ []) in L. rewrite <- Ps in L. destruct o as [v|]; cbn [option_map] in L.
  - left. exists v, (replace_rpn M v). repeat split; auto. apply meaning_replace. exact Nr.
  - right. split; [exact Ho|]. rewrite L. reflexivity.
Qed.

Lemma found_name : forall M k, one_meaning M -> In k (m_lines M) -> the_beamline M (jl_name k) = Some k.
Proof.
  intros M k O I. unfold the_beamline. pose proof (line_found M k O I) as F. apply dget_in in F.
  destruct (find _ (line_dict M)) as [[i c]|] eqn:E.
  - apply find_some in E. destruct E as [J Q]. cbn in *. apply String.eqb_eq in Q. f_equal.
    assert (Ic : In c (m_lines M)).
    { revert J. unfold line_dict. assert (G : forall ls d, In (i, c) (fold_left (fun d l => dset Z.eq_dec d (jl_id l) l) ls d) -> In (i, c) d \/ In c ls).
      { induction ls as [|y ls IH]; intros d J; [left; exact J|]. cbn in J. apply IH in J. destruct J as [J|J]; [|right; right; exact J].
        clear - J. induction d as [|[k0 v0] d IHd]; cbn in J; [destruct J as [J|[]]; injection J as _ <-; right; left; reflexivity|].
        destruct (Z.eq_dec (jl_id y) k0); cbn in J.
        - destruct J as [J|J]; [injection J as _ <-; right; left; reflexivity|left; right; exact J].
        - destruct J as [J|J]; [left; left; exact J|]. destruct (IHd J) as [X|X]; [left; right; exact X|right; exact X]. }
      intros J. destruct (G _ _ J) as [[]|X]. exact X. }
    destruct O as (_ & _ & N & _). eapply nodup_key; eauto.
  - exfalso. pose proof (find_none _ _ E _ F) as Q. cbn in Q. rewrite String.eqb_refl in Q. discriminate.
Qed.
Lemma not_found_name : forall M n, (forall k, In k (m_lines M) -> jl_name k <> n) -> the_beamline M n = None.
Proof.
  intros M n H. unfold the_beamline. destruct (find _ (line_dict M)) as [[i c]|] eqn:E; [|reflexivity]. exfalso.
  apply find_some in E. destruct E as [J Q]. cbn in Q. apply String.eqb_eq in Q. revert J Q.
  assert (G : forall ls d, In (i, c) (fold_left (fun d l => dset Z.eq_dec d (jl_id l) l) ls d) -> In (i, c) d \/ In c ls).
  { induction ls as [|y ls IH]; intros d J; [left; exact J|]. cbn in J. apply IH in J. destruct J as [J|J]; [|right; right; exact J].
    clear - J. induction d as [|[k0 v0] d IHd]; cbn in J; [destruct J as [J|[]]; injection J as _ <-; right; left; reflexivity|].
    destruct (Z.eq_dec (jl_id y) k0); cbn in J.
    - destruct J as [J|J]; [injection J as _ <-; right; left; reflexivity|left; right; exact J].
    - destruct J as [J|J]; [left; left; exact J|]. destruct (IHd J) as [X|X]; [left; right; exact X|right; exact X]. }
  intros J Q. destruct (G _ _ J) as [[]|X]. apply (H c X Q).
Qed.

(** a way to check that no line is named twice *)
Fixpoint once_b (M : models) (items : list Z) : bool :=
  match items with
  | [] => true
  | i :: r => (negb (existsb (Z.eqb (Z.abs i)) (map jl_id (m_lines M))) || negb (existsb (fun j => Z.eqb (Z.abs i) (Z.abs j)) r)) && once_b M r
  end.
Lemma once_by : forall M items, once_b M items = true -> once M items.
Proof.
  intros M. induction items as [|x items IH]; intros H p i q j r E L Q; [destruct p; discriminate|].
  cbn in H. apply andb_true_iff in H. destruct H as [H1 H2]. destruct p as [|y p]; cbn in E; injection E as -> E.
  - apply orb_true_iff in H1. destruct H1 as [H1|H1]; apply negb_true_iff in H1.
    + assert (X : existsb (Z.eqb (Z.abs i)) (map jl_id (m_lines M)) = true) by (apply existsb_exists; exists (Z.abs i); split; [exact L|apply Z.eqb_refl]). congruence.
    + assert (X : existsb (fun j => Z.eqb (Z.abs i) (Z.abs j)) items = true); [|congruence].
      apply existsb_exists. exists j. split; [rewrite E; apply in_app_iff; right; left; reflexivity|apply Z.eqb_eq; exact Q].
  - exact (IH H2 p i q j r E L Q).
Qed.

From Coq Require Import List Reals Bool Arith String Ascii ZArith Lia Lra.
From Verif Require Import PyBase PyDict PyText Line_Model Line_Spec Line_Proofs Line_Proofs2 Json_Proofs Trace_Model Trace_Spec Trace_Proofs4.
Import ListNotations.
Open Scope R_scope.

(* ---------------- reading and editing elements ---------------- *)
Definition get (h : heap) (e : nat) (k : string) : option value := match nth_error (elems h) e with Some el => agn_get (e_params el) k | None => None end.
Definition typ (h : heap) (e : nat) : option string := option_map e_type (nth_error (elems h) e).
Definition edit (h : heap) (e : nat) (pv : list (string * value)) : heap := upd_elem h e (set_params pv).
Lemma typ_edit : forall h e pv x, typ (edit h e pv) x = typ h x.
Proof.
  intros h e pv x. unfold typ, edit, upd_elem. cbn [elems]. rewrite upd_nth. destruct (e =? x)%nat; [|reflexivity]. destruct (nth_error (elems h) x); reflexivity.
Qed.
Lemma get_edit_other : forall h e pv x k, x <> e -> get (edit h e pv) x k = get h x k.
Proof. intros h e pv x k N. unfold get, edit, upd_elem. cbn [elems]. rewrite upd_other by auto. reflexivity. Qed.
Lemma get_edit_key : forall h e pv x k, (forall k' v, In (k', v) pv -> ~ same_name k k') -> get (edit h e pv) x k = get h x k.
Proof.
  intros h e pv x k N. unfold get, edit, upd_elem. cbn [elems]. rewrite upd_nth. destruct (e =? x)%nat; [|reflexivity]. destruct (nth_error (elems h) x) as [el|]; [|reflexivity].
  cbn. apply (assigns_other pv (e_params el) k N).
Qed.
Lemma get_edit_same : forall h e pv k o, typ h e <> None -> last_value k pv (Some o) -> get (edit h e pv) e k = Some o.
Proof.
  intros h e pv k o T L. unfold get, edit, upd_elem, typ in *. cbn [elems]. rewrite upd_nth, Nat.eqb_refl. destruct (nth_error (elems h) e) as [el|]; [|exfalso; apply T; reflexivity].
  cbn. apply (last_value_get k pv (Some o) (e_params el) L).
Qed.
Lemma get_typ : forall h e k v, get h e k = Some v -> typ h e <> None.
Proof. intros h e k v H. unfold get, typ in *. destruct (nth_error (elems h) e); [discriminate|discriminate H]. Qed.
Lemma lines_edit : forall h e pv, lines (edit h e pv) = lines h.
Proof. reflexivity. Qed.
Lemma seq_edit : forall h e pv a, sequence (edit h e pv) a = sequence h a.
Proof. reflexivity. Qed.

Lemma py_index_map : forall es i, py_index (map RE es) i = option_map RE (py_index es i).
Proof.
  intros es i. unfold py_index. rewrite map_length. match goal with |- (if ?b then _ else _) = _ => destruct b end; [reflexivity|]. apply nth_error_map.
Qed.
Lemma edit_index : forall h a es i e ks vs, sequence h a = Some (map RE es) -> py_index es i = Some e -> zip ks vs <> [] ->
  edit_by_index h a i ks vs = (edit h e (zip ks vs), Ok tt).
Proof.
  intros h a es i e ks vs S P N. unfold edit_by_index. unfold sequence in S. destruct (nth_error (lines h) a) as [l|]; [|discriminate]. injection S as S.
  rewrite S, py_index_map, P. destruct (zip ks vs) as [|kv pv]; [contradiction|]. reflexivity.
Qed.
Lemma param_ok : forall h es i k x, param_at h (map RE es) i k = Ok x -> exists e, py_index es i = Some e /\ get h e k = Some (VNum x).
Proof.
  intros h es i k x H. unfold param_at in H. rewrite py_index_map in H. destruct (py_index es i) as [e|]; [|discriminate]. cbn in H. exists e. split; [reflexivity|].
  unfold get. destruct (nth_error (elems h) e) as [el|]; [|discriminate]. destruct (agn_get (e_params el) k) as [[r|s]|]; try discriminate. injection H as ->. reflexivity.
Qed.
Lemma param_is : forall h es i k x e, py_index es i = Some e -> get h e k = Some (VNum x) -> param_at h (map RE es) i k = Ok x.
Proof.
  intros h es i k x e P G. unfold param_at. rewrite py_index_map, P. cbn. unfold get in G. destruct (nth_error (elems h) e) as [el|]; [|discriminate]. rewrite G. reflexivity.
Qed.
Lemma type_ok : forall h es i ty, type_at h (map RE es) i = Ok ty -> exists e, nth_error es i = Some e /\ typ h e = Some ty.
Proof.
  intros h es i ty H. unfold type_at in H. rewrite nth_error_map in H. destruct (nth_error es i) as [e|]; [|discriminate]. cbn in H. exists e. split; [reflexivity|].
  unfold typ. destruct (nth_error (elems h) e); [|discriminate]. injection H as <-. reflexivity.
Qed.
Lemma type_is : forall h es i ty e, nth_error es i = Some e -> typ h e = Some ty -> type_at h (map RE es) i = Ok ty.
Proof.
  intros h es i ty e N T. unfold type_at. rewrite nth_error_map, N. cbn. unfold typ in T. destruct (nth_error (elems h) e); [|discriminate]. injection T as ->. reflexivity.
Qed.
Lemma bind_inv : forall {A B} (r : run A) (f : heap -> A -> run B) h z, bind_run r f = (h, Ok z) -> exists h1 x, r = (h1, Ok x) /\ f h1 x = (h, Ok z).
Proof. intros A B [h1 [x|x|]] f h z H; cbn in H; try discriminate. exists h1, x. auto. Qed.
Lemma pure_inv : forall {A} (h h1 : heap) (r : res A) x, (h, r) = (h1, Ok x) -> h1 = h /\ r = Ok x.
Proof. intros A h h1 r x E. injection E as -> ->. auto. Qed.

(* ---------------- cavities ---------------- *)
Definition set_l (h : heap) (e : nat) (v : R) : heap := edit h e [("L"%string, VNum v)].
Definition cavity_edit (h : heap) (x y e : nat) (v : R) : heap := set_l (set_l (set_l h x 0) y 0) e v.

Lemma cavity_cons : forall h a es i r h' cs phs, sequence h a = Some (map RE es) ->
  cavity_loop h a (map RE es) (i :: r) = (h', Ok (cs, phs)) ->
  exists e, nth_error es i = Some e /\
  ((exists ty, typ h e = Some ty /\ ty <> "rfca"%string /\ cavity_loop h a (map RE es) r = (h', Ok (cs, phs))) \/
   (typ h e = Some "rfca"%string /\ exists x y ph l1 l2 cs' phs',
      py_index es (Z.of_nat i - 1) = Some x /\ py_index es (Z.of_nat i + 1) = Some y /\ get h e "phase" = Some (VNum ph) /\
      get h x "L" = Some (VNum l1) /\ get h y "L" = Some (VNum l2) /\ cs = i :: cs' /\ phs = (90 - ph) :: phs' /\
      cavity_loop (cavity_edit h x y e (l1 + l2)) a (map RE es) r = (h', Ok (cs', phs')))).
Proof.
  intros h a es i r h' cs phs S H. cbn [cavity_loop] in H.
  apply bind_inv in H. destruct H as (h1 & ty & E & H). apply pure_inv in E. destruct E as [-> Ty]. apply type_ok in Ty. destruct Ty as (e & Ne & Te).
  exists e. split; [exact Ne|]. destruct (String.eqb_spec ty "rfca") as [->|Nt]; [|left; exists ty; auto]. right. split; [exact Te|].
  apply bind_inv in H. destruct H as (h1 & ph & E & H). apply pure_inv in E. destruct E as [-> Ep]. apply param_ok in Ep. destruct Ep as (e0 & P0 & G0).
  apply bind_inv in H. destruct H as (h1 & l1 & E & H). apply pure_inv in E. destruct E as [-> El1]. apply param_ok in El1. destruct El1 as (x & Px & Gx).
  apply bind_inv in H. destruct H as (h1 & l2 & E & H). apply pure_inv in E. destruct E as [-> El2]. apply param_ok in El2. destruct El2 as (y & Py & Gy).
  assert (Pe : py_index es (Z.of_nat i) = Some e).
  { unfold py_index. assert (Li : (i < List.length es)%nat) by (apply nth_error_Some; congruence).
    destruct (Z.ltb_spec (Z.of_nat i) 0); [lia|]. destruct (Z.leb_spec (Z.of_nat (List.length es)) (Z.of_nat i)); [lia|]. destruct (Z.ltb_spec (Z.of_nat i) 0); [lia|]. cbn. rewrite Nat2Z.id. exact Ne. }
  rewrite Pe in P0. injection P0 as <-.
  rewrite (edit_index h a es _ x) in H by (try assumption; discriminate). cbn [bind_run] in H.
  rewrite (edit_index _ a es _ y) in H by (try assumption; discriminate). cbn [bind_run] in H.
  rewrite (edit_index _ a es _ e) in H by (try assumption; discriminate). cbn [bind_run zip] in H.
  apply bind_inv in H. destruct H as (h1 & [cs' phs'] & E & H). injection H as <- <- <-.
  exists x, y, ph, l1, l2, cs', phs'. repeat (split; [first [assumption|reflexivity]|]). exact E.
Qed.

Definition not_l (k : string) : Prop := ~ same_name k "L".
Lemma get_set_l : forall h e v x k, not_l k -> get (set_l h e v) x k = get h x k.
Proof. intros h e v x k N. apply get_edit_key. intros k' w [E|[]]. injection E as <- _. exact N. Qed.
Definition is_cav (h : heap) (es : list nat) (i : nat) : bool :=
  match nth_error es i with Some e => match typ h e with Some t => String.eqb t "rfca" | None => false end | None => false end.
Lemma is_cav_ext : forall h h' es i, (forall e, typ h' e = typ h e) -> is_cav h' es i = is_cav h es i.
Proof. intros h h' es i H. unfold is_cav. destruct (nth_error es i); [|reflexivity]. rewrite H. reflexivity. Qed.

Lemma forall2_impl : forall {A B} (P Q : A -> B -> Prop) l m, (forall x y, P x y -> Q x y) -> Forall2 P l m -> Forall2 Q l m.
Proof. intros A B P Q l m H F. induction F; constructor; auto. Qed.
Definition phase_of (h : heap) (es : list nat) (i : nat) (q : R) : Prop := exists e ph, nth_error es i = Some e /\ get h e "phase" = Some (VNum ph) /\ q = 90 - ph.
Lemma not_l_phase : not_l "phase".
Proof. intros H. apply same_name_lower in H. discriminate H. Qed.
Lemma cavity_loop_facts : forall is h a es h' cs phs, sequence h a = Some (map RE es) -> cavity_loop h a (map RE es) is = (h', Ok (cs, phs)) ->
  lines h' = lines h /\ (forall e, typ h' e = typ h e) /\ (forall e k, not_l k -> get h' e k = get h e k) /\
  cs = filter (is_cav h es) is /\ Forall2 (phase_of h es) cs phs.
Proof.
  induction is as [|i r IH]; intros h a es h' cs phs S H.
  - cbn in H. injection H as <- <- <-. refine (conj eq_refl (conj (fun _ => eq_refl) (conj (fun _ _ _ => eq_refl) (conj eq_refl _)))). constructor.
  - destruct (cavity_cons _ _ _ _ _ _ _ _ S H) as (e & Ne & [(ty & Te & Nt & H')|(Te & x & y & ph & l1 & l2 & cs' & phs' & Px & Py & Gp & Gx & Gy & -> & -> & H')]).
    + destruct (IH _ _ _ _ _ _ S H') as (A & B & C & D & F). refine (conj A (conj B (conj C (conj _ F)))).
      cbn [filter]. replace (is_cav h es i) with false; [exact D|]. unfold is_cav. rewrite Ne, Te. symmetry. apply String.eqb_neq. exact Nt.
    + destruct (IH (cavity_edit h x y e (l1 + l2)) a es _ _ _ S H') as (A & B & C & D & F).
      assert (Tc : forall z, typ (cavity_edit h x y e (l1 + l2)) z = typ h z) by (intros z; unfold cavity_edit, set_l; rewrite !typ_edit; reflexivity).
      assert (Gc : forall z k, not_l k -> get (cavity_edit h x y e (l1 + l2)) z k = get h z k) by (intros z k N; unfold cavity_edit; rewrite !get_set_l by exact N; reflexivity).
      refine (conj A (conj _ (conj _ (conj _ _)))).
      * intros z. rewrite B. apply Tc.
      * intros z k N. rewrite C by exact N. apply Gc. exact N.
      * cbn [filter]. replace (is_cav h es i) with true by (unfold is_cav; rewrite Ne, Te; reflexivity). f_equal. rewrite D. apply filter_ext. intros j. apply is_cav_ext. exact Tc.
      * constructor; [exists e, ph; auto|]. eapply forall2_impl; [|exact F].
        intros j q (e1 & p1 & N1 & G1 & Q1). exists e1, p1. rewrite Gc in G1 by apply not_l_phase. auto.
Qed.

(* ---------------- total length ---------------- *)
Definition len (h : heap) (e : nat) : R := match get h e "L" with Some (VNum v) => v | _ => 0 end.
Definition numeric (h : heap) (e : nat) : Prop := typ h e <> None /\ forall s, get h e "L" <> Some (VStr s).
Lemma add_length_get : forall h acc e x, add_length h acc e = Ok x <-> numeric h e /\ x = acc + len h e.
Proof.
  intros h acc e x. unfold add_length, numeric, typ, len, get. destruct (nth_error (elems h) e) as [el|]; cbn.
  - destruct (agn_get (e_params el) "L") as [[v|s]|]; split; intros H.
    + injection H as <-. split; [split; [discriminate|intros s; discriminate]|reflexivity].
    + destruct H as [_ ->]. reflexivity.
    + discriminate H.
    + destruct H as [[_ H] _]. exfalso. apply (H s). reflexivity.
    + injection H as <-. split; [split; [discriminate|intros s; discriminate]|ring].
    + destruct H as [_ ->]. f_equal. ring.
  - split; [discriminate|]. intros [[H _] _]. exfalso. apply H. reflexivity.
Qed.
Lemma sum_lengths_get : forall h es acc x, sum_lengths h acc es = Ok x <-> Forall (numeric h) es /\ x = acc + total (map (len h) es).
Proof.
  intros h. induction es as [|e es IH]; intros acc x; cbn [sum_lengths map].
  - split; intros H; [injection H as <-; split; [constructor|unfold total; cbn; ring]|]. destruct H as [_ ->]. f_equal. unfold total. cbn. ring.
  - split; intros H.
    + destruct (add_length h acc e) as [y| |] eqn:E; cbn in H; try discriminate. apply add_length_get in E. destruct E as [E ->]. apply IH in H. destruct H as [H ->].
      split; [constructor; assumption|]. unfold total. cbn. ring.
    + destruct H as [H ->]. inversion H as [|? ? H1 H2]; subst. rewrite (proj2 (add_length_get h acc e (acc + len h e)) (conj H1 eq_refl)). cbn [rbind].
      apply IH. split; [exact H2|]. unfold total. cbn. ring.
Qed.
Lemma length_get : forall h a es x, sequence h a = Some (map RE es) -> length_of h a = Ok x <-> Forall (numeric h) es /\ x = total (map (len h) es).
Proof.
  intros h a es x S. unfold length_of, get_beamline_elements. unfold sequence in S. destruct (nth_error (lines h) a) as [l|]; [|discriminate]. injection S as S.
  rewrite S, flatten_elems. cbn [rbind]. rewrite sum_lengths_get. rewrite Rplus_0_l. reflexivity.
Qed.

Lemma total_put : forall (f g : nat -> R) es x, NoDup es -> In x es -> (forall z, In z es -> z <> x -> g z = f z) -> total (map g es) = total (map f es) - f x + g x.
Proof.
  intros f g. induction es as [|e es IH]; intros x N I E; [destruct I|]. inversion N as [|? ? N1 N2]; subst. unfold total in *. cbn [map fold_right].
  destruct I as [->|I].
  - replace (fold_right Rplus 0 (map g es)) with (fold_right Rplus 0 (map f es)); [ring|]. f_equal. apply map_ext_in. intros z J. symmetry. apply E; [right; exact J|]. intros ->. contradiction.
  - rewrite (IH x N2 I) by (intros z J; apply E; right; exact J). rewrite (E e); [ring|left; reflexivity|]. intros ->. contradiction.
Qed.
Lemma len_set_same : forall h e v, typ h e <> None -> len (set_l h e v) e = v.
Proof.
  intros h e v T. unfold len, set_l. rewrite (get_edit_same h e _ "L" (VNum v) T); [reflexivity|]. apply (lv_some _ []); [apply same_name_lower; reflexivity|intros ? ? []].
Qed.
Lemma len_set_other : forall h e v x, x <> e -> len (set_l h e v) x = len h x.
Proof. intros h e v x N. unfold len, set_l. rewrite get_edit_other by exact N. reflexivity. Qed.
Lemma numeric_set : forall h e v x, numeric h x -> numeric (set_l h e v) x.
Proof.
  intros h e v x [A B]. split; [unfold set_l; rewrite typ_edit; exact A|]. intros s. destruct (Nat.eq_dec x e) as [->|N].
  - unfold set_l. rewrite (get_edit_same h e _ "L" (VNum v) A); [discriminate|]. apply (lv_some _ []); [apply same_name_lower; reflexivity|intros ? ? []].
  - unfold set_l. rewrite get_edit_other by exact N. apply B.
Qed.
Lemma total_set : forall h es e v, NoDup es -> In e es -> typ h e <> None -> total (map (len (set_l h e v)) es) = total (map (len h) es) - len h e + v.
Proof.
  intros h es e v N I T. rewrite (total_put (len h) (len (set_l h e v)) es e N I); [rewrite len_set_same by exact T; reflexivity|].
  intros z _ D. apply len_set_other. exact D.
Qed.

Lemma py_index_nth : forall (es : list nat) i x, py_index es i = Some x ->
  exists k, nth_error es k = Some x /\ Z.of_nat k = (if (i <? 0)%Z then i + Z.of_nat (List.length es) else i)%Z.
Proof.
  intros es i x H. unfold py_index in H. destruct ((if (i <? 0)%Z then (i + Z.of_nat (List.length es))%Z else i) <? 0)%Z eqn:E1; [discriminate H|].
  destruct (Z.of_nat (List.length es) <=? (if (i <? 0)%Z then (i + Z.of_nat (List.length es))%Z else i))%Z eqn:E2; [discriminate H|]. cbn [orb] in H.
  exists (Z.to_nat (if (i <? 0)%Z then (i + Z.of_nat (List.length es))%Z else i)). split; [exact H|]. rewrite Z2Nat.id; [reflexivity|]. apply Z.ltb_ge in E1. lia.
Qed.
Lemma neighbours_differ : forall (es : list nat) i x e y, NoDup es -> (3 <= List.length es)%nat -> nth_error es i = Some e ->
  py_index es (Z.of_nat i - 1) = Some x -> py_index es (Z.of_nat i + 1) = Some y -> x <> e /\ y <> e /\ x <> y.
Proof.
  intros es i x e y N L Ne Px Py. apply py_index_nth in Px, Py. destruct Px as (kx & Nx & Kx). destruct Py as (ky & Ny & Ky).
  assert (B : forall a b z w, nth_error es a = Some z -> nth_error es b = Some w -> a <> b -> z <> w).
  { intros a b z w Ha Hb D ->. apply D. rewrite NoDup_nth_error in N. apply N; [apply nth_error_Some; congruence|congruence]. }
  assert (Lx : (kx < List.length es)%nat) by (apply nth_error_Some; congruence). assert (Ly : (ky < List.length es)%nat) by (apply nth_error_Some; congruence).
  assert (Li : (i < List.length es)%nat) by (apply nth_error_Some; congruence).
  destruct (Z.ltb_spec (Z.of_nat i - 1) 0); destruct (Z.ltb_spec (Z.of_nat i + 1) 0); try lia;
  (refine (conj (B kx i _ _ Nx Ne _) (conj (B ky i _ _ Ny Ne _) (B kx ky _ _ Nx Ny _))); lia).
Qed.

Lemma cavity_loop_length : forall is h a es h' cs phs, sequence h a = Some (map RE es) -> NoDup es -> (3 <= List.length es)%nat -> NoDup is ->
  (forall i e, In i is -> nth_error es i = Some e -> typ h e = Some "rfca"%string -> len h e = 0) -> Forall (numeric h) es ->
  cavity_loop h a (map RE es) is = (h', Ok (cs, phs)) -> Forall (numeric h') es /\ total (map (len h') es) = total (map (len h) es).
Proof.
  induction is as [|i r IH]; intros h a es h' cs phs S N L Ni Z F H.
  - cbn in H. injection H as <- _ _. auto.
  - inversion Ni as [|? ? Ni1 Ni2]; subst.
    destruct (cavity_cons _ _ _ _ _ _ _ _ S H) as (e & Ne & [(ty & Te & Nt & H')|(Te & x & y & ph & l1 & l2 & cs' & phs' & Px & Py & Gp & Gx & Gy & _ & _ & H')]).
    + apply (IH h a es h' cs phs); try assumption. intros j z Ij. apply Z. right; exact Ij.
    + destruct (neighbours_differ es i x e y N L Ne Px Py) as (D1 & D2 & D3). set (h1 := cavity_edit h x y e (l1 + l2)) in *.
      assert (Ix : In x es) by (apply py_index_nth in Px; destruct Px as (k & Hk & _); apply nth_error_In in Hk; exact Hk).
      assert (Iy : In y es) by (apply py_index_nth in Py; destruct Py as (k & Hk & _); apply nth_error_In in Hk; exact Hk).
      assert (Ie : In e es) by (apply nth_error_In in Ne; exact Ne).
      assert (Tx : typ h x <> None) by (eapply get_typ; exact Gx). assert (Ty : typ h y <> None) by (eapply get_typ; exact Gy). assert (Tn : typ h e <> None) by congruence.
      assert (F1 : Forall (numeric h1) es) by (eapply Forall_impl; [|exact F]; intros z Hz; unfold h1, cavity_edit; do 3 apply numeric_set; exact Hz).
      assert (E1 : total (map (len h1) es) = total (map (len h) es)).
      { unfold h1, cavity_edit. rewrite total_set by (try assumption; unfold set_l; rewrite !typ_edit; assumption).
        rewrite total_set by (try assumption; unfold set_l; rewrite !typ_edit; assumption). rewrite total_set by assumption.
        rewrite (len_set_other (set_l h x 0)) by auto. rewrite !(len_set_other h) by auto.
        rewrite (Z i e (or_introl eq_refl) Ne Te). unfold len at 2 3. rewrite Gx, Gy. ring. }
      assert (Tc : forall z, typ h1 z = typ h z) by (intros z; unfold h1, cavity_edit, set_l; rewrite !typ_edit; reflexivity).
      destruct (IH h1 a es h' cs' phs') as [A B]; try assumption; [|split; [exact A|congruence]].
      intros j z Ij Nz Tz. rewrite Tc in Tz.
      assert (Dz : z <> e). { intros ->. assert (j = i); [|subst j; contradiction]. rewrite NoDup_nth_error in N. apply N; [apply nth_error_Some; congruence|congruence]. }
      unfold h1, cavity_edit. rewrite len_set_other by exact Dz. destruct (Nat.eq_dec z y) as [->|Dy].
      * apply len_set_same. unfold set_l. rewrite typ_edit. exact Ty.
      * rewrite len_set_other by exact Dy. destruct (Nat.eq_dec z x) as [->|Dx]; [apply len_set_same; exact Tx|]. rewrite len_set_other by exact Dx. apply (Z j z); [right; exact Ij|exact Nz|exact Tz].
Qed.

(* ---------------- phases ---------------- *)
Lemma zip_phase : forall phs k v, In (k, v) (zip (repeat "phase"%string (List.length phs)) (map VNum phs)) -> k = "phase"%string.
Proof. induction phs as [|q phs IH]; intros k v I; cbn in I; [destruct I|]. destruct I as [I|I]; [congruence|exact (IH k v I)]. Qed.
Lemma zip_app : forall phs q, zip (repeat "phase"%string (List.length (phs ++ [q]))) (map VNum (phs ++ [q])) =
  zip (repeat "phase"%string (List.length phs)) (map VNum phs) ++ [("phase"%string, VNum q)].
Proof. induction phs as [|p phs IH]; intros q; [reflexivity|]. cbn [app List.length repeat map zip]. rewrite IH. reflexivity. Qed.
Lemma phase_loop_facts : forall cs h a es phs q h', sequence h a = Some (map RE es) -> phase_loop h a (phs ++ [q]) cs = (h', Ok tt) ->
  lines h' = lines h /\ (forall e, typ h' e = typ h e) /\ (forall e k, ~ same_name k "phase" -> get h' e k = get h e k) /\
  (forall c e, In c cs -> nth_error es c = Some e -> typ h e <> None -> get h' e "phase" = Some (VNum q)) /\
  (forall e, get h e "phase" = Some (VNum q) -> get h' e "phase" = Some (VNum q)).
Proof.
  induction cs as [|c cs IH]; intros h a es phs q h' S H.
  - cbn in H. injection H as <-. refine (conj eq_refl (conj (fun _ => eq_refl) (conj (fun _ _ _ => eq_refl) (conj _ (fun _ E => E))))). intros c e [].
  - cbn [phase_loop] in H. apply bind_inv in H. destruct H as (h1 & u & E & H).
    assert (X : exists x, py_index es (Z.of_nat c) = Some x /\ h1 = edit h x (zip (repeat "phase"%string (List.length (phs ++ [q]))) (map VNum (phs ++ [q])))).
    { destruct (py_index es (Z.of_nat c)) as [x|] eqn:P.
      - exists x. split; [reflexivity|]. rewrite (edit_index h a es _ x) in E; [injection E as <- _; reflexivity|exact S|exact P|]. destruct phs; discriminate.
      - exfalso. unfold edit_by_index in E. unfold sequence in S. destruct (nth_error (lines h) a) as [l|]; [|discriminate]. injection S as S. rewrite S, py_index_map, P in E. destruct phs; discriminate E. }
    destruct X as (x & P & ->). set (pv := zip _ _) in *.
    destruct (IH (edit h x pv) a es phs q h' S H) as (A & B & C & D & Kp).
    assert (Lv : last_value "phase" pv (Some (VNum q))) by (unfold pv; rewrite zip_app; apply lv_some; [apply same_name_lower; reflexivity|intros ? ? []]).
    refine (conj A (conj _ (conj _ (conj _ _)))).
    + intros e. rewrite B. apply typ_edit.
    + intros e k N. rewrite C by exact N. apply get_edit_key. intros k' v I. apply zip_phase in I. subst k'. exact N.
    + intros c' e [<-|I] Ne Te.
      * apply Kp. assert (Exe : x = e).
        { apply py_index_nth in P. destruct P as (k & Nk & K). destruct (Z.ltb_spec (Z.of_nat c) 0); [lia|]. assert (k = c) by lia. subst k. congruence. }
        subst x. apply get_edit_same; assumption.
      * apply (D c' e I Ne). rewrite typ_edit. exact Te.
    + intros e G. apply Kp. destruct (Nat.eq_dec e x) as [->|N]; [apply get_edit_same; [eapply get_typ; exact G|exact Lv]|]. rewrite get_edit_other by exact N. exact G.
Qed.
Lemma handle_cavities_split : forall h a es h', sequence h a = Some (map RE es) -> handle_cavities h a = (h', Ok tt) ->
  exists h1 cs phs, cavity_loop h a (map RE es) (seq 0 (List.length es)) = (h1, Ok (cs, phs)) /\ phase_loop h1 a phs cs = (h', Ok tt) /\ sequence h1 a = Some (map RE es).
Proof.
  intros h a es h' S H. unfold handle_cavities in H. assert (S' := S). unfold sequence in S. destruct (nth_error (lines h) a) as [l|]; [|discriminate]. injection S as S.
  rewrite S in H. rewrite map_length in H. apply bind_inv in H. destruct H as (h1 & [cs phs] & E & H). exists h1, cs, phs. refine (conj E (conj H _)).
  destruct (cavity_loop_facts _ _ _ _ _ _ _ S' E) as (A & _). unfold sequence in *. rewrite A. exact S'.
Qed.
Lemma cavities_length : forall h a es x h', sequence h a = Some (map RE es) -> NoDup es -> (3 <= List.length es)%nat ->
  (forall e v, In e es -> has_type h e "rfca" -> has_number h e "L" v -> v = 0) -> length_of h a = Ok x -> handle_cavities h a = (h', Ok tt) ->
  sequence h' a = Some (map RE es) /\ length_of h' a = Ok x.
Proof.
  intros h a es x h' S N L Z Hx H. destruct (handle_cavities_split h a es h' S H) as (h1 & cs & phs & E1 & E2 & S1).
  destruct (proj1 (length_get h a es x S) Hx) as [F ->].
  destruct (cavity_loop_length (seq 0 (List.length es)) h a es h1 cs phs S N L (seq_NoDup _ _)) as [F1 T1]; [|exact F|exact E1|].
  { intros i e _ Ne Te. unfold len. destruct (get h e "L") as [[v|s]|] eqn:G; try reflexivity. apply (Z e v).
    - apply nth_error_In in Ne. exact Ne.
    - unfold typ in Te. unfold has_type, element_at. destruct (nth_error (elems h) e) as [el|]; [|discriminate]. injection Te as Te. exists el. auto.
    - unfold get in G. unfold has_number, element_at. destruct (nth_error (elems h) e) as [el|]; [|discriminate]. exists el. auto. }
  destruct (cavity_loop_facts _ _ _ _ _ _ _ S E1) as (_ & _ & _ & _ & Fp).
  destruct phs as [|q phs] using rev_ind.
  - inversion Fp; subst. cbn in E2. injection E2 as <-. split; [exact S1|]. apply (length_get h1 a es _ S1). split; [exact F1|congruence].
  - clear IHphs. destruct (phase_loop_facts _ _ _ _ _ _ _ S1 E2) as (A & B & C & _).
    assert (S2 : sequence h' a = Some (map RE es)) by (unfold sequence in *; rewrite A; exact S1). split; [exact S2|].
    assert (G : forall e, get h' e "L" = get h1 e "L") by (intros e; apply C; intros X; apply same_name_lower in X; discriminate X).
    apply (length_get h' a es _ S2). split.
    + eapply Forall_impl; [|exact F1]. intros e [X Y]. split; [rewrite B; exact X|intros s; rewrite G; apply Y].
    + rewrite <- T1. f_equal. apply map_ext. intros e. unfold len. rewrite G. reflexivity.
Qed.
Lemma filter_none : forall {A} (f : A -> bool) l, (forall j, In j l -> f j = false) -> filter f l = [].
Proof. induction l as [|x l IH]; intros H; [reflexivity|]. cbn. rewrite (H x) by (left; reflexivity). apply IH. intros j J. apply H. right; exact J. Qed.
Lemma cavities_phase : forall h a pre c post ph h', sequence h a = Some (map RE (pre ++ c :: post)) ->
  has_type h c "rfca" -> (forall e, In e post -> ~ has_type h e "rfca") -> has_number h c "phase" ph -> handle_cavities h a = (h', Ok tt) ->
  forall e, In e (pre ++ c :: post) -> has_type h e "rfca" -> has_number h' e "phase" (90 - ph).
Proof.
  intros h a pre c post ph h' S Tc Np Gc H e I Te. set (es := pre ++ c :: post) in *.
  destruct (handle_cavities_split h a es h' S H) as (h1 & cs & phs & E1 & E2 & S1).
  destruct (cavity_loop_facts _ _ _ _ _ _ _ S E1) as (_ & B & _ & Ec & Fp).
  assert (Tt : forall x, has_type h x "rfca" -> typ h x = Some "rfca"%string).
  { intros x (el & X & Y). unfold typ. unfold element_at in X. rewrite X. cbn. congruence. }
  (* the last cavity *)
  assert (Last : exists cs0, cs = cs0 ++ [List.length pre]).
  { rewrite Ec. unfold es. rewrite app_length. cbn [List.length]. rewrite seq_app, filter_app. cbn [seq filter Nat.add].
    assert (X : is_cav h (pre ++ c :: post) (List.length pre) = true).
    { unfold is_cav. rewrite nth_error_app2 by lia. rewrite Nat.sub_diag. cbn. rewrite (Tt c Tc). reflexivity. }
    rewrite X. assert (Y : filter (is_cav h (pre ++ c :: post)) (seq (Datatypes.S (List.length pre)) (List.length post)) = []).
    { apply filter_none. intros j J1. apply in_seq in J1. destruct (is_cav h (pre ++ c :: post) j) eqn:J2; [|reflexivity]. exfalso. unfold is_cav in J2. rewrite nth_error_app2 in J2 by lia. destruct (j - List.length pre)%nat as [|k] eqn:K; [lia|]. cbn in J2.
      destruct (nth_error post k) as [z|] eqn:Nz; [|discriminate]. apply nth_error_In in Nz. apply (Np z Nz). unfold typ in J2. unfold has_type, element_at.
      destruct (nth_error (elems h) z) as [el|]; [|discriminate]. cbn in J2. apply String.eqb_eq in J2. exists el. auto. }
    rewrite Y. eexists. reflexivity. }
  apply In_nth_error in I. destruct I as (j & Nj).
  assert (Mem : In j cs).
  { rewrite Ec. apply filter_In. split.
    - apply in_seq. assert (j < List.length es)%nat by (apply nth_error_Some; congruence). lia.
    - unfold is_cav. rewrite Nj, (Tt e Te). reflexivity. }
  destruct Last as (cs0 & Ecs). rewrite Ecs in Fp.
  apply Forall2_app_inv_l in Fp. destruct Fp as (p0 & p1 & F0 & F1 & ->). inversion F1 as [|? q ? ? Fq Fn]; subst. inversion Fn; subst.
  destruct Fq as (c' & ph' & Nc & Gp & ->). unfold es in Nc. rewrite nth_error_app2 in Nc by lia. rewrite Nat.sub_diag in Nc. cbn in Nc. injection Nc as <-.
  destruct Gc as (el & Xe & Ge). unfold get in Gp. unfold element_at in Xe. rewrite Xe, Ge in Gp. injection Gp as <-.
  destruct (phase_loop_facts _ _ _ _ _ _ _ S1 E2) as (_ & _ & _ & D & _).
  assert (Gj : get h' e "phase" = Some (VNum (90 - ph))).
  { apply (D j e); [exact Mem|exact Nj|rewrite B, (Tt e Te); discriminate]. }
  unfold get in Gj. unfold has_number, element_at. destruct (nth_error (elems h') e) as [el'|]; [|discriminate]. exists el'. auto.
Qed.

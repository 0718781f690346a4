(** * Claim C147: sequences of component edits. *)
From Coq Require Import List Reals Lra Lia Bool Arith ZArith.
From Verif Require Import PyBase Stats_Model Stats_Spec Twiss_Model Match_Model Match_Props Linear_Props.
Import ListNotations.
Open Scope R_scope.

(* ------------------------------------------------------------------ *)
(** ** Specification *)
(** Calls of offset_component and multiply_component, with any component, also one that does not exist *)
Definition component_edit (e : edit) : Prop := match e with Match _ _ _ => False | _ => True end.
(** The edits of one component, in order *)
Definition concerns (j : nat) (e : edit) : bool := match e with Match _ _ _ => false | Offset _ i | Multiply _ i => Z.eqb i (Z.of_nat j) end.
Definition edits_of (j : nat) (es : list edit) : list edit := filter (concerns j) es.
(** What they make of one number *)
Definition edited (v : R) (e : edit) : R := match e with Match _ _ _ => v | Offset x _ => v + x | Multiply x _ => v * x end.
Definition all_edited (es : list edit) (v : R) : R := fold_left edited es v.
(** The product of the factors *)
Definition factor (e : edit) : R := match e with Multiply x _ => x | _ => 1 end.
Definition factors (es : list edit) : R := fold_right Rmult 1 (map factor es).

(* ------------------------------------------------------------------ *)
(** ** Proofs *)
Lemma one_edit : forall b e, component_edit e -> List.length (fst (do_edit b e)) = List.length b /\
  forall j, (j < 6)%nat -> row (fst (do_edit b e)) j = if concerns j e then map (fun v => edited v e) (row b j) else row b j.
Proof.
  intros b e C. destruct e as [ox oy oz|x i|x i]; [destruct C| |]; destruct (C112_component_edits b x i) as [H1 H2];
    (destruct (Z_le_dec 0 i) as [P|P]; [destruct (Z_le_dec i 5) as [Q|Q]|]).
  - destruct (H2 (conj P Q)) as [(b' & -> & L & R) _]. cbn [fst concerns edited]. split; [exact L|]. intros j _. rewrite R, Z.eqb_sym. reflexivity.
  - destruct (H1 ltac:(lia)) as [-> _]. cbn [fst concerns]. split; [reflexivity|]. intros j J. destruct (Z.eqb_spec i (Z.of_nat j)); [lia|reflexivity].
  - destruct (H1 ltac:(lia)) as [-> _]. cbn [fst concerns]. split; [reflexivity|]. intros j J. destruct (Z.eqb_spec i (Z.of_nat j)); [lia|reflexivity].
  - destruct (H2 (conj P Q)) as [_ (b' & -> & L & R)]. cbn [fst concerns edited]. split; [exact L|]. intros j _. rewrite R, Z.eqb_sym. reflexivity.
  - destruct (H1 ltac:(lia)) as [_ ->]. cbn [fst concerns]. split; [reflexivity|]. intros j J. destruct (Z.eqb_spec i (Z.of_nat j)); [lia|reflexivity].
  - destruct (H1 ltac:(lia)) as [_ ->]. cbn [fst concerns]. split; [reflexivity|]. intros j J. destruct (Z.eqb_spec i (Z.of_nat j)); [lia|reflexivity].
Qed.
Lemma next_edit : forall b e es, fst (do_edits b (e :: es)) = fst (do_edits (fst (do_edit b e)) es).
Proof. intros b e es. cbn [do_edits]. destruct (do_edit b e) as [b1 r]. cbn [fst]. destruct (do_edits b1 es). reflexivity. Qed.
Lemma affine : forall l, exists s, forall v, all_edited l v = factors l * v + s.
Proof.
  induction l as [|e l [s IH]]; [exists 0; intros v; unfold all_edited, factors; cbn; ring|]. exists (factors l * edited 0 e + s). intros v.
  change (all_edited (e :: l) v) with (all_edited l (edited v e)). rewrite IH. unfold factors. destruct e; cbn [map fold_right factor edited]; ring.
Qed.
Lemma same_rows : forall b b' : beam, List.length b = 6%nat -> List.length b' = 6%nat -> (forall j, (j < 6)%nat -> row b j = row b' j) -> b = b'.
Proof. intros b b' L L' H. apply (nth_ext b b' [] []); [congruence|]. intros n Hn. apply H. lia. Qed.

(* ------------------------------------------------------------------ *)
(** ** Theorems *)
(** After any calls every component holds its numbers edited by its own calls in their order. *)
Theorem C147_history : forall es b, List.length b = 6%nat -> Forall component_edit es ->
  List.length (fst (do_edits b es)) = 6%nat /\
  forall j, (j < 6)%nat -> row (fst (do_edits b es)) j = map (all_edited (edits_of j es)) (row b j).
Proof.
  induction es as [|e es IH]; intros b L F.
  - split; [exact L|]. intros j _. cbn. symmetry. apply map_id.
  - inversion F as [|? ? C F']; subst. destruct (one_edit b e C) as [L1 R1]. rewrite next_edit. rewrite L in L1.
    destruct (IH _ L1 F') as [L2 R2]. split; [exact L2|]. intros j J. rewrite (R2 j J), (R1 j J). unfold edits_of. cbn [filter].
    destruct (concerns j e); [|reflexivity]. rewrite map_map. reflexivity.
Qed.
Print Assumptions C147_history.
(** The effect on a component is a factor, the product of the factors given for it, and a shift. *)
Theorem C147_affine : forall es b j, List.length b = 6%nat -> Forall component_edit es -> (j < 6)%nat ->
  exists shift, row (fst (do_edits b es)) j = map (fun v => factors (edits_of j es) * v + shift) (row b j).
Proof.
  intros es b j L F J. destruct (C147_history es b L F) as [_ H]. rewrite (H j J).
  destruct (affine (edits_of j es)) as [s As]. exists s. apply map_ext. exact As.
Qed.
Print Assumptions C147_affine.
(** Only the order of the calls for the same component matters. *)
Theorem C147_order : forall es es' b, List.length b = 6%nat -> Forall component_edit es -> Forall component_edit es' ->
  (forall j, (j < 6)%nat -> edits_of j es = edits_of j es') -> fst (do_edits b es) = fst (do_edits b es').
Proof.
  intros es es' b L F F' E. destruct (C147_history es b L F) as [L1 R1]. destruct (C147_history es' b L F') as [L2 R2].
  apply same_rows; [exact L1|exact L2|]. intros j J. rewrite (R1 j J), (R2 j J), (E j J). reflexivity.
Qed.
Print Assumptions C147_order.
(** The centroid is edited like every particle; variances and covariances are multiplied by the factors. *)
Theorem C147_moments : forall es N b i j, is_beam N b -> (0 < N)%nat -> Forall component_edit es -> (i < 6)%nat -> (j < 6)%nat ->
  let b' := fst (do_edits b es) in is_beam N b' /\ mean (row b' i) = all_edited (edits_of i es) (mean (row b i)) /\
  covariance (row b' i) (row b' j) = factors (edits_of i es) * factors (edits_of j es) * covariance (row b i) (row b j).
Proof.
  intros es N b i j [L Rows] Np F I J b'. destruct (C147_history es b L F) as [L' H]. fold b' in L', H.
  assert (Len : forall k, (k < 6)%nat -> List.length (row b k) = N).
  { intros k K. rewrite Forall_forall in Rows. apply Rows. apply nth_In. lia. }
  assert (Ne : forall k f, (k < 6)%nat -> map (fun v => f * v) (row b k) <> []).
  { intros k f K Q. apply (f_equal (@List.length R)) in Q. rewrite map_length, (Len k K) in Q. cbn in Q. lia. }
  assert (Sp : forall k, (k < 6)%nat -> exists t, (forall v, all_edited (edits_of k es) v = factors (edits_of k es) * v + t) /\
    row b' k = map (fun v => v + t) (map (fun v => factors (edits_of k es) * v) (row b k))).
  { intros k K. destruct (affine (edits_of k es)) as [t T]. exists t. split; [exact T|]. rewrite (H k K), map_map. apply map_ext. exact T. }
  destruct (Sp i I) as (t & T & Ri). destruct (Sp j J) as (u & U & Rj). split; [|split].
  - split; [exact L'|]. apply Forall_forall. intros r In_r. apply (In_nth _ _ []) in In_r. destruct In_r as (k & K & <-). rewrite L' in K. change (List.length (row b' k) = N).
    rewrite (H k K), map_length. exact (Len k K).
  - rewrite Ri, mean_shift by (apply Ne; exact I). rewrite mean_times, T. reflexivity.
  - rewrite Ri, Rj, cov_shift by (apply Ne; assumption). apply cov_times.
Qed.
Print Assumptions C147_moments.
(** Edits can be undone: the opposite edits in the opposite order bring the beam back. *)
Definition opposite (e : edit) : edit := match e with Match a b c => Match a b c | Offset x i => Offset (- x) i | Multiply x i => Multiply (/ x) i end.
Theorem C147_undone : forall es b, List.length b = 6%nat -> Forall component_edit es -> Forall (fun e => factor e <> 0) es ->
  fst (do_edits b (es ++ rev (map opposite es))) = b.
Proof.
  intros es b L F N.
  assert (F2 : Forall component_edit (es ++ rev (map opposite es))).
  { apply Forall_app. split; [exact F|]. apply Forall_rev. rewrite Forall_forall in *. intros e I. apply in_map_iff in I. destruct I as (e0 & <- & I). specialize (F _ I). now destruct e0. }
  destruct (C147_history _ b L F2) as [L1 R1]. apply same_rows; [exact L1|exact L|]. intros j J. rewrite (R1 j J).
  rewrite <- (map_id (row b j)) at 2. apply map_ext. intros v. unfold edits_of. clear - N F.
  revert v. induction es as [|e es IH]; intros v; [reflexivity|]. inversion N as [|? ? Ne N']; subst. inversion F as [|? ? Fe F']; subst.
  cbn [map rev]. rewrite app_assoc. change ((e :: es) ++ rev (map opposite es)) with (e :: (es ++ rev (map opposite es))). cbn [app filter].
  rewrite filter_app. cbn [filter]. assert (Q : concerns j (opposite e) = concerns j e) by now destruct e.
  rewrite Q. destruct (concerns j e).
  - unfold all_edited in *. cbn [fold_left]. rewrite fold_left_app. rewrite IH by assumption. cbn [fold_left]. destruct e; [destruct Fe| |]; cbn in *; [ring|field; exact Ne].
  - rewrite app_nil_r. apply IH; assumption.
Qed.
Print Assumptions C147_undone.

(** x shifted and stretched, s stretched, a seventh component refused *)
Example C147_applies : let b := [[1; 2]; [0; 0]; [3; 4]; [0; 0]; [5; 6]; [1; 1]] in let es := [Offset 2 0; Multiply 3 4; Multiply 5 0; Offset 1 7] in
  List.length b = 6%nat /\ Forall component_edit es /\ Forall (fun e => factor e <> 0) es /\
  edits_of 0 es = [Offset 2 0; Multiply 5 0] /\ row (fst (do_edits b es)) 0 = [(1 + 2) * 5; (2 + 2) * 5] /\ row (fst (do_edits b es)) 4 = [5 * 3; 6 * 3].
Proof.
  intros b es. split; [reflexivity|]. split; [repeat constructor|]. split; [repeat (apply Forall_cons; [cbn; lra|]); apply Forall_nil|]. repeat split; reflexivity.
Qed.

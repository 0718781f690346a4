(** Lemmas for the SDDS claims: ASCII pages. *)
From Coq Require Import List Bool Arith Ascii String ZArith Reals Lia Lra.
From Verif Require Import PyBase PyText Lte_Spec Sdds_Model Sdds_Spec Sdds_Proofs Sdds_Proofs2 Sdds_Proofs3 Sdds_Proofs4 Sdds_Proofs5 Sdds_Proofs6 Sdds_Proofs7.
Import ListNotations.
Open Scope Z_scope.

(* ------------------------------------------------------------------ *)
(** Lines *)
Lemma flines_cons : forall s a l, flines s = a :: l -> exists t, s = a ++ t /\ flines t = l.
Proof.
  induction s as [|c s IH]; intros a l E; [discriminate|]. cbn [flines] in E. destruct (Ascii.eqb c newline).
  - injection E as <- <-. exists s. split; reflexivity.
  - destruct (flines s) as [|b m] eqn:F.
    + injection E as <- <-. destruct s as [|d s]; [exists []; split; reflexivity|]. destruct (flines_head d s) as [x [y H]]. rewrite H in F. discriminate.
    + injection E as <- <-. destruct (IH b m eq_refl) as [t [-> T]]. exists t. split; [reflexivity|assumption].
Qed.
Lemma flines_suffix : forall A s B, flines s = A ++ B -> exists u, s = List.concat A ++ u /\ flines u = B.
Proof.
  induction A as [|a A IH]; intros s B E; [exists s; split; [reflexivity|exact E]|]. cbn [app] in E. destruct (flines_cons _ _ _ E) as [t [-> T]].
  destruct (IH t B T) as [u [-> U]]. exists u. cbn. rewrite <- app_assoc. split; [reflexivity|assumption].
Qed.
Lemma flines_lines : forall ls s, Forall (fun l => ~ In newline l) ls -> flines (List.concat (map (fun l => l ++ [newline]) ls) ++ s) = map (fun l => l ++ [newline]) ls ++ flines s.
Proof.
  induction ls as [|l ls IH]; intros s F; [reflexivity|]. inversion F as [|? ? N F']; subst. cbn [map List.concat]. rewrite <- !app_assoc. cbn [app].
  rewrite flines_line by assumption. now rewrite IH.
Qed.

(** The lines ahead of the reader *)
Definition alines (src : source) (position : Z) (L : list text) : Prop :=
  match src with
  | Lines ls => 0 <= position /\ skipn (Z.to_nat position) ls = L
  | File f ptr => position = 0 /\ 0 <= ptr <= Z.of_nat (List.length f) /\ flines (skipn (Z.to_nat ptr) f) = L
  | Bytes _ => False
  end.

(** a line means the words ws, as a whole or split *)
Definition means (whole : bool) (l : text) (ws : list text) : Prop := line_values whole l = ws /\ ws <> [].

Lemma take_rows_means : forall whole n A wss B, Forall2 (means whole) A wss -> Forall (fun ws => List.length ws = n) wss ->
  take_rows whole n (Some (List.length A)) (A ++ B) = (wss, false, B).
Proof.
  intros whole n A wss B F. induction F as [|l ws A wss [M N] F IH]; intros L; [now destruct B|]. pose proof (Forall_inv L) as L1. pose proof (Forall_inv_tail L) as L2. cbn beta in L1.
  cbn [app take_rows List.length]. rewrite M. destruct ws as [|w ws']; [contradiction|]. pose proof (proj2 (Nat.eqb_eq _ _) L1) as LE. cbn [List.length] in LE. rewrite LE. cbn [option_map pred]. rewrite IH by assumption. reflexivity.
Qed.
(** names that are left alone *)
Lemma drop_uws_id : forall s, (forall c, In c s -> is_uws c = false) -> drop_uws s = s.
Proof. intros [|c s] H; [reflexivity|]. cbn. now rewrite (H c (or_introl eq_refl)). Qed.
Lemma clean_kept : forall n, kept_name n -> clean_name n = n.
Proof.
  intros n [N [C _]]. unfold clean_name. rewrite (drop_uws_id n) by (intros c I; now apply C). rewrite (drop_uws_id (rev n)) by (intros c I; apply in_rev in I; now apply C). rewrite rev_involutive.
  unfold remove1. clear N. induction n as [|c n IH]; [reflexivity|]. destruct (C c (or_introl eq_refl)) as [U Q]. cbn [map filter].
  destruct (Ascii.eqb_spec c " "%char) as [->|_]; [discriminate|]. destruct (Ascii.eqb_spec c dquote) as [->|_]; [now elim Q|]. cbn [negb]. rewrite IH; [reflexivity|]. intros d I. apply C. now right.
Qed.
Lemma filter_none : forall (A : Type) (f : A -> bool) l, (forall x, In x l -> f x = false) -> filter f l = [].
Proof. induction l as [|x l IH]; intros H; [reflexivity|]. cbn. rewrite (H x (or_introl eq_refl)). apply IH. intros y I. apply H. now right. Qed.
Lemma validate_kept : forall names ns seen e, Forall kept_name ns -> NoDup ns -> (forall n, In n ns -> ~ In n seen) -> validate names seen e ns = ns.
Proof.
  intros names. induction ns as [|n ns IH]; intros seen e K D S; [reflexivity|]. pose proof (Forall_inv K) as K1. pose proof (Forall_inv_tail K) as K2. inversion D as [|? ? D1 D2]; subst.
  cbn [validate]. rewrite (clean_kept n K1). destruct K1 as [N [_ [R1 [R2 R3]]]].
  assert (E : existsb (teqb n) reserved = false) by (cbn [reserved existsb]; now rewrite !teqb_neq by assumption).
  destruct n as [|c n]; [contradiction|]. rewrite E. rewrite filter_none.
  - cbn [List.length]. f_equal. apply IH; [assumption|assumption|]. intros m I [<-|J]; [contradiction|]. exact (S m (or_intror I) J).
  - intros x I. apply teqb_neq. intros E0. apply (S (c :: n) (or_introl eq_refl)). now rewrite E0.
Qed.
Lemma valid_kept : forall ns, Forall kept_name ns -> NoDup ns -> valid_names ns = ns.
Proof. intros ns K D. apply validate_kept; [assumption|assumption|]. intros n _ []. Qed.
Lemma size_nodup : forall g z, dtype_size g = Ok z -> NoDup (map fst g).
Proof.
  intros g z H. unfold dtype_size in H. destruct (distinct (map fst g)) eqn:D; [|discriminate]. clear H. induction (map fst g) as [|n ns IH]; [constructor|]. cbn [distinct] in D. apply andb_true_iff in D. destruct D as [D1 D2].
  constructor; [|auto]. intros I. apply negb_true_iff in D1. rewrite <- not_true_iff_false in D1. apply D1. apply existsb_exists. exists n. split; [assumption|apply teqb_refl].
Qed.
Lemma genfromtxt_means : forall whole lines skip g n A wss B vs z, (0 <= skip)%Z -> skipn (Z.to_nat skip) lines = A ++ B ->
  dtype_size g = Ok z -> Forall kept_name (map fst g) ->
  Forall2 (means whole) A wss -> Forall (fun ws => List.length ws = n) wss -> A <> [] -> (List.length g = 1%nat -> n = 1%nat) ->
  convert_rows (Nat.eqb (List.length g) 1) g wss = Ok vs -> genfromtxt whole lines skip g (Some (Z.of_nat (List.length A))) = Ok ({| a_names := map fst g; a_rows := vs |}, B).
Proof.
  intros whole lines skip g n A wss B vs z S E DS KN F L NE G C. unfold genfromtxt.
  assert (NL : (0 < List.length A)%nat) by (destruct A; [contradiction|cbn; lia]).
  replace (Z.of_nat (List.length A) <? 1) with false by (symmetry; apply Z.ltb_ge; lia). rewrite DS. cbn [rbind]. pose proof (size_nodup g z DS) as ND. rewrite (valid_kept _ KN ND), distinct_nodup by assumption. cbn [negb]. rewrite E.
  assert (FV : first_values whole (A ++ B) = Some n).
  { destruct F as [|l ws A wss [M N] F]; [contradiction|]. pose proof (Forall_inv L) as L1. cbn beta in L1. cbn [app first_values]. rewrite M, <- L1. destruct ws; [contradiction|reflexivity]. }
  rewrite FV. cbn [option_map]. rewrite Nat2Z.id. rewrite (take_rows_means whole n A wss B F L). cbn [orb].
  replace (Nat.eqb (List.length g) 1 && negb (Nat.eqb n 1)) with false.
  2: { destruct (Nat.eqb_spec (List.length g) 1) as [X|X]; [|reflexivity]. rewrite (G X). reflexivity. }
  rewrite C. reflexivity.
Qed.

Lemma fetch_lines : forall single whole src position g n A wss B vs z, alines src position (A ++ B) -> dtype_size g = Ok z -> Forall kept_name (map fst g) ->
  Forall2 (means whole) A wss -> Forall (fun ws => List.length ws = n) wss -> A <> [] -> (List.length g = 1%nat -> n = 1%nat) ->
  convert_rows (Nat.eqb (List.length g) 1) g wss = Ok vs -> (single = true -> List.length A = 1%nat) ->
  exists src' position', fetch true single whole src position g (Some (Z.of_nat (List.length A))) = Ok ({| a_names := map fst g; a_rows := vs |}, src', position') /\
    buffered src' = buffered src /\ ((single = true \/ buffered src = false) -> alines src' position' B) /\
    (B = [] -> buffered src = true -> file_end src' position' = true).
Proof.
  intros single whole src position g n A wss B vs z AL DS KN F L NE G C SI. destruct src as [f|ls|f ptr]; cbn [alines] in AL; [contradiction| |].
  - destruct AL as [P E]. cbn [fetch]. rewrite (genfromtxt_means whole ls position g n A wss B vs z P E DS KN F L NE G C). cbn [rbind a_rows].
    eexists _, _. split; [reflexivity|]. split; [reflexivity|].
    assert (LEN : List.length ls = (Z.to_nat position + List.length A + List.length B)%nat \/ (Z.to_nat position > List.length ls)%nat).
    { apply (f_equal (@List.length text)) in E. rewrite skipn_length, app_length in E. destruct A; [contradiction|]. cbn in E |- *. lia. }
    assert (LEN' : List.length ls = (Z.to_nat position + List.length A + List.length B)%nat).
    { destruct LEN as [X|X]; [exact X|]. apply (f_equal (@List.length text)) in E. rewrite skipn_length, app_length in E. destruct A; [contradiction|]. cbn in E. lia. }
    split.
    + intros [S|S]; [|discriminate]. rewrite S. cbn [alines]. split; [lia|]. replace (Z.to_nat (position + 1)) with (Z.to_nat position + 1)%nat by lia.
      rewrite skipn_plus, E. specialize (SI S). destruct A as [|a [|b A]]; try discriminate. reflexivity.
    + intros -> _. cbn [file_end]. apply Z.leb_le. cbn in LEN'. destruct single.
      * specialize (SI eq_refl). lia.
      * lia.
  - destruct AL as [P0 [P E]]. cbn [fetch]. rewrite P0.
    rewrite (genfromtxt_means whole (flines (skipn (Z.to_nat ptr) f)) 0 g n A wss B vs z ltac:(lia) E DS KN F L NE G C). cbn [rbind].
    destruct (flines_suffix A _ B E) as [u [U1 U2]]. eexists _, _. split; [reflexivity|]. split; [reflexivity|].
    assert (CB : List.concat B = u) by (rewrite <- U2; apply concat_flines). rewrite CB.
    assert (LU : (List.length (List.concat A) + List.length u = List.length f - Z.to_nat ptr)%nat).
    { apply (f_equal (@List.length ascii)) in U1. rewrite skipn_length, app_length in U1. lia. }
    split.
    + intros _. cbn [alines]. split; [reflexivity|]. split; [lia|].
      replace (Z.to_nat (Z.of_nat (List.length f) - Z.of_nat (List.length u))) with (Z.to_nat ptr + List.length (List.concat A))%nat by lia.
      rewrite skipn_plus, U1, skipn_app, skipn_all, Nat.sub_diag. exact U2.
    + discriminate.
Qed.

(* ------------------------------------------------------------------ *)
(** What a line means *)
Lemma partition_none : forall t, ~ In "!"%char t -> fst (fst (partition1 "!" t)) = t.
Proof. intros t N. now rewrite partition1_none. Qed.
Lemma drop_strip_id : forall s, is_strip (List.hd "x"%char s) = false -> drop_strip s = s.
Proof. intros [|c s] H; [reflexivity|]. cbn in *. now rewrite H. Qed.
Lemma not_strip : forall c, c <> " "%char -> c <> newline -> c <> cr -> is_strip c = false.
Proof.
  intros c A B C. unfold is_strip. destruct (Ascii.eqb_spec c " "%char) as [->|_]; [contradiction|]. destruct (Ascii.eqb_spec c newline) as [->|_]; [contradiction|].
  destruct (Ascii.eqb_spec c (ascii_of_nat 13)) as [->|_]; [now elim C|]. reflexivity.
Qed.
Definition nl (b : bool) : text := if b then [newline] else [].
Lemma strip_text : forall t (b : bool), t <> [] -> is_strip (List.hd "x"%char t) = false -> is_strip (last t "x"%char) = false -> strip_line (t ++ nl b) = t.
Proof.
  intros t b N H L. unfold strip_line. rewrite (drop_strip_id (t ++ nl b)) by (destruct t; [contradiction|exact H]).
  rewrite rev_app_distr. assert (D : forall s, s = rev t -> drop_strip s = s).
  { intros s ->. apply drop_strip_id. rewrite hd_rev. exact L. }
  destruct b; cbn [nl rev app].
  - change (drop_strip (newline :: rev t)) with (drop_strip (rev t)). rewrite D by reflexivity. apply rev_involutive.
  - rewrite D by reflexivity. apply rev_involutive.
Qed.
Lemma in_last : forall (t : text) d, t <> [] -> In (last t d) t.
Proof. intros t d N. destruct (exists_last N) as [r [c E]]. rewrite E, last_last. apply in_or_app. right. now left. Qed.
Lemma in_hd : forall (t : text) d, t <> [] -> In (List.hd d t) t.
Proof. intros [|c t] d N; [contradiction|now left]. Qed.
Lemma line_means : forall t b, line_text t -> means true (t ++ nl b) [t].
Proof.
  intros t b [N [C [H L]]]. split; [|discriminate]. unfold line_values. rewrite partition_none.
  - rewrite strip_text; auto.
    + destruct t; [contradiction|reflexivity].
    + destruct (C _ (in_hd t "x"%char N)) as [_ [X Y]]. now apply not_strip.
    + destruct (C _ (in_last t "x"%char N)) as [_ [X Y]]. now apply not_strip.
  - intros I. apply in_app_or in I. destruct I as [I|I]; [destruct (C _ I) as [X _]; now apply X|]. destruct b; [destruct I as [I|[]]; discriminate|contradiction].
Qed.
Lemma uwords_join : forall ws, ws <> [] -> Forall word_text ws -> uwords (join [space] ws) = ws.
Proof.
  assert (G : forall w cur s, (forall c, In c w -> is_uws c = false) -> uwords_aux cur (w ++ s) = uwords_aux (rev w ++ cur) s).
  { induction w as [|c w IH]; intros cur s H; [reflexivity|]. cbn [app uwords_aux]. rewrite H by (now left). rewrite IH by (intros; apply H; now right). cbn. now rewrite <- app_assoc. }
  intros ws N F. unfold uwords. induction F as [|w ws [W1 W2] F IH]; [contradiction|]. destruct ws as [|w' ws].
  - cbn [join]. rewrite <- (app_nil_r w) at 1. rewrite G by (intros; now apply W2). rewrite app_nil_r. cbn [uwords_aux].
    destruct (rev w) eqn:E; [apply (f_equal (@rev ascii)) in E; rewrite rev_involutive in E; contradiction|]. rewrite <- E, rev_involutive. reflexivity.
  - change (join [space] (w :: w' :: ws)) with (w ++ space :: join [space] (w' :: ws)). rewrite G by (intros; now apply W2). rewrite app_nil_r. cbn [uwords_aux].
    change (is_uws space) with true. cbv iota. destruct (rev w) eqn:E; [apply (f_equal (@rev ascii)) in E; rewrite rev_involutive in E; contradiction|].
    rewrite <- E, rev_involutive. f_equal. apply IH. discriminate.
Qed.
Lemma uws_strip : forall c, is_strip c = true -> is_uws c = true.
Proof.
  intros c H. unfold is_strip in H. apply orb_true_iff in H. destruct H as [H|H]; [apply orb_true_iff in H; destruct H as [H|H]|]; apply Ascii.eqb_eq in H; subst; reflexivity.
Qed.
Lemma word_not_strip : forall c, is_uws c = false -> is_strip c = false.
Proof. intros c H. destruct (is_strip c) eqn:E; [|reflexivity]. apply uws_strip in E. congruence. Qed.
Lemma join_ends : forall ws, ws <> [] -> Forall word_text ws -> join [space] ws <> [] /\ is_strip (List.hd "x"%char (join [space] ws)) = false /\
  is_strip (last (join [space] ws) "x"%char) = false /\ (forall c, In c (join [space] ws) -> c <> "!"%char /\ (c = space \/ is_uws c = false)).
Proof.
  intros ws N F. induction F as [|w ws [W1 W2] F IH]; [contradiction|]. destruct ws as [|w' ws].
  - cbn [join]. split; [assumption|]. split; [apply word_not_strip, W2, in_hd; assumption|]. split; [apply word_not_strip, W2, in_last; assumption|].
    intros c I. destruct (W2 c I). auto.
  - destruct IH as [I1 [I2 [I3 I4]]]; [discriminate|]. change (join [space] (w :: w' :: ws)) with (w ++ space :: join [space] (w' :: ws)).
    split; [destruct w; discriminate|]. split; [destruct w; [contradiction|]; apply word_not_strip, W2; now left|]. split.
    + replace (last (w ++ space :: join [space] (w' :: ws)) "x"%char) with (last (join [space] (w' :: ws)) "x"%char); [assumption|].
      destruct (exists_last I1) as [r [c E]]. rewrite E. change (w ++ space :: r ++ [c]) with (w ++ (space :: r) ++ [c]). rewrite app_assoc, !last_last. reflexivity.
    + intros c I. apply in_app_or in I. destruct I as [I|[<-|I]].
      * destruct (W2 c I). auto.
      * split; [discriminate|now left].
      * now apply I4.
Qed.
Lemma row_means : forall ws b, ws <> [] -> Forall word_text ws -> means false (join [space] ws ++ nl b) ws.
Proof.
  intros ws b N F. split; [|assumption]. destruct (join_ends ws N F) as [A [B [C D]]]. unfold line_values. rewrite partition_none.
  - rewrite strip_text by assumption. destruct (join [space] ws) eqn:E; [contradiction|]. rewrite <- E. now apply uwords_join.
  - intros I. apply in_app_or in I. destruct I as [I|I]; [destruct (D _ I) as [X _]; now apply X|]. destruct b; [destruct I as [I|[]]; discriminate|contradiction].
Qed.

(* ------------------------------------------------------------------ *)
(** What a word means *)
Lemma trunc_IZR : forall z, trunc (IZR z) = z.
Proof.
  assert (I : forall z, Int_part (IZR z) = z).
  { intros z. unfold Int_part. rewrite <- (tech_up (IZR z) (z + 1)); [lia| |]; rewrite plus_IZR; lra. }
  intros z. unfold trunc. destruct (Rle_dec 0 (IZR z)); [apply I|]. rewrite <- opp_IZR, I. lia.
Qed.
Lemma lower_digits : forall s, forallb is_digit s = true -> lowert s = s.
Proof.
  induction s as [|c s IH]; intros H; [reflexivity|]. cbn [forallb] in H. apply andb_true_iff in H. destruct H as [D H]. unfold lowert in *. cbn [map]. rewrite IH by assumption. f_equal.
  unfold is_digit in D. apply andb_true_iff in D. destruct D as [A B]. apply Nat.leb_le in A. apply Nat.leb_le in B.
  unfold low. destruct ((65 <=? nat_of_ascii c)%nat) eqn:E; [apply Nat.leb_le in E; lia|]. reflexivity.
Qed.
Lemma digits_no : forall c s, is_digit c = false -> forallb is_digit s = true -> ~ In c s.
Proof. intros c s N F I. rewrite forallb_forall in F. rewrite (F c I) in N. discriminate. Qed.
Lemma float_digits : forall s, s <> [] -> forallb is_digit s = true ->
  (let '(m, found, e) := partition1 "e" (lowert s) in
   match mantissa_of m, exponent_of e found with Some x, Some n => Some (x * powerRZ 10 n)%R | _, _ => None end) = Some (IZR (digits_value 0 s)).
Proof.
  intros s N F. rewrite lower_digits by assumption. rewrite partition1_none by (now apply digits_no). unfold exponent_of, mantissa_of.
  rewrite partition1_none by (now apply digits_no). rewrite F. cbn [forallb andb]. destruct s; [contradiction|]. cbn [negb digits_value List.length]. f_equal.
  change (10 ^ Z.of_nat 0) with 1. rewrite powerRZ_O. field.
Qed.
Lemma py_float_dec : forall z, py_float (dec z) = Some (IZR z).
Proof.
  intros z. unfold py_float. rewrite trim_no_ws.
  2: { apply forallb_forall. intros c I. apply negb_true_iff. apply dec_char_ws. eapply dec_chars; eassumption. }
  unfold dec. destruct (z <? 0) eqn:S.
  - apply Z.ltb_lt in S. destruct (dec_nonneg_spec (- z)) as [N [F V]]; [lia|]. change (T "-" ++ dec_nonneg (- z)) with ("-"%char :: dec_nonneg (- z)).
    unfold sign_of. rewrite Ascii.eqb_refl. pose proof (float_digits _ N F) as P. rewrite V in P.
    destruct (partition1 "e" (lowert (dec_nonneg (- z)))) as [[m found] e]. destruct (mantissa_of m); [|discriminate]. destruct (exponent_of e found); [|discriminate].
    injection P as P. f_equal. rewrite Rmult_assoc, P, opp_IZR. lra.
  - apply Z.ltb_ge in S. destruct (dec_nonneg_spec z S) as [N [F V]]. pose proof (float_digits _ N F) as P. rewrite V in P. destruct (dec_nonneg z) as [|c r] eqn:E; [contradiction|].
    assert (D : is_digit c = true) by (cbn in F; now apply andb_true_iff in F). unfold sign_of.
    destruct (Ascii.eqb_spec c "-"%char) as [->|_]; [discriminate|]. destruct (Ascii.eqb_spec c "+"%char) as [->|_]; [discriminate|].
    destruct (partition1 "e" (lowert (c :: r))) as [[m found] e]. destruct (mantissa_of m); [|discriminate]. destruct (exponent_of e found); [|discriminate].
    injection P as P. f_equal. rewrite Rmult_assoc, P. lra.
Qed.
Definition asized (max : Z) (nk : text * kind) : text * dt := sized max (coded nk).
Lemma convert_reads : forall alone max n k t v, reads_as alone max k t v -> convert alone (snd (asized max (n, k))) t = Ok v.
Proof.
  intros alone max n k t v H. destruct k, v; cbn in H; try contradiction; cbn [asized coded dt_of sized snd fst convert].
  - destruct x as [x|]; cbn [number_text] in H; [now rewrite H|]. destruct H as [H W]. rewrite H. destruct alone; [|reflexivity]. specialize (W eq_refl).
    cbn [andb]. replace (nonfinite t) with true; [reflexivity|]. symmetry. cbn [map In] in W. destruct W as [<-|[<-|[<-|[<-|[<-|[<-|[]]]]]]]; reflexivity.
  - destruct H as [H _]. destruct alone; cbn [integer_text] in H; rewrite H; [reflexivity|now rewrite trunc_IZR].
  - destruct H as [H _]. destruct alone; cbn [integer_text] in H; rewrite H; [reflexivity|now rewrite trunc_IZR].
  - destruct H as [-> [A [B [C [D E]]]]]. rewrite firstn_all2 by lia. now rewrite rstrip_nuls_id.
Qed.
Lemma reads_lengths : forall alone max ks ts vs, reads_all alone max ks ts vs -> List.length ts = List.length ks /\ List.length vs = List.length ks.
Proof. induction ks as [|k ks IH]; intros [|t ts] [|v vs] H; cbn in H; try contradiction; [auto|]. destruct H as [_ H]. apply IH in H. cbn. lia. Qed.
Lemma convert_row_reads : forall alone max nks ts vs, reads_all alone max (map snd nks) ts vs -> convert_row alone (map (asized max) nks) ts = Ok vs.
Proof.
  intros alone max. induction nks as [|[n k] nks IH]; intros [|t ts] [|v vs] H; cbn [map snd reads_all] in H; try contradiction; [reflexivity|]. destruct H as [H1 H2].
  cbn [map convert_row]. pose proof (convert_reads alone max n k t v H1) as C. unfold asized, coded, sized in *. cbn [fst snd] in *. rewrite C. cbn [rbind].
  rewrite (IH ts vs) by assumption. reflexivity.
Qed.
Lemma convert_rows_reads : forall alone max nks rows vss, Forall2 (reads_all alone max (map snd nks)) rows vss -> convert_rows alone (map (asized max) nks) rows = Ok vss.
Proof. intros alone max nks rows vss F. induction F as [|t v rows vss H F IH]; [reflexivity|]. cbn [convert_rows]. rewrite (convert_row_reads _ _ _ _ v H). cbn [rbind]. now rewrite IH. Qed.

(** the sizes of the items of a line *)
Lemma read_sizes : forall alone max nks ts vs, reads_all alone max (map snd nks) ts vs -> exists z, item_size (map (asized max) nks) = Ok z.
Proof.
  intros alone max. induction nks as [|[n k] nks IH]; intros [|t ts] [|v vs] H; cbn [map snd reads_all] in H; try contradiction; [exists 0; reflexivity|]. destruct H as [H1 H2].
  destruct (IH ts vs H2) as [z E]. cbn [map]. change (asized max (n, k)) with (n, snd (asized max (n, k))). cbn [item_size]. rewrite E. cbn [asized coded sized fst snd].
  destruct k; cbn [dt_of size_of rbind]; try (eexists; reflexivity).
  destruct v; cbn [reads_as] in H1; try contradiction. destruct H1 as [_ [L [L' _]]]. replace (max <? 0) with false by (symmetry; apply Z.ltb_ge; lia). cbn [rbind]. eexists. reflexivity.
Qed.
Lemma asized_names : forall max nks, map fst (map (asized max) nks) = map fst nks.
Proof. intros max nks. rewrite map_map. apply map_ext. intros [n k]. reflexivity. Qed.
Lemma read_dtype : forall alone max nks ts vs, reads_all alone max (map snd nks) ts vs -> NoDup (map fst nks) -> exists z, dtype_size (map (asized max) nks) = Ok z.
Proof.
  intros alone max nks ts vs H D. unfold dtype_size. rewrite asized_names, distinct_nodup by assumption. eapply read_sizes. exact H.
Qed.

(** Lemmas for the SDDS claims: files on disk, what can be saved, and single turns of a read. *)
From Coq Require Import List Bool Arith Ascii String ZArith Reals Lia.
From Verif Require Import PyBase PyText Lte_Spec Sdds_Model Sdds_Spec Sdds_Proofs Sdds_Proofs2 Sdds_Proofs6 Sdds_Proofs7 Sdds_Proofs8 Sdds_Proofs9 Sdds_Proofs10 Sdds_Proofs11 Sdds_Proofs13.
Import ListNotations.
Open Scope Z_scope.

(* ------------------------------------------------------------------ *)
(** Files by name *)
Lemma get_put : forall d name c, get (put d name c) name = Some c.
Proof.
  intros d name c. unfold get. induction d as [|[n x] d IH]; cbn [put List.find fst]; [now rewrite teqb_refl|]. destruct (teqb n name) eqn:E; cbn [List.find fst]; rewrite E; [reflexivity|exact IH].
Qed.
Lemma get_put_other : forall d name c other, other <> name -> get (put d name c) other = get d other.
Proof.
  intros d name c other N. unfold get. induction d as [|[n x] d IH]; cbn [put].
  - cbn [List.find fst]. rewrite teqb_neq by auto. reflexivity.
  - destruct (teqb n name) eqn:E; cbn [List.find fst]; destruct (teqb n other) eqn:O; try reflexivity; try exact IH.
    exfalso. apply N. apply teqb_eq in E. apply teqb_eq in O. congruence.
Qed.

(* ------------------------------------------------------------------ *)
(** Columns of different lengths, and parameters struct cannot pack *)
Lemma unequal_stack : forall w, ~ equal_lengths w -> column_stack (map w_data (w_cols w)) = None.
Proof.
  intros w N. unfold column_stack. destruct (w_cols w) as [|c cs] eqn:E; [exfalso; apply N; intros x y I; rewrite E in I; contradiction|]. cbn [map].
  destruct (forallb (fun e => (col_length e =? col_length (w_data c))%nat) (map w_data cs)) eqn:F; [|reflexivity]. exfalso. apply N. rewrite forallb_forall in F.
  assert (X : forall x, In x (w_cols w) -> col_length (w_data x) = col_length (w_data c)).
  { intros x I. rewrite E in I. destruct I as [<-|I]; [reflexivity|]. apply Nat.eqb_eq. apply F. now apply in_map. }
  intros x y I J. now rewrite (X x I), (X y J).
Qed.
Lemma pack_error : forall ty v e, pack ty v = Err e -> e = StructError.
Proof.
  intros ty v e H. unfold pack in H. destruct (teqb ty (T "double")); [destruct v; try discriminate; now injection H|]. destruct (teqb ty (T "long")); [|now injection H].
  destruct v as [b|z|t]; try (now injection H). destruct ((- 2 ^ 31 <=? z) && (z <? 2 ^ 31)); [discriminate|now injection H].
Qed.
Lemma pack_halts : forall ty v, pack ty v <> Diverges.
Proof.
  intros ty v. unfold pack. destruct (teqb ty (T "double")); [destruct v; discriminate|]. destruct (teqb ty (T "long")); [|discriminate]. destruct v as [b|z|t]; try discriminate. destruct ((- 2 ^ 31 <=? z) && (z <? 2 ^ 31)); discriminate.
Qed.
Lemma pieces_fail : forall show ps p v, In p ps -> p_data p = Some v -> (forall b, pack (p_type p) v <> Ok b) -> snd (parameter_pieces false show ps) = Err StructError.
Proof.
  intros show ps p v I D N. induction ps as [|q ps IH]; [contradiction|]. cbn [parameter_pieces].
  destruct (p_data q) as [x|] eqn:Q.
  - destruct (pack (p_type q) x) as [b|e|] eqn:K.
    + destruct I as [-> |I]; [exfalso; rewrite D in Q; injection Q as <-; now apply (N b)|]. destruct (parameter_pieces false show ps) as [l y]. exact (IH I).
    + cbn [snd]. now rewrite (pack_error _ _ _ K).
    + now contradiction (pack_halts (p_type q) x).
  - destruct I as [-> |I]; [congruence|now apply IH].
Qed.
Lemma save_fails : forall w show sc p v, equal_lengths w -> In p (w_params w) -> p_data p = Some v -> (forall b, pack (p_type p) v <> Ok b) -> snd (save w false show sc) = Err StructError.
Proof.
  intros w show sc p v EL I D N. unfold save. pose proof (stack_some w EL) as ST. destruct (column_stack (map w_data (w_cols w))) as [rows|]; [|contradiction]. cbn [negb andb].
  destruct (2 ^ 32 <=? Z.of_nat (List.length rows)); [reflexivity|]. pose proof (pieces_fail show _ _ _ I D N) as F. destruct (parameter_pieces false show (w_params w)) as [ps x]. cbn [snd] in F. subst x. reflexivity.
Qed.
Lemma pack_no_code : forall ty v b, ty = T "short" \/ ty = T "string" -> pack ty v <> Ok b.
Proof. intros ty v b [-> | ->]; discriminate. Qed.
Lemma pieces_pack : forall show ps, (forall p v, In p ps -> p_data p = Some v -> exists b, pack (p_type p) v = Ok b) -> snd (parameter_pieces false show ps) = Ok tt.
Proof.
  intros show. induction ps as [|q ps IH]; intros H; [reflexivity|]. cbn [parameter_pieces]. assert (IH' := IH (fun p v I => H p v (or_intror I))). destruct (p_data q) as [x|] eqn:Q; [|exact IH'].
  destruct (H q x (or_introl eq_refl) Q) as [b ->]. destruct (parameter_pieces false show ps) as [l y]. exact IH'.
Qed.
Lemma transpose_length : forall n cols, List.length (transpose n cols) = n.
Proof. induction n as [|n IH]; intros cols; [reflexivity|]. cbn. now rewrite IH. Qed.
Lemma stack_rows : forall w rows, column_stack (map w_data (w_cols w)) = Some rows -> List.length rows = match w_cols w with [] => O | c :: _ => col_length (w_data c) end.
Proof.
  intros w rows H. unfold column_stack in H. destruct (w_cols w) as [|c cs]; cbn [map] in H; [injection H as <-; reflexivity|].
  destruct (forallb _ (map w_data cs)); [|discriminate]. injection H as <-. apply transpose_length.
Qed.
Lemma save_succeeds : forall w show sc, equal_lengths w -> (forall p v, In p (w_params w) -> p_data p = Some v -> exists b, pack (p_type p) v = Ok b) ->
  (forall c, In c (w_cols w) -> Z.of_nat (col_length (w_data c)) < 2 ^ 32) -> snd (save w false show sc) = Ok tt.
Proof.
  intros w show sc EL H L. unfold save. pose proof (stack_some w EL) as ST. destruct (column_stack (map w_data (w_cols w))) as [rows|] eqn:E; [|contradiction]. cbn [negb andb].
  pose proof (stack_rows w rows E) as R. assert (B : (2 ^ 32 <=? Z.of_nat (List.length rows)) = false).
  { apply Z.leb_gt. rewrite R. destruct (w_cols w) as [|c cs]; [reflexivity|]. apply L. now left. }
  rewrite B. pose proof (pieces_pack show (w_params w) H) as P. destruct (parameter_pieces false show (w_params w)) as [ps x]. cbn [snd] in P. subst x. reflexivity.
Qed.

(* ------------------------------------------------------------------ *)
(** A buffered ASCII page without parameters *)
Lemma fetch_count : forall ls p z rest, 0 <= p -> skipn (Z.to_nat p) ls = dec z :: rest ->
  fetch true true true (Lines ls) p [(row_counts, I4)] (Some 1) = Ok ({| a_names := [row_counts]; a_rows := [[VInt z]] |}, Lines ls, p + 1).
Proof.
  intros ls p z rest P E. cbn [fetch]. unfold genfromtxt. change (1 <? 1) with false. cbv iota. change (dtype_size [(row_counts, I4)]) with (Ok 4). cbn [rbind]. change (valid_names (map fst [(row_counts, I4)])) with [row_counts]. cbn [distinct existsb negb andb]. rewrite E.
  destruct (line_means (dec z) false (dec_line z)) as [M _]. cbn [nl] in M. rewrite app_nil_r in M. cbn [first_values]. rewrite M. cbn [List.length option_map]. change (Z.to_nat 1) with 1%nat. cbn [take_rows]. rewrite M.
  cbn [List.length Nat.eqb option_map pred]. assert (X : take_rows true 1 (Some 0%nat) rest = ([], false, rest)) by (destruct rest; reflexivity). rewrite X. cbn [orb andb negb Nat.eqb].
  cbn [convert_rows convert_row convert rbind List.length Nat.eqb]. rewrite py_int_dec. reflexivity.
Qed.
Lemma turn_counted : forall r i g ls p z rest, g_source g = Lines ls -> g_position g = p -> 0 <= p -> skipn (Z.to_nat p) ls = dec z :: rest -> z <> 0 ->
  r_ascii r = true -> r_varlen r = false -> r_pkeys r = [[(row_counts, I4)]] -> c_columns (r_content r) <> [] -> truthy (field (r_data r) (T "no_row_counts")) = false ->
  page_turn r None i g =
    (let g1 := {| g_pages := g_pages g ++ [Some {| a_names := [row_counts]; a_rows := [[VInt z]] |}]; g_rows := g_rows g; g_source := Lines ls; g_position := p + 1 |} in
     match column_data r (Lines ls) (p + 1) (Some z) with
     | Ok (data, src, q) => match stack (r_max r) (r_ckeys r) data with
                            | Ok x => ({| g_pages := g_pages g1; g_rows := g_rows g ++ [x]; g_source := src; g_position := q |}, Ok true)
                            | Err e => (g1, Err e)
                            | Diverges => (g1, Diverges)
                            end
     | Err e => (g1, Err e)
     | Diverges => (g1, Diverges)
     end).
Proof.
  intros r i g ls p z rest S Q P E Z0 A V K C N. unfold page_turn. cbn [past]. rewrite S, Q, A, V, K.
  assert (FE : file_end (Lines ls) p = false). { cbn [file_end]. apply Z.leb_gt. apply (f_equal (@List.length text)) in E. rewrite skipn_length in E. cbn in E. lia. }
  rewrite FE. cbn [fetch_groups]. rewrite (fetch_count ls p z rest P E). cbn [rbind wanted stack merge]. cbv zeta.
  destruct (c_columns (r_content r)) as [|c cs]; [contradiction|]. rewrite N. cbn [negb entry_of a_names]. rewrite teqb_refl. unfold lookup. cbn [a_rows a_names position_of]. rewrite teqb_refl. cbn [nth_error rbind orb].
  destruct z; [contradiction|reflexivity|reflexivity].
Qed.

(** C133: SDDS files with the most significant byte first. *)
From Coq Require Import List Bool Arith Ascii String ZArith Reals Lia.
From Verif Require Import PyBase PyText Sdds_Model Sdds_Spec Sdds_Proofs Sdds_Proofs2 Sdds_Proofs3 Sdds_Proofs4 Sdds_Proofs6 Sdds_Proofs12 Sdds_Proofs19 Sdds_Spec2 Sdds_Proofs20 Lte_Spec Sdds_Proofs7 Sdds_Proofs8 Sdds_Proofs9 Sdds_Proofs10 Sdds_Samples Sdds_Props Sdds2_Props.
Import ListNotations.
Open Scope Z_scope.

(* ------------------------------------------------------------------ *)
(** The header says in a comment in which order the bytes of numbers are stored. *)
Definition states (h : header) (order : string) : Prop := In (Ignored (T "!# " ++ T order)) (h_lines h).
(** Numbers with the most significant byte first: the bytes in the other direction. Strings have
    their length in front of them. *)
Definition stored_big (k : kind) (v : value) : text :=
  match k, v with
  | Str, VStr s => rev (little 4 (Z.of_nat (List.length s))) ++ s
  | _, _ => rev (stored k v)
  end.
Fixpoint stored_all_big (ks : list kind) (vs : list value) : text :=
  match ks, vs with k :: ks, v :: vs => stored_big k v ++ stored_all_big ks vs | _, _ => [] end.
Definition big_page (ps cs : list (text * kind)) (pg : page) : text :=
  rev (little 4 (Z.of_nat (List.length (pg_rows pg)))) ++ stored_all_big (map snd ps) (pg_params pg) ++ List.concat (map (stored_all_big (map snd cs)) (pg_rows pg)).
Definition big_file (h : header) (ps cs : list (text * kind)) (pgs : list page) : text := header_text h ++ List.concat (map (big_page ps cs) pgs).
Definition numbers (ks : list (text * kind)) : Prop := ~ In Str (map snd ks).
(** the value of the same kind whose bytes are those of [v] in the other direction *)
Definition mirrored (max : Z) (kv : kind * value) (v' : value) : Prop := fits max (fst kv) v' /\ stored (fst kv) v' = rev (stored (fst kv) (snd kv)).
Definition mirror_page (max : Z) (ps : list (text * kind)) (pg pg' : page) : Prop := Forall2 (mirrored max) (combine (map snd ps) (pg_params pg)) (pg_params pg') /\ pg_rows pg' = pg_rows pg.

(* ------------------------------------------------------------------ *)
(** Any bytes are those of some number. *)
Lemma byte_of : forall c z, byte (of_byte c + 256 * z) = c.
Proof.
  intros c z. unfold byte, of_byte. rewrite (Z.mul_comm 256), Z_mod_plus_full. pose proof (nat_ascii_bounded c) as B. rewrite Z.mod_small by lia. rewrite Nat2Z.id. apply ascii_nat_embedding.
Qed.
Lemma of_byte_range : forall c, 0 <= of_byte c < 256.
Proof. intros c. unfold of_byte. pose proof (nat_ascii_bounded c). lia. Qed.
Lemma le_un : forall s, le (List.length s) (un_le s) = s.
Proof.
  induction s as [|c s IH]; [reflexivity|]. cbn [List.length le un_le]. rewrite byte_of. f_equal.
  rewrite (Z.mul_comm 256), Z_div_plus_full by lia. rewrite Z.div_small by apply of_byte_range. exact IH.
Qed.
Lemma un_range : forall s, 0 <= un_le s < 256 ^ Z.of_nat (List.length s).
Proof.
  induction s as [|c s IH]; [cbn; lia|]. cbn [List.length un_le]. rewrite Nat2Z.inj_succ, Z.pow_succ_r by lia. pose proof (of_byte_range c). nia.
Qed.
Lemma le_period : forall k z, le k (z - 256 ^ Z.of_nat k) = le k z.
Proof.
  induction k as [|k IH]; intros z; [reflexivity|]. cbn [le]. rewrite Nat2Z.inj_succ, Z.pow_succ_r by lia. f_equal.
  - unfold byte. replace (z - 256 * 256 ^ Z.of_nat k) with (z + - 256 ^ Z.of_nat k * 256) by ring. now rewrite Z_mod_plus_full.
  - replace (z - 256 * 256 ^ Z.of_nat k) with (z + - 256 ^ Z.of_nat k * 256) by ring. rewrite Z_div_plus_full by lia. apply IH.
Qed.
Lemma little_signed : forall s, little (List.length s) (un_le_signed s) = s.
Proof. intros s. rewrite little_le. unfold un_le_signed. destruct (_ <? _); [apply le_un|]. rewrite le_period. apply le_un. Qed.
Lemma signed_range : forall s, - 256 ^ Z.of_nat (List.length s) <= 2 * un_le_signed s < 256 ^ Z.of_nat (List.length s).
Proof. intros s. unfold un_le_signed. pose proof (un_range s). destruct (_ <? _) eqn:E; [apply Z.ltb_lt in E|apply Z.ltb_ge in E]; lia. Qed.

Definition size (k : kind) : nat := match k with Double => 8 | Float | Long => 4 | Short => 2 | Str => 0 end.
Lemma any_bytes : forall max k t, k <> Str -> List.length t = size k -> exists v, fits max k v /\ stored k v = t.
Proof.
  intros max k t N L. destruct k; cbn [size] in L.
  - exists (VDouble t). split; [exact L|reflexivity].
  - exists (VInt (un_le_signed t)). pose proof (signed_range t) as B. pose proof (little_signed t) as S. rewrite L in B, S. split; [|exact S]. cbn [fits]. change (256 ^ Z.of_nat 2) with (2 * 2 ^ 15) in B. lia.
  - exists (VInt (un_le_signed t)). pose proof (signed_range t) as B. pose proof (little_signed t) as S. rewrite L in B, S. split; [|exact S]. cbn [fits]. change (256 ^ Z.of_nat 4) with (2 * 2 ^ 31) in B. lia.
  - exists (VFloat t). split; [exact L|reflexivity].
  - contradiction.
Qed.
Lemma stored_size : forall max k v, k <> Str -> fits max k v -> List.length (stored k v) = size k.
Proof. intros max k v N F. destruct k, v; cbn [fits] in F; try contradiction; cbn [stored size]; try assumption; apply little_length. Qed.
Lemma big_number : forall k v, k <> Str -> stored_big k v = rev (stored k v).
Proof. intros [| | | |] v N; try reflexivity. contradiction. Qed.

Lemma mirror_all : forall max ks vs, ~ In Str ks -> Forall2 (fits max) ks vs -> exists vs', Forall2 (fits max) ks vs' /\ stored_all ks vs' = stored_all_big ks vs /\
  Forall2 (mirrored max) (combine ks vs) vs'.
Proof.
  intros max ks vs N F. induction F as [|k v ks vs H F IH].
  - exists []. repeat split; constructor.
  - assert (K : k <> Str) by (intros ->; apply N; now left). destruct IH as [vs' [F' [E M]]]; [intros I; apply N; now right|].
    destruct (any_bytes max k (rev (stored k v)) K) as [v' [F1 E1]]; [rewrite rev_length; eapply stored_size; eassumption|].
    exists (v' :: vs'). split; [now constructor|]. split; [|constructor; [split; [exact F1|exact E1]|exact M]]. cbn [stored_all stored_all_big]. rewrite E, E1, big_number by assumption. reflexivity.
Qed.

(* ------------------------------------------------------------------ *)
(** ** C133 The order of bytes.
    Full statement: a binary file is read with the numbers it holds, in the order of bytes that its
    header states. With the least significant byte first they are, whatever else the header says: *)
Theorem C133_little_partial : forall h ps cs buffer max pgs fuel n, header_for h ps cs -> binary_header h -> states h "little-endian" -> Forall (sound max ps cs) pgs ->
  buffer = true \/ Forall seen pgs -> (List.length pgs < fuel)%nat -> Forall (same_length n) pgs -> (0 < n)%nat ->
  loads (binary_file h ps cs pgs) buffer max None fuel (Some (param_pages ps pgs)) (all_columns cs pgs).
Proof. intros h ps cs buffer max pgs fuel n HF BH _. now apply C56_pages_partial. Qed.
Print Assumptions C133_little_partial.

(** and text is read as it is, whatever order the header states. *)
Theorem C133_text_partial : forall h ps cs order max aps pgs fuel n, header_for h ps cs -> ascii_header h -> states h order -> cs <> [] -> Forall2 (asound max ps cs) aps pgs ->
  Forall aseen aps -> (List.length pgs < fuel)%nat -> Forall (same_length n) pgs -> (0 < n)%nat ->
  loads (ascii_file h aps) false max None fuel (Some (aparam_pages ps pgs)) (all_columns cs pgs).
Proof. intros h ps cs order max aps pgs fuel n HF AH _. now apply C60_unbuffered_partial. Qed.
Print Assumptions C133_text_partial.

(** The other order is not read, although the header states it: every number among the parameters is
    taken for the one with its bytes in the other direction, *)
Theorem C133_parameters_refuted : forall h ps buffer max pgs fuel, header_for h ps [] -> binary_header h -> states h "big-endian" -> numbers ps -> Forall (sound max ps []) pgs ->
  Forall (same_length 0) pgs -> (List.length pgs < fuel)%nat ->
  exists pgs', loads (big_file h ps [] pgs) buffer max None fuel (Some (param_pages ps pgs')) None /\
    Forall2 (mirror_page max ps) pgs pgs'.
Proof.
  intros h ps buffer max pgs fuel [HO [DC [FR NO]]] BH _ NU SO ZR FU.
  assert (X : exists pgs', Forall (sound max ps []) pgs' /\ Forall seen pgs' /\ List.concat (map (bytes ps []) pgs') = List.concat (map (big_page ps []) pgs) /\ List.length pgs' = List.length pgs /\
    Forall2 (mirror_page max ps) pgs pgs').
  { clear FU. induction SO as [|pg pgs S SO IH].
    - exists []. repeat split; constructor.
    - inversion ZR as [|? ? Z0 ZR']; subst. destruct (IH ZR') as [pgs' [S' [SE [E [L M]]]]]. destruct S as [S1 [S2 S3]]. destruct (mirror_all max (map snd ps) (pg_params pg) NU S1) as [vs' [F' [E' M']]].
      unfold same_length in Z0. apply length_zero_iff_nil in Z0.
      exists ({| pg_params := vs'; pg_rows := [] |} :: pgs'). repeat split.
      + constructor; [|exact S']. split; [exact F'|]. split; [constructor|reflexivity].
      + constructor; [reflexivity|exact SE].
      + cbn [map List.concat]. rewrite E. f_equal. unfold bytes, page_bytes, big_page. cbn [pg_params pg_rows]. rewrite E', Z0. reflexivity.
      + cbn [List.length]. now rewrite L.
      + constructor; [split; [exact M'|now rewrite Z0]|exact M]. }
  destruct X as [pgs' [S' [SE [E [L M]]]]]. exists pgs'. split; [|exact M].
  destruct (open_and_read h ps [] buffer max None pgs' fuel 0 HO DC FR BH NO) as [r [r' [O [R [P C]]]]]; auto; [discriminate|now rewrite L|apply Forall_forall; intros pg _ H; discriminate H|].
  exists r, r'. unfold big_file. rewrite <- E. repeat (split; [assumption|]). rewrite P, C, chosen_all. split; reflexivity.
Qed.
Print Assumptions C133_parameters_refuted.

(** A number from 1 to 127 in four bytes, for one, is taken for 16777216 times that number, *)
Lemma mirrored_small : forall z, 0 <= z < 128 -> little 4 (16777216 * z) = rev (little 4 z).
Proof.
  intros z B. unfold little. cbn [seq map rev app]. change (256 ^ Z.of_nat 0) with 1. change (256 ^ Z.of_nat 1) with 256. change (256 ^ Z.of_nat 2) with 65536. change (256 ^ Z.of_nat 3) with 16777216.
  rewrite !Z.div_1_r. rewrite (Z.div_small z 256), (Z.div_small z 65536), (Z.div_small z 16777216) by lia.
  replace (16777216 * z) with (z * 65536 * 256) by ring. rewrite Z_mod_mult. rewrite Z_div_mult by lia. replace (z * 65536) with (z * 256 * 256) by ring. rewrite Z_mod_mult.
  replace (z * 256 * 256 * 256 / 65536) with (z * 256) by (replace (z * 256 * 256 * 256) with (z * 256 * 65536) by ring; now rewrite Z_div_mult by lia). rewrite Z_mod_mult.
  replace (z * 256 * 256 * 256 / 16777216) with z by (replace (z * 256 * 256 * 256) with (z * 16777216) by ring; now rewrite Z_div_mult by lia). reflexivity.
Qed.
Theorem C133_long_refuted : forall h name buffer max z fuel, header_for h [(name, Long)] [] -> binary_header h -> states h "big-endian" -> 0 < z < 128 -> (1 < fuel)%nat ->
  loads (big_file h [(name, Long)] [] [{| pg_params := [VInt z]; pg_rows := [] |}]) buffer max None fuel
    (Some [Some {| a_names := [row_counts; name]; a_rows := [[VInt 0; VInt (16777216 * z)]] |}]) None.
Proof.
  intros h name buffer max z fuel HF BH ST B FU.
  destruct (C133_parameters_refuted h [(name, Long)] buffer max [{| pg_params := [VInt z]; pg_rows := [] |}] fuel HF BH ST) as [pgs' [L M]]; [|constructor; [|constructor]|constructor; [reflexivity|constructor]|exact FU|].
  - intros [I|[]]. discriminate.
  - split; [constructor; [cbn; lia|constructor]|]. split; [constructor|reflexivity].
  - inversion M as [|? pg' ? ? M1 M2]; subst. inversion M2; subst. destruct M1 as [M1 RW]. cbn [pg_params pg_rows map snd combine] in M1, RW. inversion M1 as [|? v' ? vs' M3 M4 EV EQ]; subst. inversion M4; subst.
    destruct M3 as [F M3]. cbn [fst snd fits stored] in F, M3. assert (X : exists w, v' = VInt w) by (destruct v'; try contradiction; eauto). destruct X as [w ->]. cbn [stored] in M3. rewrite <- mirrored_small in M3 by lia.
    apply (f_equal un_le_signed) in M3. rewrite !signed_little4 in M3 by lia. subst w.
    cbn [param_pages map] in L. unfold param_page in L. rewrite RW, <- EQ in L. exact L.
Qed.
Print Assumptions C133_long_refuted.

(** and a page with rows is not read at all: the number of rows is taken for a larger one, and the
    file is too short for it. Here for files of less than 16 MB whose first page has less than 128
    rows, and for all that follows that page. *)
Fixpoint width (ks : list kind) : nat := match ks with [] => 0 | k :: ks => size k + width ks end.
Lemma any_row : forall max ks t, ~ In Str ks -> List.length t = width ks -> exists vs, Forall2 (fits max) ks vs /\ stored_all ks vs = t.
Proof.
  induction ks as [|k ks IH]; intros t N L; cbn [width] in L.
  - exists []. split; [constructor|]. destruct t; [reflexivity|discriminate].
  - assert (K : k <> Str) by (intros ->; apply N; now left).
    destruct (any_bytes max k (firstn (size k) t) K) as [v [F E]]; [rewrite firstn_length; lia|].
    destruct (IH (skipn (size k) t)) as [vs [F' E']]; [intros I; apply N; now right|rewrite skipn_length; lia|].
    exists (v :: vs). split; [now constructor|]. cbn [stored_all]. rewrite E, E'. apply firstn_skipn.
Qed.
Lemma any_rows : forall max ks m t, ~ In Str ks -> List.length t = (m * width ks)%nat ->
  exists rows, List.length rows = m /\ Forall (Forall2 (fits max) ks) rows /\ List.concat (map (stored_all ks) rows) = t.
Proof.
  induction m as [|m IH]; intros t N L; cbn [Nat.mul] in L.
  - exists []. split; [reflexivity|]. split; [constructor|]. destruct t; [reflexivity|discriminate].
  - destruct (any_row max ks (firstn (width ks) t) N) as [vs [F E]]; [rewrite firstn_length; lia|].
    destruct (IH (skipn (width ks) t) N) as [rows [L' [F' E']]]; [rewrite skipn_length; lia|].
    exists (vs :: rows). split; [cbn; now rewrite L'|]. split; [now constructor|]. cbn [map List.concat]. rewrite E, E'. apply firstn_skipn.
Qed.
Lemma width_pos : forall ks, ~ In Str ks -> ks <> [] -> (1 <= width ks)%nat.
Proof. intros [|k ks] N H; [contradiction|]. cbn [width]. destruct k; cbn [size]; try lia. exfalso. apply N. now left. Qed.
Theorem C133_rows_refuted : forall h ps cs max pg pgs fuel, header_for h ps cs -> binary_header h -> states h "big-endian" -> numbers ps -> numbers cs -> cs <> [] -> sound max ps cs pg ->
  (0 < List.length (pg_rows pg) < 128)%nat -> Z.of_nat (List.length (big_file h ps cs (pg :: pgs))) < 16777216 -> (0 < fuel)%nat ->
  load_fails (big_file h ps cs (pg :: pgs)) true max None fuel ValueError.
Proof.
  intros h ps cs max pg pgs fuel [HO [DC [FR NO]]] BH _ NP NC CN [S1 [S2 S3]] B L FU.
  destruct (mirror_all max (map snd ps) (pg_params pg) NP S1) as [vs' [F' [E' _]]].
  set (rest := List.concat (map (stored_all_big (map snd cs)) (pg_rows pg)) ++ List.concat (map (big_page ps cs) pgs)).
  assert (EF : big_file h ps cs (pg :: pgs) = header_text h ++ rev (little 4 (Z.of_nat (List.length (pg_rows pg)))) ++ stored_all (map snd ps) vs' ++ rest).
  { unfold big_file, big_page. cbn [map List.concat]. rewrite E'. unfold rest. now rewrite !app_assoc. }
  assert (ML : exists m, Z.of_nat m = 16777216 * Z.of_nat (List.length (pg_rows pg))) by (exists (Z.to_nat (16777216 * Z.of_nat (List.length (pg_rows pg)))); apply Z2Nat.id; lia).
  destruct ML as [m HM]. rewrite <- mirrored_small, <- HM in EF by lia.
  assert (W : (1 <= width (map snd cs))%nat) by (apply width_pos; [exact NC|destruct cs; [contradiction|discriminate]]).
  assert (RL : (List.length rest < m * width (map snd cs))%nat).
  { rewrite EF, !app_length in L. assert (Z.of_nat (List.length rest) < Z.of_nat m) by lia. nia. }
  destruct (any_rows max (map snd cs) m (rest ++ repeat "000"%char (m * width (map snd cs) - List.length rest)) NC) as [rows [LR [FRW ER]]]; [rewrite app_length, repeat_length; lia|].
  rewrite EF. unfold load_fails.
  apply (read_cut h ps cs [] {| pg_params := vs'; pg_rows := rows |} (little 4 (Z.of_nat m) ++ stored_all (map snd ps) vs' ++ rest) (repeat "000"%char (m * width (map snd cs) - List.length rest)) max fuel); auto.
  - split; [exact F'|]. split; [exact FRW|]. cbn [pg_rows]. rewrite LR, HM. lia.
  - unfold bytes, page_bytes. cbn [pg_params pg_rows]. rewrite LR, ER. now rewrite !app_assoc.
  - intros X. apply (f_equal (@List.length ascii)) in X. rewrite app_length, little_length in X. cbn in X. discriminate.
  - intros X. apply (f_equal (@List.length ascii)) in X. rewrite repeat_length in X. cbn [List.length] in X. lia.
Qed.
Print Assumptions C133_rows_refuted.

(** a short integer and a column of doubles *)
Definition big_header (rows : bool) : header :=
  {| h_before := []; h_first := T "SDDS1"; h_lines := Ignored (T "!# big-endian") :: Param (param_command p_index) :: (if rows then [Col (col_command c_x)] else []); h_data := mode_command false |}.
Lemma big_header_for : forall rows, header_for (big_header rows) [(T "Index", Short)] (if rows then [(T "x", Double)] else []).
Proof.
  intros rows. destruct plain_params as [P1 [P2 P3]]. destruct plain_cols as [[C1 G1] [C2 G2]]. destruct (header_1_for false) as [[_ [W1 [_ [W2 W3]]]] _]. split; [|split; [|split]].
  - split; [constructor|]. split; [exact W1|]. split; [|split; [exact W2|exact W3]]. cbn [big_header h_lines]. constructor; [apply ignorable_comment; no_char|]. constructor; [now apply param_command_ok|].
    destruct rows; constructor; [now apply col_command_ok|constructor].
  - split; destruct rows; repeat constructor; reflexivity.
  - destruct rows; cbn [big_header h_lines params_of]; (constructor; [now apply fixed_readable_written|constructor]).
  - destruct rows; (split; [nodup|]; split; [nodup|]; split; no_char).
Qed.
Example C133_applies :
  (forall buffer, exists v, loads (big_file (big_header false) [(T "Index", Short)] [] [{| pg_params := [VInt 1]; pg_rows := [] |}]) buffer 100 None 2
    (Some [Some {| a_names := [row_counts; T "Index"]; a_rows := [[VInt 0; VInt v]] |}]) None /\ v = 256) /\
  load_fails (big_file (big_header true) [(T "Index", Short)] [(T "x", Double)] [{| pg_params := [VInt 1]; pg_rows := [[VDouble one]] |}]) true 100 None 2 ValueError.
Proof.
  split.
  - intros buffer. exists 256. split; [|reflexivity].
    destruct (C133_parameters_refuted (big_header false) [(T "Index", Short)] buffer 100 [{| pg_params := [VInt 1]; pg_rows := [] |}] 2 (big_header_for false)) as [pgs' [L M]]; [split; [discriminate|now left]|now left| | | |cbn; lia|].
    + intros [I|[]]. discriminate.
    + constructor; [|constructor]. split; [constructor; [cbn; lia|constructor]|]. split; [constructor|reflexivity].
    + constructor; [reflexivity|constructor].
    + inversion M as [|? pg' ? ? M1 M2]; subst. inversion M2; subst. destruct M1 as [M1 RW]. cbn [pg_params pg_rows map snd combine] in M1, RW. inversion M1 as [|? v' ? vs' M3 M4 EV EQ]; subst. inversion M4; subst.
      destruct M3 as [F M3]. cbn [fst snd fits stored] in F, M3. assert (X : exists w, v' = VInt w) by (destruct v'; try contradiction; eauto). destruct X as [w ->]. cbn [stored] in M3.
      apply (f_equal un_le_signed) in M3. rewrite signed_little2 in M3 by exact F. vm_compute in M3. subst w.
      cbn [param_pages map] in L. unfold param_page in L. rewrite RW, <- EQ in L. exact L.
  - apply (C133_rows_refuted (big_header true) [(T "Index", Short)] [(T "x", Double)] 100 _ [] 2 (big_header_for true)); [split; [discriminate|now left]|now left|intros [I|[]]; discriminate|intros [I|[]]; discriminate|discriminate| |cbn; lia|vm_compute; reflexivity|lia].
    split; [constructor; [cbn; lia|constructor]|]. split; [constructor; [constructor; [reflexivity|constructor]|constructor]|reflexivity].
Qed.

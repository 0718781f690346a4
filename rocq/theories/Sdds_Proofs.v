(** Lemmas for the SDDS claims: bytes of integers, and reading the binary data of a page. *)
From Coq Require Import List Bool Arith Ascii String ZArith Reals Lia.
From Verif Require Import PyBase PyText Lte_Spec Sdds_Model Sdds_Spec.
Import ListNotations.
Open Scope Z_scope.

(* ------------------------------------------------------------------ *)
(** Integers and bytes *)
Lemma of_byte_byte : forall z, of_byte (byte z) = z mod 256.
Proof.
  intros z. unfold of_byte, byte. pose proof (Z.mod_pos_bound z 256 ltac:(lia)) as B.
  rewrite nat_ascii_embedding by (change 256%nat with (Z.to_nat 256); lia). lia.
Qed.
Lemma le_length : forall k z, List.length (le k z) = k.
Proof. induction k; intros; cbn [le List.length]; auto. Qed.
Lemma un_le_le : forall k z, un_le (le k z) = z mod 256 ^ Z.of_nat k.
Proof.
  induction k as [|k IH]; intros z.
  - cbn. now rewrite Z.mod_1_r.
  - cbn [le un_le]. rewrite IH, of_byte_byte, Nat2Z.inj_succ, Z.pow_succ_r by lia.
    rewrite Z.rem_mul_r by (try lia; apply Z.pow_pos_nonneg; lia). lia.
Qed.
Lemma signed_le : forall k z, (0 < k)%nat -> - 256 ^ Z.of_nat k <= 2 * z < 256 ^ Z.of_nat k -> un_le_signed (le k z) = z.
Proof.
  intros k z K B. unfold un_le_signed. rewrite le_length, un_le_le.
  set (m := 256 ^ Z.of_nat k) in *. assert (0 < m) by (apply Z.pow_pos_nonneg; lia).
  destruct (Z_lt_le_dec z 0).
  - assert (E : z mod m = z + m) by (symmetry; apply (Z.mod_unique_pos z m (-1)); lia).
    rewrite E. destruct (2 * (z + m) <? m) eqn:C; [apply Z.ltb_lt in C; lia|lia].
  - rewrite Z.mod_small by lia. destruct (2 * z <? m) eqn:C; [lia|apply Z.ltb_ge in C; lia].
Qed.
Lemma little_le : forall k z, little k z = le k z.
Proof.
  intros k z. unfold little.
  enough (H : forall k j z, map (fun i => ascii_of_nat (Z.to_nat ((z / 256 ^ Z.of_nat i) mod 256))) (seq j k) = le k (z / 256 ^ Z.of_nat j)).
  { specialize (H k 0%nat z). rewrite H. now rewrite Z.pow_0_r, Z.div_1_r. }
  clear k z. induction k as [|k IH]; intros j z; [reflexivity|]. cbn [seq map le]. unfold byte at 1. f_equal.
  rewrite IH. f_equal. rewrite Nat2Z.inj_succ, Z.pow_succ_r by lia. rewrite Z.mul_comm, <- Z.div_div; [reflexivity| |lia].
  apply Z.pow_nonzero; lia.
Qed.
Lemma little_length : forall k z, List.length (little k z) = k.
Proof. intros. rewrite little_le. apply le_length. Qed.
Lemma signed_little4 : forall z, - 2 ^ 31 <= z < 2 ^ 31 -> un_le_signed (little 4 z) = z.
Proof. intros. rewrite little_le. apply signed_le; [lia|]. change (256 ^ Z.of_nat 4) with (2 * 2 ^ 31). lia. Qed.
Lemma signed_little2 : forall z, - 2 ^ 15 <= z < 2 ^ 15 -> un_le_signed (little 2 z) = z.
Proof. intros. rewrite little_le. apply signed_le; [lia|]. change (256 ^ Z.of_nat 2) with (2 * 2 ^ 15). lia. Qed.

(* ------------------------------------------------------------------ *)
(** Text equality *)
Lemma teqb_refl : forall a, teqb a a = true.
Proof. intros. now apply teqb_eq. Qed.
Lemma teqb_neq : forall a b, a <> b -> teqb a b = false.
Proof. intros a b H. destruct (teqb a b) eqn:E; [apply teqb_eq in E; contradiction|reflexivity]. Qed.
Lemma distinct_nodup : forall l, NoDup l -> distinct l = true.
Proof.
  induction 1 as [|x l H N IH]; [reflexivity|]. cbn. rewrite IH, andb_true_r.
  destruct (existsb (teqb x) l) eqn:E; [|reflexivity]. apply existsb_exists in E. destruct E as [y [I E]].
  apply teqb_eq in E. subst. contradiction.
Qed.

(* ------------------------------------------------------------------ *)
(** Decoding *)
Definition dt_of (k : kind) : dt := match k with Double => F8 | Short => I2 | Long => I4 | Float => F4 | Str => DStr None end.
Definition coded (nk : text * kind) : text * dt := (fst nk, dt_of (snd nk)).

Lemma size_width : forall k n, size_of k = Ok n -> width k = Z.to_nat n /\ 0 <= n.
Proof.
  intros k n H. destruct k as [| | | | |[z|]]; cbn in *; try discriminate; try (injection H as <-; split; [reflexivity|lia]).
  destruct (z <? 0) eqn:E; [discriminate|]. injection H as <-. split; [reflexivity|]. apply Z.ltb_ge in E. lia.
Qed.
Lemma item_size_nonneg : forall g n, item_size g = Ok n -> 0 <= n.
Proof.
  induction g as [|[m k] g IH]; intros n H; cbn in H; [injection H as <-; lia|].
  destruct (size_of k) eqn:S; cbn in H; try discriminate. destruct (item_size g) eqn:I; cbn in H; try discriminate.
  injection H as <-. apply size_width in S. specialize (IH _ eq_refl). lia.
Qed.
(** a row of values decoded from the front of some bytes *)
Lemma decode_row_app : forall g n b s, item_size g = Ok n -> Z.of_nat (List.length b) = n -> decode_row g (b ++ s) = decode_row g b.
Proof.
  induction g as [|[m k] g IH]; intros n b s H L; [reflexivity|]. cbn in H |- *.
  destruct (size_of k) as [a| |] eqn:S; cbn in H; try discriminate. destruct (item_size g) as [c| |] eqn:I; cbn in H; try discriminate.
  injection H as <-. apply size_width in S. destruct S as [W A]. pose proof (item_size_nonneg _ _ I).
  assert (Q : (width k <= List.length b)%nat) by lia.
  rewrite firstn_app, skipn_app. replace (width k - List.length b)%nat with O by lia. cbn [firstn skipn]. rewrite app_nil_r.
  f_equal. apply (IH c); [reflexivity|]. rewrite skipn_length. lia.
Qed.
Lemma decode_rows_app : forall n size g b s, item_size g = Ok (Z.of_nat size) -> List.length b = (n * size)%nat ->
  decode_rows n size g (b ++ s) = decode_rows n size g b.
Proof.
  induction n as [|n IH]; intros size g b s H L; [reflexivity|]. cbn [decode_rows].
  assert (Q : (size <= List.length b)%nat) by (rewrite L; cbn; lia).
  rewrite firstn_app, skipn_app. replace (size - List.length b)%nat with O by lia. cbn [firstn skipn]. rewrite app_nil_r.
  f_equal. apply IH; [assumption|]. rewrite skipn_length, L. cbn. lia.
Qed.
Lemma decode_rows_concat : forall g size (bs : list text) (vs : list (list value)),
  Forall2 (fun b v => List.length b = size /\ decode_row g b = v) bs vs ->
  decode_rows (List.length vs) size g (List.concat bs) = vs.
Proof.
  induction 1 as [|b v bs vs [L D] F IH]; [reflexivity|]. cbn [List.concat List.length decode_rows].
  rewrite firstn_app, skipn_app, L. replace (size - size)%nat with O by lia. cbn [firstn skipn]. rewrite app_nil_r.
  rewrite firstn_all2, skipn_all2 by lia. cbn [app]. now rewrite D, IH.
Qed.

(* ------------------------------------------------------------------ *)
(** The bytes that are still to come at a source *)
Definition ahead (src : source) (position : Z) (s : text) : Prop :=
  match src with
  | Bytes f => 0 <= position <= Z.of_nat (List.length f) /\ skipn (Z.to_nat position) f = s
  | File f ptr => position = 0 /\ 0 <= ptr <= Z.of_nat (List.length f) /\ skipn (Z.to_nat ptr) f = s
  | Lines _ => False
  end.
Lemma skipn_plus : forall {A} a b (l : list A), skipn (a + b) l = skipn b (skipn a l).
Proof. induction a; intros b l; [reflexivity|]. destruct l; cbn; [now rewrite skipn_nil|apply IHa]. Qed.
Definition buffered (src : source) : bool := match src with File _ _ => false | _ => true end.

Lemma fetch_ahead : forall single whole src position g size n b s,
  ahead src position (b ++ s) -> dtype_size g = Ok (Z.of_nat size) -> (0 < size)%nat -> List.length b = (n * size)%nat ->
  exists src' position',
    fetch false single whole src position g (Some (Z.of_nat n)) = Ok ({| a_names := map fst g; a_rows := decode_rows n size g b |}, src', position')
    /\ ahead src' position' s /\ buffered src' = buffered src.
Proof.
  intros single whole src position g size n b s A D P L.
  assert (I : item_size g = Ok (Z.of_nat size)) by (unfold dtype_size in D; destruct (distinct (map fst g)); [assumption|discriminate]).
  destruct src as [f|ls|f ptr]; cbn [ahead] in A; [|contradiction|].
  - destruct A as [[A1 A2] A3]. assert (Len : Z.of_nat (List.length f) - position = Z.of_nat (n * size) + Z.of_nat (List.length s)).
    { apply (f_equal (@List.length ascii)) in A3. rewrite skipn_length, app_length in A3. lia. }
    cbn [fetch]. unfold frombuffer. rewrite D. cbn [rbind].
    destruct (Z.of_nat size =? 0) eqn:E1; [lia|]. destruct (position <? 0) eqn:E2; [lia|].
    destruct (Z.of_nat (List.length f) - position <? 0) eqn:E3; [lia|]. cbn [orb].
    destruct (Z.of_nat n <? 0) eqn:E4; [lia|].
    destruct (Z.of_nat (List.length f) - position <? Z.of_nat n * Z.of_nat size) eqn:E5; [nia|]. cbn [rbind].
    rewrite A3, !Nat2Z.id, decode_rows_app by assumption.
    eexists _, _. split; [reflexivity|]. split; [|reflexivity]. cbn [ahead]. split; [nia|].
    replace (Z.to_nat (position + Z.of_nat size * Z.of_nat n)) with (Z.to_nat position + n * size)%nat by nia.
    rewrite skipn_plus, A3, skipn_app, <- L, skipn_all, Nat.sub_diag. reflexivity.
  - destruct A as [A0 [[A1 A2] A3]]. subst position.
    assert (Len : Z.of_nat (List.length f) - ptr = Z.of_nat (n * size) + Z.of_nat (List.length s)).
    { apply (f_equal (@List.length ascii)) in A3. rewrite skipn_length, app_length in A3. lia. }
    cbn [fetch]. unfold fromfile. rewrite D. cbn [rbind].
    destruct (Z.of_nat size =? 0) eqn:E1; [lia|]. destruct (ptr + 0 <? 0) eqn:E2; [lia|]. cbn [orb].
    rewrite Z.add_0_r, A3.
    assert (Q : Z.of_nat n <= Z.of_nat (List.length (b ++ s)) / Z.of_nat size).
    { apply Z.div_le_lower_bound; [lia|]. rewrite app_length. nia. }
    destruct (0 <=? Z.of_nat n) eqn:E4; [|lia]. destruct (Z.of_nat n <=? Z.of_nat (List.length (b ++ s)) / Z.of_nat size) eqn:E5; [|lia].
    cbn [andb rbind]. rewrite !Nat2Z.id, decode_rows_app by assumption.
    eexists _, _. split; [reflexivity|]. split; [|reflexivity]. cbn [ahead]. split; [reflexivity|]. split; [nia|].
    replace (Z.to_nat (ptr + Z.of_nat n * Z.of_nat size)) with (Z.to_nat ptr + n * size)%nat by nia.
    rewrite skipn_plus, A3, skipn_app, <- L, skipn_all, Nat.sub_diag. reflexivity.
Qed.

(** one item *)
Lemma fetch_one : forall single whole src position g size b s,
  ahead src position (b ++ s) -> dtype_size g = Ok (Z.of_nat size) -> (0 < size)%nat -> List.length b = size ->
  exists src' position',
    fetch false single whole src position g (Some 1) = Ok ({| a_names := map fst g; a_rows := [decode_row g b] |}, src', position')
    /\ ahead src' position' s /\ buffered src' = buffered src.
Proof.
  intros. destruct (fetch_ahead single whole src position g size 1 b s) as [src' [p' [F [A B]]]]; try assumption; [lia|].
  exists src', p'. split; [|split; assumption]. change (Z.of_nat 1) with 1 in F. rewrite F. cbn [decode_rows].
  rewrite firstn_all2 by lia. reflexivity.
Qed.

(* ------------------------------------------------------------------ *)
(** Values and their stored bytes *)
Definition filled (k : kind) (v : value) : dt :=
  match k, v with Str, VStr s => DStr (Some (Z.of_nat (List.length s))) | _, _ => dt_of k end.
Definition payload (k : kind) (v : value) : text := match k, v with Str, VStr s => s | _, _ => stored k v end.
Lemma drop_nuls_id : forall s, hd "000"%char s <> "000"%char -> drop_nuls s = s.
Proof. intros [|c s] H; [reflexivity|]. cbn in *. destruct (Ascii.eqb_spec c "000"%char); [contradiction|reflexivity]. Qed.
Lemma hd_rev : forall (s : text) d, hd d (rev s) = last s d.
Proof.
  intros s d. destruct s as [|x s] using rev_ind; [reflexivity|]. rewrite rev_app_distr. cbn. now rewrite last_last.
Qed.
Lemma rstrip_nuls_id : forall s, last s "000"%char <> "000"%char -> rstrip_nuls s = s.
Proof. intros s H. unfold rstrip_nuls. rewrite drop_nuls_id; [apply rev_involutive|]. now rewrite hd_rev. Qed.

Lemma payload_size : forall max k v, fits max k v -> size_of (filled k v) = Ok (Z.of_nat (List.length (payload k v))) /\ (0 < List.length (payload k v))%nat.
Proof.
  intros max k v H. destruct k, v; cbn [fits] in H; try contradiction; cbn [filled payload dt_of size_of stored].
  - rewrite H. split; [reflexivity|lia].
  - rewrite little_length. split; [reflexivity|lia].
  - rewrite little_length. split; [reflexivity|lia].
  - rewrite H. split; [reflexivity|lia].
  - destruct H as [H _]. destruct (Z.of_nat (List.length t) <? 0) eqn:E; [lia|]. split; [reflexivity|]. destruct t; [contradiction|cbn; lia].
Qed.
Lemma payload_decode : forall max k v, fits max k v -> decode (filled k v) (payload k v) = v.
Proof.
  intros max k v H. destruct k, v; cbn [fits] in H; try contradiction; cbn [filled payload dt_of decode stored]; try reflexivity.
  - now rewrite signed_little2.
  - now rewrite signed_little4.
  - destruct H as [_ [_ [_ [_ H]]]]. now rewrite rstrip_nuls_id.
Qed.
Lemma payload_width : forall max k v, fits max k v -> width (filled k v) = List.length (payload k v).
Proof. intros max k v H. destruct (payload_size max k v H) as [S _]. apply size_width in S. destruct S as [S _]. rewrite S. apply Nat2Z.id. Qed.
Lemma decode_filled : forall max n k v r s, fits max k v -> decode_row ((n, filled k v) :: r) (payload k v ++ s) = v :: decode_row r s.
Proof.
  intros max n k v r s H. cbn [decode_row]. rewrite (payload_width max) by assumption.
  rewrite firstn_app, skipn_app, Nat.sub_diag. cbn [firstn skipn]. rewrite app_nil_r, firstn_all, skipn_all. cbn [app].
  now rewrite (payload_decode max).
Qed.
Lemma stored_payload : forall max k v, fits max k v ->
  stored k v = (if is_str k then little 4 (Z.of_nat (List.length (payload k v))) else []) ++ payload k v.
Proof. intros max k v H. destruct k, v; cbn [fits] in H; try contradiction; reflexivity. Qed.

(** the length that precedes a string *)
Lemma length_group : forall src position whole (n : nat) s, Z.of_nat n < 2 ^ 31 ->
  ahead src position (little 4 (Z.of_nat n) ++ s) ->
  exists src' position', fetch false true whole src position [(record_length, I4)] (Some 1) =
    Ok ({| a_names := [record_length]; a_rows := [[VInt (Z.of_nat n)]] |}, src', position') /\ ahead src' position' s /\ buffered src' = buffered src.
Proof.
  intros src position whole n s B A.
  destruct (fetch_one true whole src position [(record_length, I4)] 4 (little 4 (Z.of_nat n)) s) as [src' [p' [F Q]]]; auto.
  exists src', p'. split; [|assumption]. rewrite F. cbn [map fst decode_row]. do 4 f_equal.
  unfold decode. cbn [width]. rewrite firstn_all2 by (rewrite little_length; lia). now rewrite signed_little4 by lia.
Qed.

(* ------------------------------------------------------------------ *)
(** Reading the parameters of a page *)
Fixpoint param_arrays (nks : list (text * kind)) (vs : list value) : list array :=
  match nks, vs with
  | (n, k) :: nks, v :: vs =>
      (if is_str k then [{| a_names := [record_length]; a_rows := [[VInt (Z.of_nat (List.length (payload k v)))]] |}] else []) ++
      {| a_names := [n]; a_rows := [[v]] |} :: param_arrays nks vs
  | _, _ => []
  end.
Lemma dtype_one : forall n k z, size_of k = Ok z -> dtype_size [(n, k)] = Ok z.
Proof. intros n k z H. unfold dtype_size. cbn. rewrite H. cbn. now rewrite Z.add_0_r. Qed.
Lemma fits_length : forall max k v, fits max k v -> is_str k = true -> Z.of_nat (List.length (payload k v)) < 2 ^ 31.
Proof. intros max k v H S. destruct k, v; cbn in *; try discriminate; try contradiction. unfold plain_string in H. lia. Qed.

Lemma fill_plain : forall prev n k, is_string k = false -> fill prev [(n, k)] = [(n, k)].
Proof. intros [a|] n k H; [|reflexivity]. unfold fill. destruct k as [| | | | |o]; cbn in H; try discriminate H; destruct (lookup a record_length) as [[]|]; reflexivity. Qed.
Lemma fill_if : forall (b : bool) prev n k, is_string k = false -> (if b then fill prev [(n, k)] else [(n, k)]) = [(n, k)].
Proof. intros [] *; [apply fill_plain|reflexivity]. Qed.

Lemma fetch_params : forall max whole varlen nks vs src position s prev,
  Forall2 (fits max) (map snd nks) vs -> (varlen = true \/ existsb (fun nk => is_str (snd nk)) nks = false) ->
  ahead src position (stored_all (map snd nks) vs ++ s) ->
  exists src' position', fetch_groups false varlen whole src position prev (parameter_groups false max (map coded nks)) =
    Ok (param_arrays nks vs, src', position') /\ ahead src' position' s /\ buffered src' = buffered src.
Proof.
  induction nks as [|[n k] nks IH]; intros vs src position s prev F V A.
  - inversion F; subst. cbn. eauto.
  - cbn [map snd] in F. inversion F as [|? v ? vs' H F']; subst. cbn [map stored_all snd] in A.
    rewrite (stored_payload max) in A by assumption.
    destruct (payload_size max k v H) as [Sz Pos].
    assert (V' : varlen = true \/ existsb (fun nk => is_str (snd nk)) nks = false).
    { destruct V as [V|V]; [now left|]. cbn in V. apply orb_false_iff in V. now right. }
    destruct (is_str k) eqn:K.
    + assert (varlen = true) by (destruct V as [V|V]; [assumption|cbn in V; rewrite K in V; discriminate]). subst varlen.
      destruct k; try discriminate. cbn [map coded parameter_groups dt_of fst snd].
      rewrite <- !app_assoc in A.
      destruct (length_group src position whole (List.length (payload Str v)) (payload Str v ++ stored_all (map snd nks) vs' ++ s))
        as [src1 [p1 [F1 [A1 B1]]]]; [apply (fits_length max Str v); auto|assumption|].
      cbn [fetch_groups]. rewrite (fill_if true) by reflexivity. rewrite F1. cbn [rbind].
      assert (Fl : fill (Some {| a_names := [record_length]; a_rows := [[VInt (Z.of_nat (List.length (payload Str v)))]] |}) [(n, DStr None)] = [(n, filled Str v)]).
      { destruct v; cbn in H; try contradiction. reflexivity. }
      rewrite Fl.
      destruct (fetch_one true whole src1 p1 [(n, filled Str v)] (List.length (payload Str v)) (payload Str v) (stored_all (map snd nks) vs' ++ s))
        as [src2 [p2 [F2 [A2 B2]]]]; auto; [apply dtype_one; assumption|].
      rewrite F2. cbn [rbind].
      destruct (IH vs' src2 p2 s (Some {| a_names := map fst [(n, filled Str v)]; a_rows := [decode_row [(n, filled Str v)] (payload Str v)] |}) F' V' A2) as [src3 [p3 [F3 [A3 B3]]]].
      rewrite F3. cbn [rbind]. exists src3, p3. split; [|split; [assumption|congruence]].
      cbn [param_arrays is_str app map fst]. do 5 f_equal.
      rewrite <- (app_nil_r (payload Str v)), (decode_filled max) by assumption. reflexivity.
    + assert (G : parameter_groups false max (map coded ((n, k) :: nks)) = [(n, filled k v)] :: parameter_groups false max (map coded nks)).
      { destruct k, v; cbn in H |- *; try contradiction; try discriminate; reflexivity. }
      rewrite G. cbn [fetch_groups]. rewrite fill_if by (destruct k, v; cbn in *; try contradiction; try discriminate; reflexivity).
      cbn [app] in A. rewrite <- app_assoc in A.
      destruct (fetch_one true whole src position [(n, filled k v)] (List.length (payload k v)) (payload k v) (stored_all (map snd nks) vs' ++ s))
        as [src2 [p2 [F2 [A2 B2]]]]; auto; [apply dtype_one; assumption|].
      rewrite F2. cbn [rbind].
      destruct (IH vs' src2 p2 s (Some {| a_names := map fst [(n, filled k v)]; a_rows := [decode_row [(n, filled k v)] (payload k v)] |}) F' V' A2) as [src3 [p3 [F3 [A3 B3]]]].
      rewrite F3. cbn [rbind]. exists src3, p3. split; [|split; [assumption|congruence]].
      cbn [param_arrays app]. rewrite K. cbn [app map fst]. do 5 f_equal.
      rewrite <- (app_nil_r (payload k v)), (decode_filled max) by assumption. reflexivity.
Qed.

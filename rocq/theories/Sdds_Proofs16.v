(** Lemmas for the SDDS claims: reading ends. *)
From Coq Require Import List Bool Arith Ascii String ZArith Reals Lia.
From Verif Require Import PyBase PyText Lte_Spec Sdds_Model Sdds_Spec Sdds_Proofs Sdds_Proofs2.
Import ListNotations.
Open Scope Z_scope.

(* ------------------------------------------------------------------ *)
(** None of the parts of a read loops *)
Definition halts {A} (x : res A) : Prop := x <> Diverges.
Lemma bind_halts : forall {A B} (x : res A) (k : A -> res B), halts x -> (forall a, halts (k a)) -> halts (rbind x k).
Proof. intros A B [a|e|] k H K; cbn; [apply K|discriminate|now contradiction H]. Qed.
Lemma size_of_halts : forall k, halts (size_of k).
Proof. intros k. destruct k as [| | | | |[n|]]; cbn; try discriminate. destruct (n <? 0); discriminate. Qed.
Lemma item_size_halts : forall g, halts (item_size g).
Proof. induction g as [|[n k] g IH]; [discriminate|]. cbn [item_size]. apply bind_halts; [apply size_of_halts|]. intros a. apply bind_halts; [exact IH|]. discriminate. Qed.
Lemma dtype_size_halts : forall g, halts (dtype_size g).
Proof. intros g. unfold dtype_size. destruct (distinct (map fst g)); [apply item_size_halts|discriminate]. Qed.
Lemma frombuffer_halts : forall f g c p, halts (frombuffer f g c p).
Proof.
  intros f g c p. unfold frombuffer. apply bind_halts; [apply dtype_size_halts|]. intros size. destruct ((size =? 0) || (p <? 0) || (Z.of_nat (List.length f) - p <? 0)); [discriminate|].
  destruct (c <? 0); [destruct ((Z.of_nat (List.length f) - p) mod size =? 0); discriminate|]. destruct (Z.of_nat (List.length f) - p <? c * size); discriminate.
Qed.
Lemma fromfile_halts : forall f ptr g c o, halts (fromfile f ptr g c o).
Proof.
  intros f ptr g c o. unfold fromfile. apply bind_halts; [apply dtype_size_halts|]. intros size. destruct (ptr + o <? 0); [discriminate|]. destruct (size =? 0); [destruct (c <? 0); discriminate|].
  destruct ((0 <=? c) && (c <=? Z.of_nat (List.length (skipn (Z.to_nat (ptr + o)) f)) / size)); discriminate.
Qed.
Lemma convert_halts : forall b k t, halts (convert b k t).
Proof.
  intros b k t. destruct k as [| | | | |[n|]]; cbn [convert]; try discriminate; try (destruct (py_float t); [discriminate|destruct (b && negb (nonfinite t)); discriminate]);
    (destruct b; [destruct (py_int t); discriminate|discriminate]).
Qed.
Lemma convert_row_halts : forall b g ts, halts (convert_row b g ts).
Proof. intros b. induction g as [|[n k] g IH]; intros ts; [discriminate|]. destruct ts as [|t ts]; [discriminate|]. cbn [convert_row]. apply bind_halts; [apply convert_halts|]. intros v. apply bind_halts; [apply IH|discriminate]. Qed.
Lemma convert_rows_halts : forall b g rows, halts (convert_rows b g rows).
Proof. intros b g. induction rows as [|t rows IH]; [discriminate|]. cbn [convert_rows]. apply bind_halts; [apply convert_row_halts|]. intros v. apply bind_halts; [apply IH|discriminate]. Qed.
Lemma genfromtxt_halts : forall whole ls s g m, halts (genfromtxt whole ls s g m).
Proof.
  intros whole ls s g m. unfold genfromtxt. destruct (match m with Some m0 => m0 <? 1 | None => false end); [discriminate|].
  apply bind_halts; [apply dtype_size_halts|]. intros _. destruct (negb (distinct (valid_names (map fst g)))); [discriminate|]. destruct (first_values whole (skipn (Z.to_nat s) ls)) as [cols|]; [|discriminate].
  destruct (take_rows whole cols (option_map Z.to_nat m) (skipn (Z.to_nat s) ls)) as [[rows bad] rest]. destruct (bad || (List.length g =? 1)%nat && negb (cols =? 1)%nat); [discriminate|].
  apply bind_halts; [apply convert_rows_halts|discriminate].
Qed.
Lemma fetch_halts : forall ascii single whole src p g c, halts (fetch ascii single whole src p g c).
Proof.
  intros ascii single whole [f|ls|f ptr] p g c; cbn [fetch].
  - destruct c as [c|]; [|discriminate]. apply bind_halts; [apply frombuffer_halts|]. intros a. apply bind_halts; [apply dtype_size_halts|discriminate].
  - apply bind_halts; [apply genfromtxt_halts|]. intros [a rest]. discriminate.
  - destruct ascii; [apply bind_halts; [apply genfromtxt_halts|]; intros [a rest]; discriminate|]. destruct c as [c|]; [|discriminate]. apply bind_halts; [apply fromfile_halts|]. intros [a q]. discriminate.
Qed.
Lemma fetch_groups_halts : forall ascii varlen whole gs src p prev, halts (fetch_groups ascii varlen whole src p prev gs).
Proof.
  intros ascii varlen whole. induction gs as [|g gs IH]; intros src p prev; [discriminate|]. cbn [fetch_groups]. apply bind_halts; [apply fetch_halts|]. intros [[a s] q].
  apply bind_halts; [apply IH|]. intros [[l s'] q']. discriminate.
Qed.
Lemma fetch_rows_halts : forall ascii varlen gs n src p, halts (fetch_rows n ascii varlen src p gs).
Proof.
  intros ascii varlen gs. induction n as [|n IH]; intros src p; [discriminate|]. cbn [fetch_rows]. apply bind_halts; [apply fetch_groups_halts|]. intros [[a s] q].
  apply bind_halts; [apply IH|]. intros [[l s'] q']. discriminate.
Qed.
Lemma column_data_halts : forall r src p n, halts (column_data r src p n).
Proof.
  intros r src p n. unfold column_data. destruct (r_ckeys r) as [|g [|h gs]].
  - destruct n; [apply fetch_rows_halts|discriminate].
  - apply bind_halts; [apply fetch_halts|]. intros [[a s] q]. discriminate.
  - destruct n; [apply fetch_rows_halts|discriminate].
Qed.
Lemma as_unicode_halts : forall max v, halts (as_unicode max v).
Proof. intros max [| | |t|]; cbn; try discriminate. destruct (forallb _ t); discriminate. Qed.
Lemma merged_value_halts : forall max n data, halts (merged_value max n data).
Proof.
  induction data as [|a data IH]; [discriminate|]. cbn [merged_value]. apply bind_halts; [exact IH|]. intros [v|]; [discriminate|]. destruct (position_of n (a_names a)) as [i|]; [|destruct (a_rows a) as [|? [|? ?]]; discriminate].
  destruct (a_rows a) as [|row [|? ?]]; try discriminate. destruct (nth_error row i) as [v|]; [|discriminate]. apply bind_halts; [apply as_unicode_halts|discriminate].
Qed.
Lemma merged_row_halts : forall max g data, halts (merged_row max g data).
Proof. induction g as [|[n k] g IH]; intros data; [discriminate|]. cbn [merged_row]. apply bind_halts; [apply merged_value_halts|]. intros x. apply bind_halts; [apply IH|discriminate]. Qed.
Lemma readable_halts : forall max ns row, halts (readable max ns row).
Proof.
  induction ns as [|n ns IH]; intros [|v row]; try discriminate. cbn [readable]. apply bind_halts; [destruct (teqb n record_length); [discriminate|apply as_unicode_halts]|]. intros _. apply IH.
Qed.
Lemma mergeable_halts : forall max ns data, halts (mergeable max ns data).
Proof.
  induction data as [|a data IH]; [discriminate|]. cbn [mergeable]. apply bind_halts; [|intros _; exact IH]. destruct (forallb _ _); [|discriminate].
  destruct (filter _ (a_names a)); [discriminate|]. destruct (a_rows a) as [|row [|? ?]]; [discriminate|apply readable_halts|discriminate].
Qed.
Lemma merge_halts : forall max gs data, halts (merge max gs data).
Proof.
  intros max gs data. unfold merge. destruct data as [|a [|b data]]; try discriminate;
    (destruct (distinct (map fst (merged max gs))); [apply bind_halts; [apply mergeable_halts|]; intros _; apply bind_halts; [apply merged_row_halts|discriminate]|discriminate]).
Qed.
Lemma stack_halts : forall max gs data, halts (stack max gs data).
Proof. induction data as [|d data IH]; [discriminate|]. cbn [stack]. apply bind_halts; [apply merge_halts|]. intros a. apply bind_halts; [exact IH|discriminate]. Qed.
Lemma entry_of_halts : forall n data, halts (entry_of n data).
Proof. induction data as [|a data IH]; [discriminate|]. cbn [entry_of]. destruct (a_names a) as [|m ns]; [discriminate|]. destruct (teqb m n); [destruct (lookup a n); discriminate|exact IH]. Qed.

(** what a turn does when it goes on: the parameters, and perhaps the columns, or a jump *)
Lemma turn_halts : forall r pages page g, halts (snd (page_turn r pages page g)).
Proof.
  intros r pages page g. unfold page_turn. destruct (past pages page) as [[|]|e|] eqn:PA; try discriminate.
  2: { unfold past in PA. destruct pages as [[|x l]|]; discriminate. }
  destruct (file_end (g_source g) (g_position g)); [discriminate|].
  pose proof (fetch_groups_halts (r_ascii r) (r_varlen r) true (r_pkeys r) (g_source g) (g_position g) None) as F.
  destruct (fetch_groups (r_ascii r) (r_varlen r) true (g_source g) (g_position g) None (r_pkeys r)) as [[[data src] p]|e|]; [|discriminate|now contradiction F].
  assert (X : halts (if wanted pages page then do x <- stack (r_max r) (r_pkeys r) [data]; Ok (g_pages g ++ [x]) else Ok (g_pages g))).
  { destruct (wanted pages page); [apply bind_halts; [apply stack_halts|discriminate]|discriminate]. }
  destruct (if wanted pages page then do x <- stack (r_max r) (r_pkeys r) [data]; Ok (g_pages g ++ [x]) else Ok (g_pages g)) as [ps|e|]; [|discriminate|now contradiction X].
  set (rows := match c_columns (r_content r) with [] => Ok (Some 0) | _ :: _ => if negb (truthy (field (r_data r) (T "no_row_counts"))) then do v <- entry_of row_counts data; Ok (Some match v with VInt z => z | _ => 0 end) else Ok (ascii_row_count src p) end).
  assert (Y : halts rows).
  { unfold rows. destruct (c_columns (r_content r)); [discriminate|]. destruct (negb (truthy (field (r_data r) (T "no_row_counts")))); [apply bind_halts; [apply entry_of_halts|discriminate]|discriminate]. }
  assert (Z : forall n, halts (snd (if wanted pages page || r_varlen r then
      match column_data r src p n with
      | Ok (data, src', position) => match stack (r_max r) (r_ckeys r) data with
          | Ok x => ({| g_pages := ps; g_rows := g_rows g ++ [x]; g_source := src'; g_position := position |}, Ok true)
          | Err e => ({| g_pages := ps; g_rows := g_rows g; g_source := src; g_position := p |}, Err e)
          | Diverges => ({| g_pages := ps; g_rows := g_rows g; g_source := src; g_position := p |}, Diverges) end
      | Err e => ({| g_pages := ps; g_rows := g_rows g; g_source := src; g_position := p |}, Err e)
      | Diverges => ({| g_pages := ps; g_rows := g_rows g; g_source := src; g_position := p |}, Diverges) end
    else match dtype_size (hd [] (r_ckeys r)), n with
      | Ok size, Some n => ({| g_pages := ps; g_rows := g_rows g; g_source := src; g_position := p + size * n |}, Ok true)
      | Ok _, None => ({| g_pages := ps; g_rows := g_rows g; g_source := src; g_position := p |}, Err TypeError)
      | Err e, _ => ({| g_pages := ps; g_rows := g_rows g; g_source := src; g_position := p |}, Err e)
      | Diverges, _ => ({| g_pages := ps; g_rows := g_rows g; g_source := src; g_position := p |}, Diverges) end))).
  { intros n. destruct (wanted pages page || r_varlen r).
    - pose proof (column_data_halts r src p n) as C. destruct (column_data r src p n) as [[[d s] q]|e|]; [|discriminate|now contradiction C].
      pose proof (stack_halts (r_max r) (r_ckeys r) d) as K. destruct (stack (r_max r) (r_ckeys r) d); [discriminate|discriminate|now contradiction K].
    - pose proof (dtype_size_halts (hd [] (r_ckeys r))) as C. destruct (dtype_size (hd [] (r_ckeys r))); [destruct n; discriminate|discriminate|now contradiction C]. }
  cbv zeta. fold rows. destruct rows as [[n|]|e|]; [|exact (Z None)|discriminate|now contradiction Y].
  pose proof (Z (Some n)) as Zn. destruct n; [discriminate|exact Zn|exact Zn].
Qed.

(** what a turn that goes on has done: read the parameters, and then the columns, or jumped over
    them, or nothing more *)
Lemma turn_on : forall r pages page g g', page_turn r pages page g = (g', Ok true) ->
  file_end (g_source g) (g_position g) = false /\ past pages page = Ok false /\
  exists data src p, fetch_groups (r_ascii r) (r_varlen r) true (g_source g) (g_position g) None (r_pkeys r) = Ok (data, src, p) /\
    ((g_source g' = src /\ g_position g' = p) \/
     (exists n d, column_data r src p n = Ok (d, g_source g', g_position g')) \/
     (wanted pages page = false /\ g_source g' = src)).
Proof.
  intros r pages page g g' H. unfold page_turn in H. destruct (past pages page) as [[|]|e|]; try discriminate.
  destruct (file_end (g_source g) (g_position g)); [discriminate|]. split; [reflexivity|]. split; [reflexivity|].
  destruct (fetch_groups (r_ascii r) (r_varlen r) true (g_source g) (g_position g) None (r_pkeys r)) as [[[data src] p]|e|]; try discriminate. exists data, src, p. split; [reflexivity|].
  destruct (if wanted pages page then do x <- stack (r_max r) (r_pkeys r) [data]; Ok (g_pages g ++ [x]) else Ok (g_pages g)) as [ps|e|]; try discriminate. cbv zeta in H.
  destruct (match c_columns (r_content r) with [] => Ok (Some 0) | _ :: _ => if negb (truthy (field (r_data r) (T "no_row_counts"))) then do v <- entry_of row_counts data; Ok (Some match v with VInt z => z | _ => 0 end) else Ok (ascii_row_count src p) end) as [n|e|]; try discriminate.
  assert (X : n = Some 0 \/ n <> Some 0) by (destruct n as [[|q|q]|]; [now left|right; discriminate|right; discriminate|right; discriminate]). destruct X as [-> |X].
  { injection H as <-. left. split; reflexivity. }
  destruct (wanted pages page || r_varlen r) eqn:W.
  - destruct (column_data r src p n) as [[[d s] q]|e|] eqn:C; [|destruct n as [[|?|?]|]; try discriminate; contradiction|destruct n as [[|?|?]|]; try discriminate; contradiction].
    assert (Y : match stack (r_max r) (r_ckeys r) d with
          | Ok x => ({| g_pages := ps; g_rows := g_rows g ++ [x]; g_source := s; g_position := q |}, Ok true)
          | Err e => ({| g_pages := ps; g_rows := g_rows g; g_source := src; g_position := p |}, Err e)
          | Diverges => ({| g_pages := ps; g_rows := g_rows g; g_source := src; g_position := p |}, Diverges) end = (g', Ok true)) by (destruct n as [[|?|?]|]; [contradiction|exact H|exact H|exact H]).
    destruct (stack (r_max r) (r_ckeys r) d); try discriminate. injection Y as <-. right. left. exists n, d. exact C.
  - apply orb_false_elim in W. destruct W as [W _]. right. right. split; [exact W|].
    destruct (dtype_size (hd [] (r_ckeys r))); destruct n as [[|?|?]|]; try discriminate; try contradiction; injection H as <-; reflexivity.
Qed.

(* ------------------------------------------------------------------ *)
(** The file position only grows *)
Lemma take_rows_rest : forall whole cols lines max rows bad rest, take_rows whole cols max lines = (rows, bad, rest) ->
  exists used, lines = used ++ rest /\ (max <> Some O -> lines <> [] -> used <> []).
Proof.
  intros whole cols. induction lines as [|l lines IH]; intros max rows bad rest H.
  - destruct max as [[|m]|]; cbn in H; injection H as <- <- <-; exists []; split; try reflexivity; intros _ C; now contradiction C.
  - destruct max as [[|m]|]; [cbn in H; injection H as <- <- <-; exists []; split; [reflexivity|intros C; now contradiction C]| |];
      cbn [take_rows] in H; destruct (line_values whole l) as [|v vs];
      try (destruct (IH _ _ _ _ H) as [u [-> _]]; exists (l :: u); split; [reflexivity|discriminate]);
      destruct (List.length (v :: vs) =? cols)%nat;
      [destruct (take_rows whole cols (option_map pred (Some (S m))) lines) as [[rr bb] re] eqn:E|destruct (take_rows whole cols (Some (S m)) lines) as [[rr bb] re] eqn:E
      |destruct (take_rows whole cols (option_map pred None) lines) as [[rr bb] re] eqn:E|destruct (take_rows whole cols None lines) as [[rr bb] re] eqn:E];
      injection H as <- <- <-; destruct (IH _ _ _ _ E) as [u [-> _]]; exists (l :: u); (split; [reflexivity|discriminate]).
Qed.
Lemma flines_nonempty : forall s, Forall (fun l => l <> []) (flines s).
Proof.
  induction s as [|c s IH]; [constructor|]. cbn [flines]. destruct (Ascii.eqb c newline); [constructor; [discriminate|assumption]|].
  destruct (flines s) as [|l ls]; [constructor; [discriminate|constructor]|]. constructor; [discriminate|now apply Forall_inv_tail in IH].
Qed.
Lemma flines_concat : forall s, List.concat (flines s) = s.
Proof.
  induction s as [|c s IH]; [reflexivity|]. cbn [flines]. destruct (Ascii.eqb c newline); [cbn [List.concat app]; now rewrite IH|].
  destruct (flines s) as [|l ls] eqn:E; [cbn in *; now rewrite <- IH|]. cbn [List.concat app]. cbn [List.concat] in IH. now rewrite IH.
Qed.
Lemma genfromtxt_rest : forall whole s g m a rest, genfromtxt whole (flines s) 0 g m = Ok (a, rest) ->
  (List.length (List.concat rest) <= List.length s)%nat /\ (s <> [] -> (List.length (List.concat rest) < List.length s)%nat).
Proof.
  intros whole s g m a rest H. unfold genfromtxt in H. destruct (match m with Some m0 => m0 <? 1 | None => false end) eqn:M; [discriminate|].
  destruct (dtype_size g); cbn [rbind] in H; try discriminate. destruct (negb (distinct (valid_names (map fst g)))); [discriminate|]. change (Z.to_nat 0) with O in H. cbn [skipn] in H.
  destruct (first_values whole (flines s)) as [cols|].
  - destruct (take_rows whole cols (option_map Z.to_nat m) (flines s)) as [[rows bad] re] eqn:E. destruct (bad || (List.length g =? 1)%nat && negb (cols =? 1)%nat); [discriminate|].
    destruct (convert_rows _ g rows) as [vs|e|]; try discriminate. cbn [rbind] in H. injection H as <- <-. destruct (take_rows_rest _ _ _ _ _ _ _ E) as [u [U N]].
    pose proof (flines_concat s) as FC. pose proof (flines_nonempty s) as FN. rewrite U in FC, FN. rewrite concat_app in FC. rewrite <- FC, app_length. split; [lia|]. intros NE.
    assert (NU : u <> []).
    { apply N; [destruct m as [m|]; [|discriminate]; apply Z.ltb_ge in M; cbn; intros C; injection C; lia|]. intros C. apply NE. rewrite FC. pose proof (flines_concat s) as X. rewrite C in X. now rewrite <- X. }
    destruct u as [|l u]; [contradiction|]. apply Forall_inv in FN. cbn [List.concat]. rewrite app_length. destruct l; [contradiction|]. cbn. lia.
  - injection H as <- <-. cbn. split; [lia|]. destruct s; [contradiction|cbn; lia].
Qed.
Lemma skipn_nil_ge : forall (f : text) ptr, 0 <= ptr -> skipn (Z.to_nat ptr) f = [] -> Z.of_nat (List.length f) <= ptr.
Proof. intros f ptr P E. apply (f_equal (@List.length ascii)) in E. rewrite skipn_length in E. cbn in E. lia. Qed.
(** what moves on in a file: text, and items with a size *)
Definition moving (ascii : bool) (g : group) : Prop := ascii = true \/ exists n, g = [(n, I4)].
Definition moves (ascii : bool) (gs : list group) : Prop := match gs with [] => False | g :: _ => moving ascii g end.
Lemma fill_moving : forall ascii prev g, moving ascii g -> moving ascii (fill prev g).
Proof.
  intros ascii prev g [M|[n ->]]; [now left|]. right. exists n. unfold fill. destruct prev as [a|]; [|reflexivity]. destruct (lookup a record_length) as [[| | | |]|]; reflexivity.
Qed.
Lemma fetch_file : forall ascii single whole f ptr g c a src p, fetch ascii single whole (File f ptr) 0 g c = Ok (a, src, p) -> 0 <= ptr ->
  exists ptr', src = File f ptr' /\ p = 0 /\ (ptr <= ptr' \/ Z.of_nat (List.length f) <= ptr') /\ (moving ascii g -> ptr < Z.of_nat (List.length f) -> 0 < match c with Some c => c | None => 1 end -> ptr < ptr').
Proof.
  intros ascii single whole f ptr g c a src p H P. cbn [fetch] in H. destruct ascii.
  - destruct (genfromtxt whole (flines (skipn (Z.to_nat ptr) f)) 0 g c) as [[x rest]|e|] eqn:G; try discriminate. cbn [rbind] in H. injection H as <- <- <-.
    destruct (genfromtxt_rest _ _ _ _ _ _ G) as [L1 L2]. rewrite skipn_length in L1, L2. eexists. split; [reflexivity|]. split; [reflexivity|]. split.
    + destruct (Z.le_gt_cases (Z.of_nat (List.length f)) ptr); [right|left]; lia.
    + intros _ B _. assert (NE : skipn (Z.to_nat ptr) f <> []) by (intros E; apply skipn_nil_ge in E; lia). specialize (L2 NE). lia.
  - destruct c as [c|]; [|discriminate]. unfold fromfile in H. destruct (dtype_size g) as [size|e|] eqn:D; try discriminate. cbn [rbind] in H.
    destruct (ptr + 0 <? 0); [discriminate|]. destruct (size =? 0) eqn:Z0.
    { destruct (c <? 0); [discriminate|]. injection H as <- <- <-. eexists. split; [reflexivity|]. split; [reflexivity|]. split; [left; lia|]. intros [M|[n ->]]; [discriminate|]. cbn in D. injection D as <-. discriminate. }
    apply Z.eqb_neq in Z0.
    assert (SP : 0 <= size). { unfold dtype_size in D. destruct (distinct (map fst g)); [|discriminate]. eapply item_size_nonneg; eassumption. }
    destruct ((0 <=? c) && (c <=? Z.of_nat (List.length (skipn (Z.to_nat (ptr + 0)) f)) / size)) eqn:CC; injection H as <- <- <-; eexists; (split; [reflexivity|]); (split; [reflexivity|]).
    + apply andb_true_iff in CC. destruct CC as [C1 C2]. apply Z.leb_le in C1. split; [left; nia|]. intros _ _ C0. nia.
    + split; [left; lia|]. intros _. lia.
Qed.
Lemma fetch_groups_file : forall ascii varlen whole f gs ptr prev l src p, fetch_groups ascii varlen whole (File f ptr) 0 prev gs = Ok (l, src, p) -> 0 <= ptr ->
  exists ptr', src = File f ptr' /\ p = 0 /\ (ptr <= ptr' \/ Z.of_nat (List.length f) <= ptr') /\ (ptr < Z.of_nat (List.length f) -> moves ascii gs -> ptr < ptr').
Proof.
  intros ascii varlen whole f. induction gs as [|g gs IH]; intros ptr prev l src p H P.
  - cbn in H. injection H as <- <- <-. exists ptr. repeat split; try lia. intros _ [].
  - cbn [fetch_groups] in H. destruct (fetch ascii true whole (File f ptr) 0 (if varlen then fill prev g else g) (Some 1)) as [[[a s] q]|e|] eqn:F; try discriminate. cbn [rbind] in H.
    destruct (fetch_file _ _ _ _ _ _ _ _ _ _ F P) as [m [-> [-> [A B]]]].
    destruct (fetch_groups ascii varlen whole (File f m) 0 (Some a) gs) as [[[l' s'] q']|e|] eqn:G; try discriminate. cbn [rbind] in H. injection H as <- <- <-.
    assert (M : 0 <= m) by lia. destruct (IH _ _ _ _ _ G M) as [m' [-> [-> [C D]]]]. exists m'. repeat split; [lia|]. intros L MV. cbn [moves] in MV.
    assert (MV' : moving ascii (if varlen then fill prev g else g)) by (destruct varlen; [now apply fill_moving|exact MV]). specialize (B MV' L). lia.
Qed.
Lemma fetch_rows_file : forall ascii varlen f gs n ptr l src p, fetch_rows n ascii varlen (File f ptr) 0 gs = Ok (l, src, p) -> 0 <= ptr ->
  exists ptr', src = File f ptr' /\ p = 0 /\ (ptr <= ptr' \/ Z.of_nat (List.length f) <= ptr').
Proof.
  intros ascii varlen f gs. induction n as [|n IH]; intros ptr l src p H P.
  - cbn in H. injection H as <- <- <-. exists ptr. repeat split. lia.
  - cbn [fetch_rows] in H. destruct (fetch_groups ascii varlen false (File f ptr) 0 None gs) as [[[a s] q]|e|] eqn:F; try discriminate. cbn [rbind] in H.
    destruct (fetch_groups_file _ _ _ _ _ _ _ _ _ _ F P) as [m [-> [-> [A B]]]].
    destruct (fetch_rows n ascii varlen (File f m) 0 gs) as [[[l' s'] q']|e|] eqn:G; try discriminate. cbn [rbind] in H. injection H as <- <- <-.
    assert (M : 0 <= m) by lia. destruct (IH _ _ _ _ G M) as [m' [-> [-> C]]]. exists m'. repeat split. lia.
Qed.
Lemma column_data_file : forall r f n ptr l src p, column_data r (File f ptr) 0 n = Ok (l, src, p) -> 0 <= ptr ->
  exists ptr', src = File f ptr' /\ p = 0 /\ (ptr <= ptr' \/ Z.of_nat (List.length f) <= ptr').
Proof.
  intros r f n ptr l src p H P. unfold column_data in H. destruct (r_ckeys r) as [|g [|h gs]].
  - destruct n as [n|]; [|discriminate]. eapply fetch_rows_file; eassumption.
  - destruct (fetch (r_ascii r) false false (File f ptr) 0 g n) as [[[a s] q]|e|] eqn:F; try discriminate. cbn [rbind] in H. injection H as <- <- <-.
    destruct (fetch_file _ _ _ _ _ _ _ _ _ _ F P) as [m [-> [-> [A _]]]]. exists m. auto.
  - destruct n as [n|]; [|discriminate]. eapply fetch_rows_file; eassumption.
Qed.

(** Buffered lines: the position only grows *)
Lemma fetch_lines_on : forall ascii single whole ls position g c a src p, fetch ascii single whole (Lines ls) position g c = Ok (a, src, p) ->
  src = Lines ls /\ position <= p /\ (single = true -> position < p).
Proof.
  intros ascii single whole ls position g c a src p H. cbn [fetch] in H. destruct (genfromtxt whole ls position g c) as [[x rest]|e|] eqn:G; try discriminate. cbn [rbind] in H. injection H as <- <- <-.
  split; [reflexivity|]. destruct single; [lia|]. split; [|discriminate]. destruct c as [c|]; [|lia]. unfold genfromtxt in G. destruct (c <? 1) eqn:C; [discriminate|]. apply Z.ltb_ge in C. lia.
Qed.
Lemma fetch_groups_lines : forall ascii varlen whole ls gs position prev l src p, fetch_groups ascii varlen whole (Lines ls) position prev gs = Ok (l, src, p) ->
  src = Lines ls /\ position <= p /\ (gs <> [] -> position < p).
Proof.
  intros ascii varlen whole ls. induction gs as [|g gs IH]; intros position prev l src p H.
  - cbn in H. injection H as <- <- <-. repeat split; [lia|]. intros C. now contradiction C.
  - cbn [fetch_groups] in H. destruct (fetch ascii true whole (Lines ls) position (if varlen then fill prev g else g) (Some 1)) as [[[a s] q]|e|] eqn:F; try discriminate. cbn [rbind] in H.
    destruct (fetch_lines_on _ _ _ _ _ _ _ _ _ _ F) as [-> [A B]]. specialize (B eq_refl).
    destruct (fetch_groups ascii varlen whole (Lines ls) q (Some a) gs) as [[[l' s'] q']|e|] eqn:G; try discriminate. cbn [rbind] in H. injection H as <- <- <-.
    destruct (IH _ _ _ _ _ G) as [-> [C D]]. repeat split; lia.
Qed.
Lemma fetch_rows_lines : forall ascii varlen ls gs n position l src p, fetch_rows n ascii varlen (Lines ls) position gs = Ok (l, src, p) -> src = Lines ls /\ position <= p.
Proof.
  intros ascii varlen ls gs. induction n as [|n IH]; intros position l src p H.
  - cbn in H. injection H as <- <- <-. split; [reflexivity|lia].
  - cbn [fetch_rows] in H. destruct (fetch_groups ascii varlen false (Lines ls) position None gs) as [[[a s] q]|e|] eqn:F; try discriminate. cbn [rbind] in H.
    destruct (fetch_groups_lines _ _ _ _ _ _ _ _ _ _ F) as [-> [A _]].
    destruct (fetch_rows n ascii varlen (Lines ls) q gs) as [[[l' s'] q']|e|] eqn:G; try discriminate. cbn [rbind] in H. injection H as <- <- <-.
    destruct (IH _ _ _ _ G) as [-> B]. split; [reflexivity|lia].
Qed.
Lemma column_data_lines : forall r ls n position l src p, column_data r (Lines ls) position n = Ok (l, src, p) -> src = Lines ls /\ position <= p.
Proof.
  intros r ls n position l src p H. unfold column_data in H. destruct (r_ckeys r) as [|g [|h gs]].
  - destruct n as [n|]; [|discriminate]. eapply fetch_rows_lines; eassumption.
  - destruct (fetch (r_ascii r) false false (Lines ls) position g n) as [[[a s] q]|e|] eqn:F; try discriminate. cbn [rbind] in H. injection H as <- <- <-.
    destruct (fetch_lines_on _ _ _ _ _ _ _ _ _ _ F) as [-> [A _]]. auto.
  - destruct n as [n|]; [|discriminate]. eapply fetch_rows_lines; eassumption.
Qed.

(* ------------------------------------------------------------------ *)
(** A loop with a measure ends *)
Lemma loop_ends : forall r pages (inv : progress -> Prop) (m : Z -> progress -> nat),
  (forall page g g', inv g -> page_turn r pages page g = (g', Ok true) -> inv g' /\ (m (page + 1)%Z g' < m page g)%nat) ->
  forall fuel page g, inv g -> (m page g < fuel)%nat -> page_loop fuel r pages page g <> None.
Proof.
  intros r pages inv m STEP. induction fuel as [|fuel IH]; intros page g I L; [lia|]. cbn [page_loop]. pose proof (turn_halts r pages page g) as H.
  destruct (page_turn r pages page g) as [g' x] eqn:E. cbn [snd] in H. destruct x as [[|]|e|]; [|discriminate|discriminate|now contradiction H].
  destruct (STEP page g g' I E) as [I' L']. apply IH; [assumption|lia].
Qed.
Lemma concat_pages_halts : forall l, halts (concat_pages l).
Proof. intros [|x l]; [discriminate|]. cbn. destruct (forallb (same_rows x) l); discriminate. Qed.
Lemma loop_read : forall fuel r pages,
  page_loop fuel r pages 0 {| g_pages := r_pages r; g_rows := r_rows r; g_source := source_of r; g_position := if r_buffer r then if r_ascii r then Z.of_nat (r_count r) else r_pointer r else 0 |} <> None ->
  read fuel r pages <> None.
Proof.
  intros fuel r pages H. unfold read. destruct (page_loop fuel r pages 0 _) as [[g x]|] eqn:E; [|contradiction]. clear H.
  assert (X : x <> Diverges).
  { clear - E. intros ->. revert E. generalize 0 at 1. match goal with |- forall z, page_loop fuel r pages z ?g0 = _ -> _ => generalize g0 end. induction fuel as [|fuel IH]; intros g0 z E; [discriminate|].
    cbn [page_loop] in E. destruct (page_turn r pages z g0) as [g' [[|]|e|]]; try discriminate. eapply IH; eassumption. }
  destruct x as [u|e|]; [|discriminate|contradiction]. pose proof (concat_pages_halts (g_pages g)) as P. destruct (concat_pages (g_pages g)) as [ps|e|]; [|discriminate|now contradiction P].
  destruct (r_ckeys r); [discriminate|]. pose proof (concat_pages_halts (g_rows g)) as Q. destruct (concat_pages (g_rows g)) as [cs|e|]; [discriminate|discriminate|now contradiction Q].
Qed.
Lemma scan_suffix : forall fs inside h n h' n' rest, scan inside h n fs = Ok (h', n', rest) -> exists u, fs = u ++ rest.
Proof.
  induction fs as [|l fs IH]; intros inside h n h' n' rest H; [discriminate|]. cbn [scan] in H.
  assert (K : forall i hh nn, scan i hh nn fs = Ok (h', n', rest) -> exists u, l :: fs = u ++ rest) by (intros i hh nn E; destruct (IH _ _ _ _ _ _ E) as [u ->]; now exists (l :: u)).
  destruct (skippable l); [eauto|]. destruct inside as [[d acc]|].
  - destruct (occurs (T "&end") l); [|eauto]. destruct d; [injection H as <- <- <-; now exists [l]|eauto].
  - destruct (existsb (fun nl => occurs nl l) namelists); [destruct (occurs (T "&end") l); eauto|]. destruct (prefixb (T "&data") l); [|discriminate].
    destruct (occurs (T "&end") l); [injection H as <- <- <-; now exists [l]|eauto].
Qed.
Lemma read_line_suffix : forall fs l rest, read_line fs = Ok (l, rest) -> exists u, fs = u ++ rest.
Proof.
  induction fs as [|x fs IH]; intros l rest H; [discriminate|]. cbn [read_line] in H. destruct (skippable x); [destruct (IH _ _ H) as [u ->]; now exists (x :: u)|]. injection H as <- <-. now exists [x].
Qed.
Lemma opened_keys : forall f buffer max r, open_sdds f buffer max = Ok r -> (r_pkeys r <> [] /\ moves (r_ascii r) (r_pkeys r)) /\ r_buffer r = buffer /\ 0 <= r_pointer r.
Proof.
  intros f buffer max r H. unfold open_sdds in H. destruct (read_header f) as [[[hd n] rest]|e|] eqn:RH; try discriminate. cbn [rbind] in H.
  destruct (parse_all no_content hd) as [c|e|]; try discriminate. cbn [rbind] in H. destruct (c_data c) as [|d ds]; [discriminate|].
  set (asc := match field d (T "mode") with FStr m => teqb m (T "ascii") | _ => false end) in *.
  destruct (parameter_keys asc max c d) as [pk|e|] eqn:PK; try discriminate. cbn [rbind] in H. injection H as <-. cbn [r_pkeys r_buffer r_pointer r_ascii]. split; [|split; [reflexivity|]].
  - enough (X : pk <> [] /\ (asc = false -> exists r, pk = [(row_counts, I4)] :: r)).
    { destruct X as [X Y]. split; [exact X|]. destruct asc; [destruct pk; [now elim X|now left]|]. destruct (Y eq_refl) as [q ->]. right. now exists row_counts. }
    unfold parameter_keys in PK. destruct asc; cbn [negb] in PK; [|injection PK as <-; split; [discriminate|intros _; eexists; reflexivity]]. split; [|discriminate]. destruct (negb (truthy (field d (T "no_row_counts"))) && negb (match c_columns c with [] => true | _ => false end)).
    + injection PK as <-. intros C. apply app_eq_nil in C. destruct C as [_ C]. discriminate.
    + destruct (parameter_groups _ max (keyed (c_parameters c))); [discriminate|]. injection PK as <-. discriminate.
  - unfold read_header in RH. destruct (read_line (flines f)) as [[l r0]|e|] eqn:RL; try discriminate. cbn [rbind] in RH. destruct (occurs (T "SDDS1") l); [|discriminate].
    destruct (read_line_suffix _ _ _ RL) as [u U]. destruct (scan_suffix _ _ _ _ _ _ _ RH) as [v V]. pose proof (flines_concat f) as C. rewrite U, V, !concat_app in C.
    apply (f_equal (@List.length ascii)) in C. rewrite !app_length in C. lia.
Qed.

(** Without the buffer, and for lines in the buffer, all pages *)
Lemma all_wanted : forall page, wanted None page = true.
Proof. reflexivity. Qed.
Lemma unbuffered_ends : forall f max r, open_sdds f false max = Ok r -> finishes r None.
Proof.
  intros f max r E. destruct (opened_keys _ _ _ _ E) as [[_ K] [B P]].
  exists (Datatypes.S (Z.to_nat (Z.of_nat (List.length (r_file r)) - r_pointer r))). intros fuel L. apply loop_read. unfold source_of. rewrite B.
  apply (loop_ends r None (fun g => exists ptr, g_source g = File (r_file r) ptr /\ 0 <= ptr /\ g_position g = 0)
           (fun _ g => match g_source g with File f ptr => Z.to_nat (Z.of_nat (List.length f) - ptr) | _ => O end)).
  - intros page g g' [ptr [S [Q O0]]] T. destruct (turn_on _ _ _ _ _ T) as [FE [_ [data [src [p [F C]]]]]]. rewrite S, O0 in *.
    assert (LT : ptr < Z.of_nat (List.length (r_file r))).
    { destruct (Z.lt_ge_cases ptr (Z.of_nat (List.length (r_file r)))); [assumption|]. cbn [file_end] in FE. rewrite skipn_all2 in FE by lia. discriminate. }
    destruct (fetch_groups_file _ _ _ _ _ _ _ _ _ _ F Q) as [m [-> [-> [A D]]]]. specialize (D LT K).
    destruct C as [[C1 C2]|[[n [d C]]|[C _]]]; [| |discriminate].
    + rewrite C1, C2. split; [exists m; repeat split; lia|lia].
    + destruct (column_data_file _ _ _ _ _ _ _ C) as [m' [C1 [C2 C3]]]; [lia|]. rewrite C1, C2. split; [exists m'; repeat split; lia|lia].
  - exists (r_pointer r). cbn. auto.
  - cbn. lia.
Qed.
Lemma lines_end : forall f max r, open_sdds f true max = Ok r -> r_ascii r = true -> finishes r None.
Proof.
  intros f max r E AS. destruct (opened_keys _ _ _ _ E) as [[K _] [B _]]. set (ls := buffered_lines (r_file r)).
  exists (Datatypes.S (Z.to_nat (Z.of_nat (List.length ls) - Z.of_nat (r_count r)))). intros fuel L. apply loop_read. unfold source_of. rewrite B, AS. fold ls.
  apply (loop_ends r None (fun g => g_source g = Lines ls) (fun _ g => Z.to_nat (Z.of_nat (List.length ls) - g_position g))).
  - intros page g g' S T. destruct (turn_on _ _ _ _ _ T) as [FE [_ [data [src [p [F C]]]]]]. rewrite S in *. cbn [file_end] in FE. apply Z.leb_gt in FE.
    destruct (fetch_groups_lines _ _ _ _ _ _ _ _ _ _ F) as [-> [A D]]. specialize (D K).
    destruct C as [[C1 C2]|[[n [d C]]|[C _]]]; [| |discriminate].
    + rewrite C2. split; [assumption|lia].
    + destruct (column_data_lines _ _ _ _ _ _ _ C) as [C1 C2]. split; [assumption|lia].
  - reflexivity.
  - cbn. lia.
Qed.
(** With a selection, any reader at all *)
Lemma fold_max_ge : forall l x, x <= fold_right Z.max x l.
Proof. induction l as [|y l IH]; intros x; cbn; [lia|]. specialize (IH x). lia. Qed.
Lemma selected_ends : forall r S, finishes r (Some S).
Proof.
  intros r S. destruct S as [|x l].
  - exists 1%nat. intros [|fuel] L; [lia|]. unfold read. cbn [page_loop]. unfold page_turn. cbn [past]. discriminate.
  - exists (Datatypes.S (Z.to_nat (fold_right Z.max x l + 1))). intros fuel L. apply loop_read.
    apply (loop_ends r (Some (x :: l)) (fun _ => True) (fun page _ => Z.to_nat (fold_right Z.max x l + 1 - page))).
    + intros page g g' _ T. destruct (turn_on _ _ _ _ _ T) as [_ [PA _]]. cbn [past] in PA. injection PA as PA. apply Z.ltb_ge in PA. split; [exact I|]. lia.
    + exact I.
    + lia.
Qed.

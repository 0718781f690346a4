(** Claims C41 to C44: the elegant lattice parser. *)
From Coq Require Import List Reals Bool Arith String Ascii ZArith Lia Lra.
From Verif Require Import PyBase PyDict PyText Line_Model Lte_Model Lte_Spec Line_Proofs Lte_Proofs Lte_Proofs2 Lte_Proofs3 Lte_Proofs4 Lte_Proofs5 Lte_Proofs6.
Import ListNotations.
Open Scope R_scope.

(* ------------------------------------------------------------------ *)
(** C41 *)
Theorem C41_value : forall e s r, expr_ok e -> written (words e) s -> expr_value e = Some r ->
  exists x, parse_rpn s = Ok x /\ real_of x = Some r.
Proof. exact parse_number. Qed.
Print Assumptions C41_value.

(** whatever expressions precede it *)
Theorem C41_preceded : forall before e s r, Forall expr_ok before -> Forall (fun b => expr_value b <> None) before ->
  expr_ok e -> written (flat_map words before ++ words e) s -> expr_value e = Some r ->
  exists x, parse_rpn s = Ok x /\ real_of x = Some r.
Proof.
  intros before e s r Hb Vb He W V.
  assert (EW : flat_map words before ++ words e = map word_text (flat_map wordlist before ++ wordlist e)).
  { rewrite map_app, words_wordlist. f_equal. clear. induction before as [|b l IH]; [reflexivity|]. cbn [flat_map]. rewrite map_app, IH, words_wordlist. reflexivity. }
  rewrite (written_toks _ _ (flat_map wordlist before ++ wordlist e) W EW).
  2:{ apply Forall_app. split; [|apply wordlist_ok; exact He]. clear - Hb. induction Hb as [|b l H1 H2 IH]; [constructor|]. cbn [flat_map]. apply Forall_app. split; [apply wordlist_ok; exact H1|exact IH]. }
  rewrite map_app, tok_loop_app. destruct (tok_exprs before [] Vb) as (st & ->). cbn [rbind]. rewrite tok_expr.
  destruct (computed_value e) as [(x & -> & X)|[_ X]]; [|congruence]. cbn [rbind]. exists x. split; [reflexivity|congruence].
Qed.
Print Assumptions C41_preceded.

(** an expression without a value never gives a number *)
Theorem C41_undefined : forall e s, expr_ok e -> written (words e) s -> expr_value e = None ->
  parse_rpn s = Err ZeroDivisionError \/ exists x, parse_rpn s = Ok x /\ real_of x = None.
Proof.
  intros e s He W V. rewrite (written_toks _ _ (wordlist e) W (words_wordlist e) (wordlist_ok e He)), tok_expr.
  destruct (computed_value e) as [(x & -> & X)|[-> _]]; [|left; reflexivity]. right. exists x. split; [reflexivity|congruence].
Qed.
Print Assumptions C41_undefined.

Theorem C41_short_of_operands : forall ws s, Forall word_ok ws -> short_of_operands ws -> written (map word_text ws) s ->
  exists x, parse_rpn s = Err x.
Proof.
  intros ws s F H W. rewrite (written_toks _ _ ws W eq_refl F). pose proof (tok_depth ws []) as D. cbn [List.length] in D. destruct H as [H|H]; rewrite H in D.
  - destruct D as (x & ->). exists x. reflexivity.
  - destruct D as [(st & -> & L)| ->]; [|eexists; reflexivity]. destruct st; [|discriminate]. cbn [rbind]. eexists; reflexivity.
Qed.
Print Assumptions C41_short_of_operands.

(* 1.5 2 + sqrt, in quotation marks *)
Definition lit (i : list nat) (f : option (list nat)) : literal := {| l_sign := None; l_int := i; l_frac := f; l_exp := None |}.
Definition example_expr : expr := Root (Binary Plus (Const (lit [1] (Some [5]))) (Const (lit [2] None)))%nat.
Lemma digits_by : forall d, forallb (fun k => k <? 10)%nat d = true -> digits_ok d.
Proof. intros d H k I. rewrite forallb_forall in H. apply H in I. apply Nat.ltb_lt in I. exact I. Qed.
Lemma lit_by : forall i f, i <> [] -> forallb (fun k => k <? 10)%nat i = true -> forallb (fun k => k <? 10)%nat (match f with Some x => x | None => [] end) = true -> literal_ok (lit i f).
Proof. intros i f N A B. split; [apply digits_by; exact A|]. split; [apply digits_by; destruct f; exact B|]. split; [destruct i; [contradiction|discriminate]|exact I]. Qed.
Example C41_applies : expr_ok example_expr /\ written (words example_expr) (dquote ++ T "1.5 2 + sqrt" ++ dquote) /\
  exists r, expr_value example_expr = Some r /\ r * r = 35 / 10.
Proof.
  split; [|split].
  - split; apply lit_by; (discriminate || reflexivity).
  - exact (written_quoted 0 [(T "1.5", 0); (T "2", 0); (T "+", 0)]%nat (T "sqrt") 0 [] (or_introl eq_refl)).
  - cbn [expr_value example_expr binary_value literal_value lit l_sign l_int l_frac l_exp frac_digits decimal signed scale List.length pow].
    set (q := _ + _). assert (Q : q = 35 / 10) by (unfold q, literal_value, frac_digits; cbn; lra). destruct (Rlt_dec q 0); [lra|]. exists (sqrt q). split; [reflexivity|]. rewrite sqrt_sqrt by lra. exact Q.
Qed.
Example C41_short_applies : short_of_operands [WConst (lit [1]%nat None); WBinary Plus] /\ written (map word_text [WConst (lit [1]%nat None); WBinary Plus]) (T "1 +").
Proof. split; [left; reflexivity|]. exact (written_plain 0 [(T "1", 0)]%nat (T "+") 0 [] (or_introl eq_refl)). Qed.

(* ------------------------------------------------------------------ *)
(** C42 *)
Theorem C42_expansion_partial : forall es sel before items tail els uses beamline_name show,
  lattice_ok es -> In (Line sel before items tail) es -> unfolds es items els uses -> NoDup uses -> lowert beamline_name = bare sel ->
  exists k h addrs, (forall fuel, (k <= fuel)%nat -> import fuel show (map entry_text es) beamline_name = (h, Ok tt)) /\
    get_beamline_elements h 0 = Ok addrs /\
    Forall2 (fun a n => exists el, nth_error (elems h) a = Some el /\ is_element es n el) addrs els.
Proof.
  intros es sel before items tail els uses bn show L I U ND E. destruct (import_ok es sel before items tail els uses bn show L I U ND E) as (k & h & R & G).
  destruct (good_flat _ _ _ _ _ G) as (addrs & G1 & G2). exists k, h, addrs. auto.
Qed.
Print Assumptions C42_expansion_partial.
(* missing: lines in which a line is used more than once, repetitions inside repetitions, blanks
   before a repetition, a line entered by a quoted name, all refuted below; names in single quotes *)

(** the names found in the beamline that a file gives *)
Definition names_of (r : heap * res unit) : option (list string) :=
  match r with
  | (h, Ok _) => match get_beamline_elements h 0 with
                 | Ok l => Some (map (fun a => match nth_error (elems h) a with Some el => e_name el | None => EmptyString end) l)
                 | _ => None
                 end
  | _ => None
  end.
Definition file_of (ls : list string) : list text := map (fun s => T s ++ [newline]) ls.
Definition no_show (_ : num) : text := [].

(** main: line=(cell,cell) is c c, the beamline has it four times *)
Theorem C42_line_used_twice_refuted : exists k, forall fuel, (k <= fuel)%nat ->
  names_of (import fuel no_show (file_of ["c: drift"; "cell: line=(c)"; "main: line=(cell,cell)"]%string) (T "main")) = Some ["c"; "c"; "c"; "c"]%string.
Proof. exists 10%nat. intros fuel H. replace fuel with (10 + (fuel - 10))%nat by lia. vm_compute. reflexivity. Qed.
Print Assumptions C42_line_used_twice_refuted.

(** 2*(a,2*(b,c)) is a b c b c a b c b c, and cannot be read *)
Theorem C42_nested_repetition_refuted : exists k, forall fuel, (k <= fuel)%nat ->
  snd (import fuel no_show (file_of ["a: drift"; "b: drift"; "c: drift"; "main: line=(2*(a,2*(b,c)))"]%string) (T "main")) = Err TypeError.
Proof. exists 30%nat. intros fuel H. replace fuel with (30 + (fuel - 30))%nat by lia. vm_compute. reflexivity. Qed.
Print Assumptions C42_nested_repetition_refuted.

(** (a, 2*b) cannot be read *)
Theorem C42_blank_before_repetition_refuted : exists k, forall fuel, (k <= fuel)%nat ->
  snd (import fuel no_show (file_of ["a: drift"; "b: drift"; "main: line=(a, 2*b)"]%string) (T "main")) = Err TypeError.
Proof. exists 30%nat. intros fuel H. replace fuel with (30 + (fuel - 30))%nat by lia. vm_compute. reflexivity. Qed.
Print Assumptions C42_blank_before_repetition_refuted.

(** "c", in quotes, is the element c; "cell", in quotes, is not the line cell and cannot be read *)
Definition in_quotes (s : text) : text := (dquote ++ s ++ dquote)%list.
Definition main_of (inside : text) : list text :=
  (file_of ["c: drift"; "cell: line=(c)"]%string ++ [in_quotes (T "main") ++ T ": line=(" ++ inside ++ T ")"])%list.
Theorem C42_quoted_line_refuted : exists k, forall fuel, (k <= fuel)%nat ->
  names_of (import fuel no_show (main_of (in_quotes (T "c") ++ T ",cell")) (T "main")) = Some ["c"; "c"]%string /\
  snd (import fuel no_show (main_of (in_quotes (T "c") ++ T "," ++ in_quotes (T "cell"))) (T "main")) = Err TypeError.
Proof. exists 30%nat. intros fuel H. replace fuel with (30 + (fuel - 30))%nat by lia. split; vm_compute; reflexivity. Qed.
Print Assumptions C42_quoted_line_refuted.

Definition name (s : string) : name_in := (T " ", T s, []).
Definition quoted_name (s : string) : name_in := (T " ", in_quotes (T s), []).
Definition drift : definition := {| d_written := in_quotes (T "d1"); d_before := T " "; d_type := T "drift"; d_after := T " ";
  d_params := [{| p_before := T " "; p_key := T "l"; p_after := T " "; p_value := T " 2 3 *"; p_meaning := Number 6 |};
               {| p_before := T " "; p_key := T "f"; p_after := T ""; p_value := dquote ++ T "w.out" ++ dquote; p_meaning := Word (T "w.out") |}] |}.
Definition mark : definition := {| d_written := T "m"; d_before := []; d_type := T "marker"; d_after := []; d_params := [] |}.
Definition cell_items : list item := [RepeatOne [2]%nat (name "d1"); One (name "m")].
Definition main_items : list item := [One (name "m"); One (name "cell"); RepeatList [1;0]%nat [name "m"; quoted_name "d1"]].
Definition example_lattice : list entry :=
  [Define drift; Define mark; Line (T "cell") (T " ") cell_items [newline]; Line (in_quotes (T "main")) (T " ") main_items [newline]].

Ltac chars := let c := fresh in let H := fresh in intros c H; cbn in H; repeat destruct H as [H|H]; try (subst c); try contradiction; try (reflexivity); try (cbn; lia).
Lemma identifier_by : forall s, s <> [] -> forallb (fun c => negb (is_ws c) && negb (existsb (Ascii.eqb c) (quote :: apostrophe :: T ",=:()!&%")) && negb ((65 <=? nat_of_ascii c) && (nat_of_ascii c <=? 90))%nat) s = true -> identifier s.
Proof.
  intros s N H. rewrite forallb_forall in H. split; [exact N|]. split.
  - intros c I. apply H in I. apply andb_true_iff in I. destruct I as [I _]. apply andb_true_iff in I. destruct I as [I1 I2]. apply negb_true_iff in I1. apply negb_true_iff in I2.
    assert (X : forall d, In d (quote :: apostrophe :: T ",=:()!&%") -> c <> d).
    { intros d J ->. assert (Y : existsb (Ascii.eqb d) (quote :: apostrophe :: T ",=:()!&%") = true) by (apply existsb_exists; exists d; split; [exact J|apply Ascii.eqb_refl]). congruence. }
    intros [S|[S|[S|S]]].
    + congruence.
    + apply (X c); [right; right; exact S|reflexivity].
    + apply (X quote); [left; reflexivity|exact S].
    + apply (X apostrophe); [right; left; reflexivity|exact S].
  - intros c I. apply H in I. apply andb_true_iff in I. destruct I as [_ I]. apply negb_true_iff in I. intros n [L1 L2]. subst n.
    apply Nat.leb_le in L1. apply Nat.leb_le in L2. rewrite L1, L2 in I. discriminate.
Qed.
Lemma blank_by : forall s, forallb is_ws s = true -> blank_line s.
Proof. intros s H c I. rewrite forallb_forall in H. apply H. exact I. Qed.
Lemma lower_by : forall s, forallb (fun c => negb ((65 <=? nat_of_ascii c) && (nat_of_ascii c <=? 90))%nat) s = true -> lower_case s.
Proof.
  intros s H c I. rewrite forallb_forall in H. apply H in I. apply negb_true_iff in I. intros n [L1 L2]. subst n. apply Nat.leb_le in L1. apply Nat.leb_le in L2. rewrite L1, L2 in I. discriminate.
Qed.
Lemma drift_ok : definition_ok drift.
Proof.
  split; [apply identifier_by; [discriminate|reflexivity]|]. split; [apply blank_by; reflexivity|]. split; [apply blank_by; reflexivity|].
  split; [apply identifier_by; [discriminate|reflexivity]|]. split.
  - constructor; [|constructor; [|constructor]].
    + split; [apply blank_by; reflexivity|]. split; [apply blank_by; reflexivity|]. split; [apply identifier_by; [discriminate|reflexivity]|].
      apply (says_number (Binary Times (Const (lit [2]%nat None)) (Const (lit [3]%nat None)))).
      * split; apply lit_by; (discriminate || reflexivity).
      * exact (written_plain 1 [(T "2", 0); (T "3", 0)]%nat (T "*") 0 [] (or_introl eq_refl)).
      * cbn. unfold literal_value, frac_digits. cbn. f_equal. lra.
    + split; [apply blank_by; reflexivity|]. split; [apply blank_by; reflexivity|]. split; [apply identifier_by; [discriminate|reflexivity]|].
      apply says_quoted_word. split; [exists "w"%char, (T ".out"); split; [reflexivity|cbn; unfold letter; cbn; lia]|]. split.
      * destruct (identifier_by (T "w.out")) as (_ & Q & _); [discriminate|reflexivity|exact Q].
      * split; [cbn; intuition discriminate|]. intros r E. discriminate.
  - split; [|right; reflexivity]. cbn. constructor; [cbn; intuition discriminate|]. constructor; [intros []|constructor].
Qed.
Lemma name_by : forall s, s <> EmptyString -> forallb (fun c => negb (is_ws c) && negb (existsb (Ascii.eqb c) (quote :: apostrophe :: T ",=:()!&%")) && negb ((65 <=? nat_of_ascii c) && (nat_of_ascii c <=? 90))%nat) (T s) = true ->
  match T s with [] => true | c :: _ => negb (is_digit c) end = true -> name_ok (name s).
Proof.
  intros s N H D. split; [apply blank_by; reflexivity|]. split; [apply blank_by; reflexivity|].
  assert (I : identifier (T s)) by (apply identifier_by; [destruct s; [contradiction|discriminate]|exact H]).
  assert (B : bare (T s) = T s) by (apply remove1_id; apply identifier_no; [exact I|exact sep_quote]).
  change (the_name (name s)) with (bare (T s)). change (name_written (name s)) with (T s). unfold plain_or_quoted. rewrite B.
  split; [exact I|]. split; [|left; reflexivity]. intros c r E. rewrite E in D. apply negb_true_iff. exact D.
Qed.
Lemma quoted_by : forall s, name_ok (name s) -> bare (T s) = T s -> name_ok (quoted_name s).
Proof.
  intros s (A & _ & I & D & Q) Bt. change (the_name (name s)) with (bare (T s)) in *.
  split; [exact A|]. split; [apply blank_by; reflexivity|]. unfold the_name. change (name_written (quoted_name s)) with (in_quotes (T s)).
  assert (B : bare (in_quotes (T s)) = T s).
  { unfold in_quotes. rewrite !bare_app. change (bare dquote) with (@nil ascii). rewrite app_nil_r. exact Bt. }
  rewrite Bt in I, D. rewrite B. split; [exact I|]. split; [exact D|]. right. rewrite B. reflexivity.
Qed.
Lemma example_lattice_ok : lattice_ok example_lattice.
Proof.
  split.
  - constructor; [|constructor; [|constructor; [|constructor; [|constructor]]]].
    + split; [apply lower_by; vm_compute; reflexivity|]. split; [exact drift_ok|]. intros p [<-|[<-|[]]]; cbn; intuition discriminate.
    + split; [apply lower_by; vm_compute; reflexivity|]. split; [|intros p []].
      split; [apply identifier_by; [discriminate|reflexivity]|]. split; [apply blank_by; reflexivity|]. split; [apply blank_by; reflexivity|].
      split; [apply identifier_by; [discriminate|reflexivity]|]. split; [constructor|]. split; [constructor|left; reflexivity].
    + split; [apply lower_by; vm_compute; reflexivity|]. split; [apply identifier_by; [discriminate|reflexivity]|]. split; [apply blank_by; reflexivity|]. split; [apply blank_by; reflexivity|].
      split; [discriminate|]. split; [|left; reflexivity]. constructor; [|constructor; [|constructor]].
      * split; [apply digits_by; reflexivity|]. split; [cbn; lia|]. apply name_by; [discriminate|reflexivity|reflexivity].
      * apply name_by; [discriminate|reflexivity|reflexivity].
    + split; [apply lower_by; vm_compute; reflexivity|]. split; [apply identifier_by; [discriminate|reflexivity]|]. split; [apply blank_by; reflexivity|]. split; [apply blank_by; reflexivity|].
      split; [discriminate|]. split; [|right; reflexivity]. constructor; [|constructor; [|constructor; [|constructor]]].
      * apply name_by; [discriminate|reflexivity|reflexivity].
      * apply name_by; [discriminate|reflexivity|reflexivity].
      * split; [apply digits_by; reflexivity|]. split; [cbn; lia|]. split; [discriminate|]. constructor; [|constructor; [|constructor]].
        -- apply name_by; (discriminate || reflexivity).
        -- apply quoted_by; [apply name_by; (discriminate || reflexivity)|reflexivity].
  - cbn. repeat constructor; cbn; intuition discriminate.
Qed.
Example C42_applies : lattice_ok example_lattice /\ In (Line (in_quotes (T "main")) (T " ") main_items [newline]) example_lattice /\
  unfolds example_lattice main_items
    ([T "m"; T "d1"; T "d1"; T "m"] ++ List.concat (List.repeat [T "m"; T "d1"] 10)) [T "cell"] /\ NoDup [T "cell"] /\ lowert (T "Main") = bare (in_quotes (T "main")) /\
  nth_error (map entry_text example_lattice) 3 = Some (dquote ++ T "main" ++ dquote ++ T ": line=( m, cell,10*( m, " ++ dquote ++ T "d1" ++ dquote ++ T "))" ++ [newline]) /\
  nth_error (map entry_text example_lattice) 0 = Some (dquote ++ T "d1" ++ dquote ++ T ": drift , l = 2 3 *, f=" ++ dquote ++ T "w.out" ++ dquote).
Proof.
  assert (M : In (Define mark) example_lattice) by (right; left; reflexivity).
  assert (D : In (Define drift) example_lattice) by (left; reflexivity).
  split; [exact example_lattice_ok|]. split; [right; right; right; left; reflexivity|]. split.
  - apply (unfolds_element _ (name "m") mark _ _ _ M eq_refl).
    apply (unfolds_line example_lattice (name "cell") (T "cell") (T " ") cell_items [newline] _ [T "d1"; T "d1"; T "m"] [] _ []).
    + right; right; left; reflexivity.
    + reflexivity.
    + reflexivity.
    + apply (unfolds_repeat_one example_lattice [2]%nat (name "d1") _ [T "d1"] [] [T "m"] []).
      * apply (unfolds_element _ (name "d1") drift _ _ _ D eq_refl). constructor.
      * apply (unfolds_element _ (name "m") mark _ _ _ M eq_refl). constructor.
    + rewrite <- (app_nil_r (List.concat _)). apply (unfolds_repeat_list example_lattice [1;0]%nat [name "m"; quoted_name "d1"] [] [T "m"; T "d1"] [] [] []).
      * apply (unfolds_element _ (name "m") mark _ _ _ M eq_refl). apply (unfolds_element _ (quoted_name "d1") drift _ _ _ D eq_refl). constructor.
      * constructor.
  - split; [repeat constructor; intros []|]. split; [reflexivity|]. split; reflexivity.
Qed.

(* ------------------------------------------------------------------ *)
(** C43 *)
Theorem C43_blank_line : forall A l B beamline_name fuel show, blank_line l ->
  import fuel show (A ++ l :: B) beamline_name = import fuel show (A ++ B) beamline_name.
Proof. intros A l B bn fuel show H. unfold import. rewrite (sanitize_blank A l B H). reflexivity. Qed.
Print Assumptions C43_blank_line.

Theorem C43_comment_line_partial : forall A l B beamline_name fuel show, comment_line l -> has_content B ->
  import fuel show (A ++ l :: B) beamline_name = import fuel show (A ++ B) beamline_name.
Proof. intros A l B bn fuel show H C. unfold import. rewrite (sanitize_comment A l B H C). reflexivity. Qed.
Print Assumptions C43_comment_line_partial.
(* missing: a comment with nothing but comments and blank lines after it: *)
Theorem C43_comment_at_end_refuted : forall A l B beamline_name fuel show, comment_line l -> ~ has_content B ->
  snd (import fuel show (A ++ l :: B) beamline_name) = Err IndexError.
Proof. intros A l B bn fuel show H C. unfold import. rewrite (sanitize_comment_end A l B H C). reflexivity. Qed.
Print Assumptions C43_comment_at_end_refuted.

(** splitting u v after u; t is the white space after v, which is lost *)
Theorem C43_split_partial : forall A u v t pad B beamline_name fuel show,
  ~ In "!"%char (u ++ v) -> blank_line pad -> blank_line t -> plain_start v ->
  (forall w c, v = w ++ [c] -> is_ws c = false /\ c <> "&"%char) ->
  import fuel show (A ++ (u ++ "&"%char :: pad) :: (v ++ t) :: B) beamline_name = import fuel show (A ++ (u ++ v) :: B) beamline_name.
Proof.
  intros A u v t pad B bn fuel show N Bp Bt P L. unfold import.
  destruct (snoc_cases v) as [E|(w & c & E)]; [destruct P as (c & r & P & _); subst v; discriminate|]. destruct (L w c E) as [W Na].
  rewrite (split_line A u v w c t pad B N); [reflexivity|apply blank_iff; exact Bp|apply blank_iff; exact Bt|exact P|exact E|exact W|exact Na].
Qed.
Print Assumptions C43_split_partial.
(* missing: the white space at the end is not kept, which changes the type of an element without
   parameters: *)
Definition types_of (r : heap * res unit) : option (list string) :=
  match r with (h, Ok _) => Some (map e_type (elems h)) | _ => None end.
Theorem C43_split_refuted : exists k, forall fuel, (k <= fuel)%nat ->
  types_of (import fuel no_show (file_of ["d: drift"; "main: line=(d)"]%string) (T "main")) = Some ["drift"]%string /\
  types_of (import fuel no_show (file_of ["d: &"; "drift"; "main: line=(d)"]%string) (T "main")) = Some ["drif"]%string.
Proof. exists 10%nat. intros fuel H. replace fuel with (10 + (fuel - 10))%nat by lia. split; vm_compute; reflexivity. Qed.
Print Assumptions C43_split_refuted.

Example C43_applies : blank_line (T "  " ++ [newline]) /\ comment_line (T " ! text" ++ [newline]) /\ has_content (file_of ["! a"; "d: drift"]%string) /\ ~ has_content (file_of ["! a"; ""]%string).
Proof.
  split; [apply blank_by; reflexivity|]. split; [|split].
  - exists (T " "), (T " text" ++ [newline]). split; [apply blank_by; reflexivity|reflexivity].
  - exists (T "d: drift" ++ [newline]). split; [right; left; reflexivity|]. split.
    + intros H. discriminate (H "d"%char). left; reflexivity.
    + intros (pad & r & B & E). destruct pad as [|c pad]; [discriminate|]. injection E as <- _. discriminate (B "d"%char (or_introl eq_refl)).
  - intros (l & [<-|[<-|[]]] & N & C).
    + apply C. exists [], (T " a" ++ [newline]). split; [apply blank_by; reflexivity|reflexivity].
    + apply N. apply blank_by. reflexivity.
Qed.
Example C43_split_applies : (* d: drift, &  /  l=2 *)
  ~ In "!"%char (T "d: drift, " ++ T "l=2") /\ plain_start (T "l=2") /\ forall w c, T "l=2" = w ++ [c] -> is_ws c = false /\ c <> "&"%char.
Proof.
  split; [cbn; intuition discriminate|]. split; [exists "l"%char, (T "=2"); repeat split; discriminate|].
  intros w c E. change (T "l=2") with (T "l=" ++ ["2"%char]) in E. apply app_inj_tail in E. destruct E as [_ <-]. split; [reflexivity|discriminate].
Qed.

(* ------------------------------------------------------------------ *)
(** C44 *)
Theorem C44_definition_partial : forall es d sel before items tail els uses beamline_name show,
  lattice_ok es -> In (Define d) es -> In (Line sel before items tail) es -> unfolds es items els uses -> NoDup uses -> lowert beamline_name = bare sel ->
  exists k h addrs, (forall fuel, (k <= fuel)%nat -> import fuel show (map entry_text es) beamline_name = (h, Ok tt)) /\
    get_beamline_elements h 0 = Ok addrs /\
    forall i, nth_error els i = Some (d_name d) ->
      exists a el, nth_error addrs i = Some a /\ nth_error (elems h) a = Some el /\
        e_name el = str (d_name d) /\ e_type el = str (d_type d) /\ e_params el = params_of d.
Proof.
  intros es d sel before items tail els uses bn show L Id I U ND E.
  destruct (C42_expansion_partial es sel before items tail els uses bn show L I U ND E) as (k & h & addrs & R & G & F).
  exists k, h, addrs. split; [exact R|]. split; [exact G|]. clear - F L Id.
  induction F as [|a n addrs els (el & H1 & d' & H2 & H3 & H4 & H5 & H6) F IH]; intros i Hi; [destruct i; discriminate|].
  destruct i as [|i]; [|apply IH; exact Hi]. cbn in Hi. injection Hi as ->.
  assert (Q : d' = d).
  { destruct L as [_ ND]. assert (X : Define d' = Define d).
    { revert ND H2 Id H3. clear. induction es as [|e es IH]; intros ND X Y E; [destruct X|]. cbn [map] in ND. inversion ND as [|? ? N1 N2]; subst.
      destruct X as [->|X], Y as [Y|Y]; [congruence| | |apply IH; assumption].
      - exfalso. apply N1. cbn [entry_name]. rewrite E. apply (in_map entry_name) in Y. exact Y.
      - exfalso. apply N1. subst e. cbn [entry_name]. rewrite <- E. apply (in_map entry_name) in X. exact X. }
    congruence. }
  subst d'. exists a, el. split; [reflexivity|]. split; [exact H1|]. auto.
Qed.
Print Assumptions C44_definition_partial.
Example C44_applies : params_of drift = [("l"%string, VNum 6); ("f"%string, VStr "w.out")] /\ In (Define drift) example_lattice.
Proof. split; [reflexivity|left; reflexivity]. Qed.
(* missing: a text as the last value on a line keeps the newline, and a definition without
   parameters that no newline follows loses a character: *)
Definition params_found (r : heap * res unit) : option (list params) :=
  match r with (h, Ok _) => Some (map e_params (elems h)) | _ => None end.
Theorem C44_last_text_refuted : exists k, forall fuel, (k <= fuel)%nat ->
  params_found (import fuel no_show (file_of ["d: watch,f=out"; "main: line=(d)"]%string) (T "main")) = Some [[("f"%string, VStr (str (T "out" ++ [newline])))]].
Proof. exists 10%nat. intros fuel H. replace fuel with (10 + (fuel - 10))%nat by lia. vm_compute. reflexivity. Qed.
Print Assumptions C44_last_text_refuted.
Theorem C44_last_line_refuted : exists k, forall fuel, (k <= fuel)%nat ->
  types_of (import fuel no_show (file_of ["main: line=(d)"]%string ++ [T "d: drift"]) (T "main")) = Some ["drif"]%string.
Proof. exists 10%nat. intros fuel H. replace fuel with (10 + (fuel - 10))%nat by lia. vm_compute. reflexivity. Qed.
Print Assumptions C44_last_line_refuted.

(** Files and writers for the examples beside the SDDS theorems. *)
From Coq Require Import List Bool Arith Ascii String ZArith Reals Lra Lia.
From Verif Require Import PyBase PyText Lte_Spec Sdds_Model Sdds_Spec Sdds_Proofs Sdds_Proofs6 Sdds_Proofs7 Sdds_Proofs8 Sdds_Proofs9 Sdds_Proofs10.
Import ListNotations.
Open Scope Z_scope.

(** checks that compute *)
Definition plain_b (quoted : bool) (v : text) : bool :=
  forallb (fun c => negb (Ascii.eqb c quote_char) && negb (Ascii.eqb c escape_char) && negb (Ascii.eqb c newline) &&
                    (quoted || (negb (Ascii.eqb c " "%char) && negb (Ascii.eqb c (ascii_of_nat 9)) && negb (Ascii.eqb c (ascii_of_nat 13)))) &&
                    (nat_of_ascii c <? 128)%nat) v && negb (Ascii.eqb (last v " "%char) ","%char).
Lemma eqb_neq : forall a b, negb (Ascii.eqb a b) = true -> a <> b.
Proof. intros a b H. apply negb_true_iff in H. now apply Ascii.eqb_neq. Qed.
Lemma plain_b_ok : forall q v, plain_b q v = true -> ascii_only v /\ plain_value q v.
Proof.
  intros q v H. unfold plain_b in H. apply andb_true_iff in H. destruct H as [F L]. rewrite forallb_forall in F.
  assert (G : forall c, In c v -> c <> quote_char /\ c <> escape_char /\ c <> newline /\ (q = false -> ~ blank_char c /\ c <> ascii_of_nat 13) /\ (nat_of_ascii c < 128)%nat).
  { intros c I. specialize (F c I). repeat (apply andb_true_iff in F; (let Q := fresh in destruct F as [F Q])). repeat split; try (now apply eqb_neq); try (now apply Nat.ltb_lt).
    - subst q. cbn [orb] in *. match goal with X : _ && _ && _ = true |- _ => repeat (apply andb_true_iff in X; (let Q := fresh in destruct X as [X Q])) end. intros [-> | ->]; discriminate.
    - subst q. cbn [orb] in *. match goal with X : _ && _ && _ = true |- _ => repeat (apply andb_true_iff in X; (let Q := fresh in destruct X as [X Q])) end. now apply eqb_neq. }
  split; [intros c I; now apply G|]. split; [intros c I; destruct (G c I) as [A [B [C _]]]; auto|]. split; [now apply eqb_neq|]. intros E c I. now apply G.
Qed.
Lemma plain_name_b : forall v, v <> [] -> plain_b false v = true -> plain_name v.
Proof. intros v N H. split; [assumption|]. now apply plain_b_ok. Qed.
Lemma plain_meta_b : forall v, plain_b true v = true -> plain_meta v.
Proof. intros v H. now apply plain_b_ok. Qed.
Ltac name_is := apply plain_name_b; [discriminate|reflexivity].
Ltac meta_is := apply plain_meta_b; reflexivity.
Ltac param_is := split; [name_is|]; split; [meta_is|]; split; [meta_is|]; split; meta_is.
Ltac col_is := split; [name_is|]; split; [meta_is|]; split; [meta_is|]; split; [meta_is|]; split; [meta_is|reflexivity].
Ltac no_char := let I := fresh in intros I; cbn in I; repeat (destruct I as [I|I]; [discriminate|]); exact I.
Ltac nodup := repeat (apply NoDup_cons; [no_char|]); apply NoDup_nil.

(* ------------------------------------------------------------------ *)
(** A writer: four parameters, two of them fixed, and two columns of two doubles *)
Definition one : text := double_bits 1.
Definition minus_two : text := double_bits (-2).
Definition nan_bits : text := map ascii_of_nat [1; 2; 3; 0; 0; 0; 248; 255]%nat.
Definition p_charge : wparam := {| p_name := T "Charge"; p_data := Some (WDouble one); p_type := T "double"; p_units := T "C"; p_symbol := T "q, C"; p_format := []; p_description := T "total charge"; p_fixed := NoFix |}.
Definition p_count : wparam := {| p_name := T "Particles"; p_data := Some (WInt (-7)); p_type := T "long"; p_units := []; p_symbol := []; p_format := T "%ld"; p_description := []; p_fixed := NoFix |}.
Definition p_step : wparam := {| p_name := T "Step"; p_data := None; p_type := T "long"; p_units := []; p_symbol := []; p_format := []; p_description := T "a=b &x"; p_fixed := FixInt (-3) |}.
Definition p_label : wparam := {| p_name := T "Label"; p_data := None; p_type := T "string"; p_units := []; p_symbol := []; p_format := []; p_description := []; p_fixed := FixStr (T "run 5") |}.
Definition c_x : wcol := {| w_name := T "x"; w_data := CDouble [one; nan_bits]; w_type := T "double"; w_units := T "m"; w_symbol := []; w_format := []; w_description := T "position"; w_length := 0 |}.
Definition c_xp : wcol := {| w_name := T "xp"; w_data := CDouble [minus_two; one]; w_type := T "double"; w_units := []; w_symbol := T "x'"; w_format := []; w_description := []; w_length := 0 |}.
Definition writer_1 : writer := {| w_params := [p_charge; p_step; p_count; p_label]; w_cols := [c_x; c_xp] |}.
Definition values_1 : list (list value) := [[VDouble one; VDouble nan_bits]; [VDouble minus_two; VDouble one]].
Lemma writer_1_params : Forall param_ok (w_params writer_1).
Proof.
  constructor; [split; [param_is|cbn; auto]|]. constructor; [split; [param_is|cbn; split; [auto|lia]]|]. constructor; [split; [param_is|cbn; split; [split; [reflexivity|lia]|reflexivity]]|].
  constructor; [split; [param_is|cbn; split; [reflexivity|]; split; [discriminate|meta_is]]|]. constructor.
Qed.
Lemma writer_1_ok : can_write writer_1 Double 2 values_1.
Proof.
  constructor.
  - exact writer_1_params.
  - constructor; [|constructor; [|constructor]]; (split; [col_is|]); (split; [reflexivity|]); (split; [|reflexivity]); (split; [repeat constructor|reflexivity]).
  - cbn. lia.
  - discriminate.
Qed.
Lemma writer_1_names : can_name writer_1.
Proof. split; [nodup|]. split; [nodup|]. split; no_char. Qed.

(** the same with columns of other types, which cannot be saved as they are but can be described *)
Definition c_turn : wcol := {| w_name := T "Turn"; w_data := CInt16 [1; 2]; w_type := T "short"; w_units := []; w_symbol := []; w_format := []; w_description := []; w_length := 0 |}.
Definition writer_2 : writer := {| w_params := [p_charge; p_step; p_count; p_label]; w_cols := [c_x; c_turn] |}.
Lemma writer_2_ok : describable writer_2 /\ equal_lengths writer_2.
Proof.
  split.
  - split; [apply params_ok_plain; exact writer_1_params|]. split; [|split; nodup].
    constructor; [|constructor; [|constructor]]; (split; [col_is|]); [exists Double|exists Short]; reflexivity.
  - intros c d [<-|[<-|[]]] [<-|[<-|[]]]; reflexivity.
Qed.

(* ------------------------------------------------------------------ *)
(** A header with comments, strings and a fixed value, and two binary pages *)
Definition p_title : wparam := {| p_name := T "Title"; p_data := None; p_type := T "string"; p_units := []; p_symbol := []; p_format := []; p_description := T "name of the run"; p_fixed := NoFix |}.
Definition p_index : wparam := {| p_name := T "Index"; p_data := None; p_type := T "short"; p_units := []; p_symbol := []; p_format := []; p_description := []; p_fixed := NoFix |}.
Definition c_tag : wcol := {| w_name := T "tag"; w_data := CDouble []; w_type := T "string"; w_units := []; w_symbol := []; w_format := []; w_description := []; w_length := 0 |}.
Definition header_1 (ascii : bool) : header :=
  {| h_before := [T "! a file made for testing"]; h_first := T "SDDS1";
     h_lines := [Ignored (T "!# little-endian"); Param (param_command p_title); Param (param_command p_step); Ignored (T "!"); Col (col_command c_x); Param (param_command p_index); Col (col_command c_tag)];
     h_data := mode_command ascii |}.
Definition params_1 : list (text * kind) := [(T "Title", Str); (T "Index", Short)].
Definition cols_1 : list (text * kind) := [(T "x", Double); (T "tag", Str)].
Lemma plain_params : param_plain p_title /\ param_plain p_index /\ param_plain p_step.
Proof.
  split; [|split]; (split; [param_is|]); (split; [|first [now left|right; cbn; split; [now right|discriminate]]]);
    [exists Str|exists Short|exists Long]; reflexivity.
Qed.
Lemma plain_cols : (col_meta c_x /\ good_type (w_type c_x)) /\ (col_meta c_tag /\ good_type (w_type c_tag)).
Proof. split; (split; [col_is|]); [exists Double|exists Str]; reflexivity. Qed.
Lemma ignorable_comment : forall r, ~ In newline r -> ignorable ("!"%char :: r).
Proof. intros r N. split; [intros [I|I]; [discriminate|contradiction]|right; eauto]. Qed.
Lemma header_1_for : forall a, header_for (header_1 a) params_1 cols_1.
Proof.
  intros a. destruct plain_params as [P1 [P2 P3]]. destruct plain_cols as [[C1 G1] [C2 G2]]. split; [|split; [|split]].
  - pose proof (written_ok writer_1 a (params_ok_plain _ writer_1_params)) as W.
    destruct W as [_ [W1 [_ [W2 W3]]]].
    { destruct writer_1_ok as [_ W _ _]. constructor; [split; assumption|]. constructor; [|constructor]. split; [col_is|exists Double; reflexivity]. }
    split; [|split; [exact W1|split; [|split; [exact W2|exact W3]]]].
    + constructor; [apply ignorable_comment; no_char|constructor].
    + cbn [header_1 h_lines]. constructor; [apply ignorable_comment; no_char|]. constructor; [now apply param_command_ok|]. constructor; [now apply param_command_ok|]. constructor; [apply ignorable_comment; no_char|].
      constructor; [now apply col_command_ok|]. constructor; [now apply param_command_ok|]. constructor; [now apply col_command_ok|constructor].
  - split; repeat constructor; reflexivity.
  - cbn [header_1 h_lines params_of]. constructor; [now apply fixed_readable_written|]. constructor; [now apply fixed_readable_written|]. constructor; [now apply fixed_readable_written|constructor].
  - split; [nodup|]. split; [nodup|]. split; no_char.
Qed.
Lemma header_1_binary : binary_header (header_1 false).
Proof. split; [discriminate|now left]. Qed.
Lemma header_1_ascii : ascii_header (header_1 true).
Proof. split; [reflexivity|now left]. Qed.
Lemma header_1_gapless : gapless (header_1 true).
Proof.
  split; [constructor; [discriminate|constructor]|]. split; [now exists []|]. split.
  - intros t I. cbn in I. repeat (destruct I as [I|I]; [try discriminate; injection I as <-; discriminate|]). contradiction.
  - intros I. assert (X : existsb (Ascii.eqb cr) (header_text (header_1 true)) = true) by (apply existsb_exists; exists cr; split; [assumption|apply Ascii.eqb_refl]). vm_compute in X. discriminate.
Qed.

Definition page_1 : page := {| pg_params := [VStr (T "first run"); VInt 1]; pg_rows := [[VDouble one; VStr (T "a")]; [VDouble nan_bits; VStr (T "b c")]] |}.
Definition page_2 : page := {| pg_params := [VStr (T "second run"); VInt (-2)]; pg_rows := [[VDouble minus_two; VStr (T "long tag")]; [VDouble one; VStr (T "!")]] |}.
Lemma string_b : forall max s, s <> [] -> (Z.of_nat (List.length s) <=? max) && (Z.of_nat (List.length s) <? 2 ^ 31) && forallb (fun c => (nat_of_ascii c <? 128)%nat) s && negb (Ascii.eqb (last s "000"%char) "000"%char) = true -> plain_string max s.
Proof.
  intros max s N H. repeat (apply andb_true_iff in H; (let Q := fresh in destruct H as [H Q])). split; [assumption|]. split; [now apply Z.leb_le|]. split; [now apply Z.ltb_lt|]. split; [|now apply eqb_neq].
  rewrite forallb_forall in *. intros c I. apply Nat.ltb_lt. auto.
Qed.
Ltac string_is := apply string_b; [discriminate|reflexivity].
Lemma pages_1_sound : Forall (sound 100 params_1 cols_1) [page_1; page_2].
Proof.
  constructor; [|constructor; [|constructor]]; (split; [|split]); cbn; repeat (constructor; try (cbn; first [string_is|reflexivity|lia])).
Qed.
Lemma pages_1_length : Forall (same_length 2) [page_1; page_2].
Proof. repeat constructor. Qed.
Lemma pages_1_seen : Forall seen [page_1; page_2].
Proof. repeat constructor. Qed.

(** ASCII pages for the same header *)
Definition apage_1 : apage := {| ap_params := [T "first run"; T "1"]; ap_rows := [[T "12"; T "a"]; [T "-5"; T "b"]] |}.
Definition apage_2 : apage := {| ap_params := [T "second run"; T "-2"]; ap_rows := [[T "0"; T "c"]; [T "7"; T "long_tag"]] |}.
Definition apage_1v : page := {| pg_params := [VStr (T "first run"); VInt 1]; pg_rows := [[VReal (Some 12%R); VStr (T "a")]; [VReal (Some (-5)%R); VStr (T "b")]] |}.
Definition apage_2v : page := {| pg_params := [VStr (T "second run"); VInt (-2)]; pg_rows := [[VReal (Some 0%R); VStr (T "c")]; [VReal (Some 7%R); VStr (T "long_tag")]] |}.
Lemma line_b : forall t, t <> [] -> forallb (fun c => negb (Ascii.eqb c "!") && negb (Ascii.eqb c newline) && negb (Ascii.eqb c cr)) t && negb (Ascii.eqb (List.hd "x"%char t) " ") && negb (Ascii.eqb (last t "x"%char) " ") = true -> line_text t.
Proof.
  intros t N H. repeat (apply andb_true_iff in H; (let Q := fresh in destruct H as [H Q])). split; [assumption|]. split; [|split; now apply eqb_neq]. rewrite forallb_forall in H. intros c I. specialize (H c I).
  repeat (apply andb_true_iff in H; (let Q := fresh in destruct H as [H Q])). repeat split; now apply eqb_neq.
Qed.
Lemma word_b : forall t, t <> [] -> forallb (fun c => negb (is_uws c) && negb (Ascii.eqb c "!")) t = true -> word_text t.
Proof. intros t N H. split; [assumption|]. rewrite forallb_forall in H. intros c I. specialize (H c I). apply andb_true_iff in H. (let Q := fresh in destruct H as [H Q]). split; [now apply negb_true_iff|now apply eqb_neq]. Qed.
Lemma reads_number : forall b max z, reads_as b max Double (dec z) (VReal (Some (IZR z))).
Proof. intros. apply py_float_dec. Qed.
Ltac reads_is := cbn; first [exact (py_float_dec 12)|exact (py_float_dec (-5))|exact (py_float_dec 0)|exact (py_float_dec 7)|split; [reflexivity|string_is]|split; [exact (py_int_dec 1)|lia]|split; [exact (py_int_dec (-2))|lia]].
Ltac kept_is := repeat (constructor; [split; [discriminate|]; split; [intros ? ?; (match goal with I : In ?c ?t |- _ => let X := fresh in assert (X : forallb (fun c => negb (is_uws c) && negb (Ascii.eqb c quote_char)) t = true) by reflexivity;
  rewrite forallb_forall in X; specialize (X _ I); apply andb_true_iff in X; destruct X as [X1 X2]; split; [now apply negb_true_iff|now apply eqb_neq] end)|repeat split; discriminate]|]); constructor.
Lemma apages_sound : Forall2 (asound 100 params_1 cols_1) [apage_1; apage_2] [apage_1v; apage_2v].
Proof.
  assert (KN : Forall kept_name (map fst params_1 ++ map fst cols_1)) by (cbn [map fst params_1 cols_1 app]; kept_is).
  constructor; [|constructor; [|constructor]]; (split; [|exact KN]); (split; [|split; [|split; [|split]]]).
  1, 6: repeat (constructor; [apply line_b; [discriminate|reflexivity]|]); constructor.
  1, 5: repeat (constructor; [repeat (constructor; [apply word_b; [discriminate|reflexivity]|]); constructor|]); constructor.
  1, 4: split; [reads_is|]; split; [reads_is|exact I].
  1, 3: repeat (constructor; [split; [reads_is|]; split; [reads_is|exact I]|]); constructor.
  1, 2: cbn; lia.
Qed.
Lemma apages_seen : Forall aseen [apage_1; apage_2].
Proof. constructor; [|constructor; [|constructor]]; eexists; (split; [left; reflexivity|reflexivity]). Qed.

(** A header without strings *)
Definition header_2 : header :=
  {| h_before := []; h_first := T "SDDS1"; h_lines := [Param (param_command p_index); Col (col_command c_x)]; h_data := mode_command false |}.
Definition params_2 : list (text * kind) := [(T "Index", Short)].
Definition cols_2 : list (text * kind) := [(T "x", Double)].
Definition page_3 (z : Z) : page := {| pg_params := [VInt z]; pg_rows := [[VDouble (double_bits z)]] |}.
Lemma header_2_for : header_for header_2 params_2 cols_2.
Proof.
  destruct plain_params as [P1 [P2 P3]]. destruct plain_cols as [[C1 G1] [C2 G2]]. destruct (header_1_for false) as [[_ [W1 [_ [W2 W3]]]] _]. split; [|split; [|split]].
  - split; [constructor|]. split; [exact W1|]. split; [|split; [exact W2|exact W3]]. constructor; [now apply param_command_ok|]. constructor; [now apply col_command_ok|constructor].
  - split; repeat constructor; reflexivity.
  - cbn [header_2 h_lines params_of]. constructor; [now apply fixed_readable_written|constructor].
  - split; [nodup|]. split; [nodup|]. split; no_char.
Qed.
Lemma header_2_binary : binary_header header_2.
Proof. split; [discriminate|now left]. Qed.
Lemma page_3_sound : forall z, - 2 ^ 15 <= z < 2 ^ 15 -> sound 100 params_2 cols_2 (page_3 z).
Proof. intros z H. split; [constructor; [exact H|constructor]|]. split; [|cbn; lia]. constructor; [|constructor]. constructor; [|constructor]. cbn. unfold double_bits. now destruct (z <? 0), (z =? 0). Qed.

(* ------------------------------------------------------------------ *)
(** A writer of numbers that can be printed: a parameter of each kind, a column of doubles and one
    of short integers; and what format and savetxt print for them *)
Definition c_pos : wcol := {| w_name := T "x"; w_data := CDouble [one; minus_two]; w_type := T "double"; w_units := T "m"; w_symbol := []; w_format := []; w_description := T "position"; w_length := 0 |}.
Definition writer_3 : writer := {| w_params := [p_charge; p_step; p_count]; w_cols := [c_pos; c_turn] |}.
Definition values_3 : list (list value) := [[VDouble one; VDouble minus_two]; [VInt 1; VInt 2]].
Definition number_3 (b : text) : fl := if teqb b one then Some 1%R else Some (-2)%R.
Definition show_3 (v : wvalue) : text := match v with WDouble b => if teqb b one then T "1.0" else T "-2.0" | WInt z => dec z | WStr t => t end.
Definition show_cell_3 (b : text) : text :=
  if teqb b one || teqb b (little 2 1) || teqb b (little 4 1) then T "1.000000000000000000e+00"
  else if teqb b minus_two then T "-2.000000000000000000e+00" else T "2.000000000000000000e+00".
Lemma float_by : forall t sg u m found e a dot b n v, sign_of (trim t) = (sg, u) -> partition1 "e" (lowert u) = (m, found, e) -> partition1 "." m = (a, dot, b) ->
  forallb is_digit a && forallb is_digit b && negb (match a, b with [], [] => true | _, _ => false end) = true -> exponent_of e found = Some n ->
  v = (IZR sg * (IZR (digits_value (digits_value 0 a) b) / IZR (10 ^ Z.of_nat (List.length b))) * powerRZ 10 n)%R -> py_float t = Some v.
Proof. intros t sg u m found e a dot b n v A B C D E F. unfold py_float. rewrite A, B. unfold mantissa_of. rewrite C, D, E, F. reflexivity. Qed.
Ltac number_is := eapply float_by; [vm_compute; reflexivity|vm_compute; reflexivity|vm_compute; reflexivity|vm_compute; reflexivity|vm_compute; reflexivity|repeat (match goal with |- context [IZR ?z] => let y := eval vm_compute in z in progress change z with y end); rewrite powerRZ_O; lra].
Ltac printed := split; [apply word_b; [discriminate|reflexivity]|]; split; [intros ? ?; (match goal with I : In ?c ?t |- _ => let X := fresh in assert (X : forallb (fun c => (nat_of_ascii c <? 128)%nat) t = true) by reflexivity; rewrite forallb_forall in X; apply Nat.ltb_lt; now apply X end)|].
Lemma writer_3_ok : can_write_text writer_3 2 [Double; Short] values_3.
Proof.
  constructor; [| |cbn; lia].
  - pose proof writer_1_params as P. inversion P as [|? ? A B]; subst. inversion B as [|? ? C D]; subst. inversion D; subst. repeat (constructor; [assumption|]). constructor.
  - split; [reflexivity|]. split; [reflexivity|]. intros c k vs [I|[I|[]]]; injection I as <- <- <-; (split; [col_is|]); (split; [reflexivity|]); (split; [|reflexivity]); (split; [|reflexivity]); repeat (constructor; [first [reflexivity|lia]|]); constructor.
Qed.
Lemma writer_3_names : can_name writer_3.
Proof. split; [nodup|]. split; [nodup|]. split; no_char. Qed.
Lemma writer_3_kept : Forall kept_name (map fst (given (w_params writer_3)) ++ map w_name (w_cols writer_3)).
Proof. cbn [map writer_3 w_params w_cols given flat_map p_charge p_step p_count p_data p_name fst app w_name c_pos c_turn]. kept_is. Qed.
Lemma writer_3_prints : prints_all writer_3 values_3 show_3 show_cell_3 number_3.
Proof.
  split; [|split; [|split]].
  - intros p b [<-|[<-|[<-|[]]]] E; try discriminate. injection E as <-. change (show_3 (WDouble one)) with (T "1.0"). printed. change (number_3 one) with (Some 1%R). number_is.
  - intros p z [<-|[<-|[<-|[]]]] E; try discriminate. injection E as <-. change (show_3 (WInt (-7))) with (T "-7"). printed. exact (py_int_dec (-7)).
  - intros vs b [<-|[<-|[]]] [I|[I|[]]]; try discriminate; injection I as <-.
    + change (show_cell_3 one) with (T "1.000000000000000000e+00"). printed. change (number_3 one) with (Some 1%R). number_is.
    + change (show_cell_3 minus_two) with (T "-2.000000000000000000e+00"). printed. change (number_3 minus_two) with (Some (-2)%R). number_is.
  - intros vs z [<-|[<-|[]]] [I|[I|[]]]; try discriminate; injection I as <-.
    + change (show_cell_3 (little 2 1)) with (T "1.000000000000000000e+00"). change (show_cell_3 (little 4 1)) with (T "1.000000000000000000e+00"). change (show_cell_3 (double_bits 1)) with (T "1.000000000000000000e+00").
      assert (P : prints false number_3 (T "1.000000000000000000e+00") (VInt 1)) by (printed; number_is). auto.
    + change (show_cell_3 (little 2 2)) with (T "2.000000000000000000e+00"). change (show_cell_3 (little 4 2)) with (T "2.000000000000000000e+00"). change (show_cell_3 (double_bits 2)) with (T "2.000000000000000000e+00").
      assert (P : prints false number_3 (T "2.000000000000000000e+00") (VInt 2)) by (printed; number_is). auto.
Qed.

(* ------------------------------------------------------------------ *)
(** Small writers and files for the counterexamples *)
Definition new_writer : writer := {| w_params := []; w_cols := [] |}.
Definition par (name description : text) (data : option wvalue) (ty : text) (x : fixed) : wparam :=
  {| p_name := name; p_data := data; p_type := ty; p_units := []; p_symbol := []; p_format := []; p_description := description; p_fixed := x |}.
Definition colm (name : text) (data : coldata) (ty : text) : wcol :=
  {| w_name := name; w_data := data; w_type := ty; w_units := []; w_symbol := []; w_format := []; w_description := []; w_length := 0 |}.
Definition shown (v : wvalue) : text := match v with WInt z => dec z | WStr t => t | WDouble _ => T "0.5" end.
Definition shown_cell (c : text) : text := T "0.5".
(** the bytes of a binary save *)
Definition saved (w : writer) : text := List.concat (fst (save w false shown shown_cell)).
(** a file of lines, and bytes after it *)
Definition lines_file (ls : list string) (data : text) : text := lines_text (map T ls) ++ data.

(** C131: variables stored in a lattice file. *)
From Coq Require Import List Reals Bool Arith String Ascii ZArith Lia Lra.
From Verif Require Import PyBase PyDict PyText Line_Model Lte_Model Lte_Spec Lte_Props Store_Spec Store_Proofs Store_Proofs2.
Import ListNotations.
Open Scope R_scope.

(** A file that stores values under names and uses the names is read like the file in which the
    text of each value stands for its name and nothing is stored, wherever in the file the values
    are stored. [show] is how the number is written as text, [put] the text of each variable. *)
Theorem C131_stored_partial : forall (put : text -> text) (show : num -> text) file beamline_name fuel, file_ok put file ->
  (forall s, In (Store s) file -> exists r, expr_value (s_expr s) = Some r /\ forall x, real_of x = Some r -> show x = put (s_name s)) ->
  import fuel show (map source_text file) beamline_name = import fuel show (spelled_out put file) beamline_name.
Proof. exact store_import. Qed.
Print Assumptions C131_stored_partial.
(* missing: names that are part of other words, names that start a line, names used in the
   expression of another variable, names stored twice: all refuted below *)

(** The elements made from such a file have the values as parameters. *)
Theorem C131_values_partial : forall (put : text -> text) (show : num -> text) file es d sel before items tail els uses beamline_name, file_ok put file ->
  (forall s, In (Store s) file -> exists r, expr_value (s_expr s) = Some r /\ forall x, real_of x = Some r -> show x = put (s_name s)) ->
  spelled_out put file = map entry_text es -> lattice_ok es -> In (Define d) es -> In (Line sel before items tail) es ->
  unfolds es items els uses -> NoDup uses -> lowert beamline_name = bare sel ->
  exists k h addrs, (forall fuel, (k <= fuel)%nat -> import fuel show (map source_text file) beamline_name = (h, Ok tt)) /\
    get_beamline_elements h 0 = Ok addrs /\
    forall i, nth_error els i = Some (d_name d) ->
      exists a el, nth_error addrs i = Some a /\ nth_error (elems h) a = Some el /\
        e_name el = str (d_name d) /\ e_type el = str (d_type d) /\ e_params el = params_of d.
Proof.
  intros put show file es d sel before items tail els uses bn F V E L Id I U ND En.
  destruct (C44_definition_partial es d sel before items tail els uses bn show L Id I U ND En) as (k & h & addrs & R & G & X).
  exists k, h, addrs. split; [|split; [exact G|exact X]]. intros fuel Lf. rewrite (store_import put show file bn fuel F V), E. apply R. exact Lf.
Qed.
Print Assumptions C131_values_partial.

(** The number 2 is written 2.0 *)
Definition two (_ : num) : text := T "2.0".
(** A variable named l: every l in the file is replaced, and the beamline is not found. *)
Theorem C131_part_of_word_refuted : forall fuel,
  snd (import fuel two (file_of ["% 2 sto l"; "d: drift"; "main: line=(d)"]%string) (T "main")) = Err AssertionError.
Proof. intros fuel. destruct fuel; vm_compute; reflexivity. Qed.
Print Assumptions C131_part_of_word_refuted.


(** In a line that starts with the name of a variable nothing is replaced: k1 is the text kq. *)
Theorem C131_start_of_line_refuted : exists k, forall fuel, (k <= fuel)%nat ->
  params_found (import fuel two (file_of ["% 2 sto kq"; "kq1: quad,k1=kq,f=x,g=y,"; "kq: line=(kq1)"]%string) (T "kq")) =
    Some [[("k1"%string, VStr "kq"); ("f"%string, VStr "x"); ("g"%string, VStr "y")]].
Proof. exists 10%nat. intros fuel H. replace fuel with (10 + (fuel - 10))%nat by lia. vm_compute. reflexivity. Qed.
Print Assumptions C131_start_of_line_refuted.

(** A variable computed from another variable: the file cannot be read. *)
Theorem C131_from_variable_refuted : forall show fuel,
  snd (import fuel show (file_of ["% 1 sto aa"; "% aa 2 * sto bb"; "d: drift"; "main: line=(d)"]%string) (T "main")) = Err ValueError.
Proof. intros show fuel. vm_compute. reflexivity. Qed.
Print Assumptions C131_from_variable_refuted.

(** A name stored twice: the first value is used, also after the second. *)
Definition aa_store (k : nat) : storing :=
  {| s_pad := []; s_words := [(T "%", 0%nat); (literal_text (lit [k] None), 0%nat); (T "sto", 0%nat)]; s_expr := Const (lit [k] None); s_name := T "aa"; s_tail := [newline] |}.
Definition aa_use : template := {| u_first := T "d: drift, l="; u_uses := [(T "aa", [newline])] |}.
Definition aa_line : template := {| u_first := T "main: line=(d)" ++ [newline]; u_uses := [] |}.
Lemma aa_store_ok : forall k, (k < 10)%nat -> source_ok [T "aa"] (Store (aa_store k)).
Proof.
  intros k H. do 10 (destruct k as [|k]; [split; [apply lower_by; vm_compute; reflexivity|]; split; [apply blank_by; reflexivity|]; split; [apply blank_by; reflexivity|];
    split; [apply identifier_by; [discriminate|reflexivity]|]; split; [apply lit_by; (discriminate || reflexivity)|reflexivity]|]). lia.
Qed.
Theorem C131_stored_twice_refuted : forall show fuel, (forall x, real_of x = Some 1 -> show x = T "1.0") ->
  map source_text [Store (aa_store 1); Store (aa_store 2); Use aa_use; Use aa_line] = file_of ["% 1 sto aa"; "% 2 sto aa"; "d: drift, l=aa"; "main: line=(d)"]%string /\
  import fuel show (file_of ["% 1 sto aa"; "% 2 sto aa"; "d: drift, l=aa"; "main: line=(d)"]%string) (T "main") =
  import fuel show (file_of ["d: drift, l=1.0"; "main: line=(d)"]%string) (T "main").
Proof.
  intros show fuel H. split; [reflexivity|].
  assert (S : exists x y, real_of x = Some 1 /\ sanitize (file_of ["% 1 sto aa"; "% 2 sto aa"; "d: drift, l=aa"; "main: line=(d)"]%string) =
    Ok (file_of ["% 1 sto aa"; "% 2 sto aa"; "d: drift, l=aa"; "main: line=(d)"]%string, dset text_dec (dset text_dec [] (T "aa") y) (T "aa") x)).
  { assert (E : sanitize (file_of ["d: drift, l=aa"; "main: line=(d)"]%string) = Ok (file_of ["d: drift, l=aa"; "main: line=(d)"]%string, [])) by reflexivity.
    destruct (storing_sanitized _ _ 2 (file_of ["d: drift, l=aa"; "main: line=(d)"]%string) [] (aa_store_ok 2 ltac:(lia))) as (y & Y & Ey).
    { cbn. unfold literal_value, frac_digits. cbn. f_equal. lra. }
    destruct (storing_sanitized _ _ 1 (storing_text (aa_store 2) :: file_of ["d: drift, l=aa"; "main: line=(d)"]%string) (dset text_dec [] (s_name (aa_store 2)) y) (aa_store_ok 1 ltac:(lia))) as (x & X & Ex).
    { cbn. unfold literal_value, frac_digits. cbn. f_equal. lra. }
    exists x, y. split; [exact X|]. change (file_of ["% 1 sto aa"; "% 2 sto aa"; "d: drift, l=aa"; "main: line=(d)"]%string) with (storing_text (aa_store 1) :: storing_text (aa_store 2) :: file_of ["d: drift, l=aa"; "main: line=(d)"]%string).
    remember (file_of ["d: drift, l=aa"; "main: line=(d)"]%string) as rest. cbn [sanitize]. rewrite E. cbn [rbind]. rewrite Ey. cbn [rbind]. exact Ex. }
  destruct S as (x & y & X & S).
  assert (D : dset text_dec (dset text_dec [] (T "aa") y) (T "aa") x = [(T "aa", x)]) by reflexivity. rewrite D in S. clear D.
  unfold import. rewrite S.
  unfold replace_variables, replace_one. cbn [map fold_left fst snd]. rewrite !(H x X).
  destruct fuel as [|fuel]; [reflexivity|]. destruct fuel as [|fuel]; [vm_compute; reflexivity|]. vm_compute. reflexivity.
Qed.
Print Assumptions C131_stored_twice_refuted.

(** % 1 2 + sto kq, used twice, and a beamline *)
Definition kq_store : storing :=
  {| s_pad := T " "; s_words := [(T "%", 0%nat); (T "1", 1%nat); (T "2", 0%nat); (T "+", 0%nat); (T "sto", 0%nat)];
     s_expr := Binary Plus (Const (lit [1]%nat None)) (Const (lit [2]%nat None)); s_name := T "kq"; s_tail := [newline] |}.
Definition kq_use : template := {| u_first := T "q: quad, k1="; u_uses := [(T "kq", T ", k2="); (T "kq", [newline])] |}.
Definition kq_line : template := {| u_first := T "main: line=(q)" ++ [newline]; u_uses := [] |}.
Definition kq_file : list source := [Use kq_use; Store kq_store; Use kq_line].
Example C131_applies : file_ok (fun _ => T "3.0") kq_file /\ expr_value (s_expr kq_store) = Some 3 /\
  map source_text kq_file = file_of ["q: quad, k1=kq, k2=kq"; " % 1  2 + sto kq"; "main: line=(q)"]%string /\
  spelled_out (fun _ => T "3.0") kq_file = file_of ["q: quad, k1=3.0, k2=3.0"; "main: line=(q)"]%string.
Proof.
  assert (PN : forall t, occurs (T "kq") t = false -> ~ part_of (T "kq") t) by (intros t O P; apply occurs_part in P; congruence).
  split; [|split; [|split; reflexivity]].
  - split; [|split; [|split; [|split]]].
    + constructor; [|constructor; [|constructor; [|constructor]]].
      * split; [apply lower_by; vm_compute; reflexivity|]. split; [intros B; discriminate (B "q"%char (or_introl eq_refl))|]. split; [|split].
        -- cbn [apart u_first u_uses kq_use]. split; [exists (T "q: quad, k1"), "="%char; split; [reflexivity|right; left; cbn; tauto]|].
           split; [right; exists ","%char, (T " k2="); split; [reflexivity|right; left; cbn; tauto]|].
           split; [exists (T ", k2"), "="%char; split; [reflexivity|right; left; cbn; tauto]|]. split; [right; exists newline, []; split; [reflexivity|left; reflexivity]|exact I].
        -- intros n I. cbn in I. cbn. intuition.
        -- intros t I. cbn in I. destruct I as [<-|[<-|[<-|[]]]]; (split; [intros c O; cbn in O; cbn; intuition (subst; discriminate)|intros n J; cbn in J; destruct J as [<-|[]]; apply PN; reflexivity]).
      * split; [apply lower_by; vm_compute; reflexivity|]. split; [apply blank_by; reflexivity|]. split; [apply blank_by; reflexivity|].
        split; [apply identifier_by; [discriminate|reflexivity]|]. split; [split; apply lit_by; (discriminate || reflexivity)|reflexivity].
      * split; [apply lower_by; vm_compute; reflexivity|]. split; [intros B; discriminate (B "m"%char (or_introl eq_refl))|]. split; [exact I|]. split; [intros n []|].
        intros t J. cbn in J. destruct J as [<-|[]]. split; [intros c O; cbn in O; cbn; intuition (subst; discriminate)|intros n J; cbn in J; destruct J as [<-|[]]; apply PN; reflexivity].
    + cbn. constructor; [intros []|constructor].
    + intros p q [<-|[]] [<-|[]] _. reflexivity.
    + intros p q [<-|[]] [<-|[]]. apply PN. reflexivity.
    + intros p _. exists (lit [3]%nat (Some [0]%nat)). split; [apply lit_by; (discriminate || reflexivity)|reflexivity].
  - cbn. unfold literal_value, frac_digits. cbn. f_equal. lra.
Qed.

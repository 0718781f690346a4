(** C45: importing a lattice kept as records. *)
From Coq Require Import List Reals Bool Arith String ZArith Lia.
From Verif Require Import PyBase PyDict Line_Model Line_Spec Line_Proofs Json_Model Json_Spec Json_Proofs.
Import ListNotations.
Open Scope Z_scope.

(** Full statement: for every M with one_meaning and every line k with expansion es, parse_json
    gives a beamline whose elements are es.  Missing: a line that names one line twice, a line of
    lines taken backwards, two elements of one name (refuted below). *)
Theorem C45_expansion_partial : forall M k es, one_meaning M -> free_keys M -> lines_named_once M -> back_flat M ->
  In k (m_lines M) -> expansion M (jl_items k) es ->
  exists enough, forall limit, (enough <= limit)%nat -> exists h a addrs,
    parse_json limit M (jl_name k) = Ok (h, a) /\ get_beamline_elements h a = Ok addrs /\ Forall2 (imported M h) addrs es.
Proof.
  intros M k es O Fk Nm Bf Ik H.
  assert (C : coded M (jl_items k) es) by (apply expansion_coded; auto; intros i c J1 J2 J3 J4; exact (Bf k i c Ik J1 J2 J3 J4)).
  destruct (gen_ok M O Fk Nm _ _ C (Nm k Ik)) as [n Hn]. exists n. intros limit L. unfold parse_json. rewrite (found_name M k O Ik).
  pose proof (wf_new_line empty_heap (Some (jl_name k)) wf_empty) as W. destruct (new_line empty_heap (Some (jl_name k))) as [h0 a0] eqn:E0.
  unfold new_line in E0. cbn in E0. injection E0 as E0h E0a. cbn [fst] in W.
  destruct (Hn limit L h0 a0 {| l_name := Some (jl_name k); l_elements := []; l_lines := []; l_seq := []; l_top := 0%nat |} W)
    as (h' & l' & s & addrs & E & W' & _ & _ & Ha & Sq & _ & Ex & F).
  - subst h0 a0. reflexivity.
  - intros m e D. discriminate.
  - reflexivity.
  - rewrite E. exists h', a0, addrs. split; [reflexivity|]. destruct (gbe_ok h' a0 l' W' Ha) as (es' & G & Ex').
    rewrite Sq in Ex'. cbn [l_seq app] in Ex'. split; [rewrite G; f_equal; eapply expands_fun; eauto|].
    clear - O F. induction F; constructor; auto. apply exact_imported; assumption.
Qed.
Print Assumptions C45_expansion_partial.

(** A name no line has. *)
Theorem C45_unknown_name : forall limit M n, (forall k, In k (m_lines M) -> jl_name k <> n) -> parse_json limit M n = Err ValueError.
Proof. intros limit M n H. unfold parse_json. rewrite not_found_name by exact H. reflexivity. Qed.
Print Assumptions C45_unknown_name.

(* ---------------- a lattice for which the hypotheses hold ---------------- *)
Definition el (i : Z) (n : string) : jelem := {| je_id := i; je_name := n; je_type := "DRIFT"; je_fields := [("l", VStr "len"); ("Bore", VNum 2)]%string |}.
Definition ln (i : Z) (n : string) (l : list Z) : jline := {| jl_id := i; jl_name := n; jl_items := l |}.
Definition sample_lattice : models :=
  {| m_lines := [ln 10 "main" [1; 20; 2; -30]; ln 20 "cell" [2; 1; 30]; ln 30 "arc" [3; 1; 3; 2]];
     m_elems := [el 1 "a"; el 2 "b"; el 3 "c"]; m_rpn := [("len"%string, VNum 7)] |}.
Ltac named H := cbn in H; repeat match type of H with _ \/ _ => destruct H as [H|H] end; try contradiction.
Example C45_applies : exists k es, one_meaning sample_lattice /\ free_keys sample_lattice /\ lines_named_once sample_lattice /\
  back_flat sample_lattice /\ In k (m_lines sample_lattice) /\ expansion sample_lattice (jl_items k) es /\
  jl_name k = "main"%string /\ map je_name es = ["a"; "b"; "a"; "c"; "a"; "c"; "b"; "b"; "b"; "c"; "a"; "c"]%string.
Proof.
  exists (ln 10 "main" [1; 20; 2; -30]), [el 1 "a"; el 2 "b"; el 1 "a"; el 3 "c"; el 1 "a"; el 3 "c"; el 2 "b"; el 2 "b"; el 2 "b"; el 3 "c"; el 1 "a"; el 3 "c"].
  unfold one_meaning. repeat match goal with |- _ /\ _ => split end.
  - cbn. repeat (constructor; [cbn; intuition discriminate|]). constructor.
  - intros i H. named H; lia.
  - cbn. repeat (constructor; [cbn; intuition discriminate|]). constructor.
  - cbn. repeat (constructor; [cbn; intuition discriminate|]). constructor.
  - cbn. repeat (constructor; [cbn; intuition discriminate|]). constructor.
  - intros e k v H1 H2. named H1; subst e; named H2; injection H2 as <- _; repeat split; discriminate.
  - intros k H. apply once_by. named H; subst k; reflexivity.
  - intros k i c H1 H2 H3 H4 H5 j H6. named H1; subst k; named H2; subst i; try lia. named H4; subst c; cbn in H5; try discriminate.
    named H6; subst j; unfold is_line; cbn; intros L; repeat destruct L as [L|L]; try discriminate; contradiction.
  - left. reflexivity.
  - assert (Arc : expansion sample_lattice [3; 1; 3; 2] [el 3 "c"; el 1 "a"; el 3 "c"; el 2 "b"])
      by (repeat (apply ex_elem; [cbn; tauto|reflexivity|]); constructor).
    cbn [jl_items ln]. apply ex_elem; [cbn; tauto|reflexivity|].
    apply (ex_line _ _ (ln 20 "cell" [2; 1; 30]) _ [el 2 "b"; el 1 "a"; el 3 "c"; el 1 "a"; el 3 "c"; el 2 "b"]); [cbn; tauto|reflexivity| |].
    + apply ex_elem; [cbn; tauto|reflexivity|]. apply ex_elem; [cbn; tauto|reflexivity|].
      apply (ex_line _ _ (ln 30 "arc" [3; 1; 3; 2]) _ [el 3 "c"; el 1 "a"; el 3 "c"; el 2 "b"] []); [cbn; tauto|reflexivity|exact Arc|constructor].
    + apply ex_elem; [cbn; tauto|reflexivity|].
      apply (ex_back _ _ (ln 30 "arc" [3; 1; 3; 2]) _ [el 3 "c"; el 1 "a"; el 3 "c"; el 2 "b"] []); [cbn; tauto|reflexivity|lia|exact Arc|constructor].
  - reflexivity.
  - reflexivity.
Qed.

(* ---------------- what is missing is false ---------------- *)
Definition imported_names (limit : nat) (M : models) (n : string) : option (list string) :=
  match parse_json limit M n with
  | Ok (h, a) => match get_beamline_elements h a with
                 | Ok l => Some (map (fun e => match element_at h e with Some x => e_name x | None => ""%string end) l)
                 | _ => None end
  | _ => None
  end.
Definition imported_ids (limit : nat) (M : models) (n : string) : option (list (option value)) :=
  match parse_json limit M n with
  | Ok (h, a) => match get_beamline_elements h a with
                 | Ok l => Some (map (fun e => match element_at h e with Some x => agn_get (e_params x) "mark" | None => None end) l)
                 | _ => None end
  | _ => None
  end.

(** main is cell cell, the beamline has cell four times *)
Theorem C45_line_used_twice_refuted : exists M k es enough, one_meaning M /\ free_keys M /\ back_flat M /\ In k (m_lines M) /\
  expansion M (jl_items k) es /\ map je_name es = ["a"; "a"]%string /\
  forall limit, (enough <= limit)%nat -> imported_names limit M (jl_name k) = Some ["a"; "a"; "a"; "a"]%string.
Proof.
  exists {| m_lines := [ln 10 "main" [20; 20]; ln 20 "cell" [1]]; m_elems := [el 1 "a"]; m_rpn := [] |}, (ln 10 "main" [20; 20]), [el 1 "a"; el 1 "a"], 5%nat.
  unfold one_meaning. repeat match goal with |- _ /\ _ => split end.
  - cbn. repeat (constructor; [cbn; intuition discriminate|]). constructor.
  - intros i H. named H; lia.
  - cbn. repeat (constructor; [cbn; intuition discriminate|]). constructor.
  - cbn. repeat (constructor; [cbn; intuition discriminate|]). constructor.
  - constructor.
  - intros e k v H1 H2. named H1; subst e; named H2; injection H2 as <- _; repeat split; discriminate.
  - intros k i c H1 H2 H3. named H1; subst k; named H2; subst i; lia.
  - left. reflexivity.
  - assert (Cell : expansion {| m_lines := [ln 10 "main" [20; 20]; ln 20 "cell" [1]]; m_elems := [el 1 "a"]; m_rpn := [] |} [1] [el 1 "a"])
      by (apply ex_elem; [cbn; tauto|reflexivity|constructor]).
    cbn [jl_items ln]. apply (ex_line _ _ (ln 20 "cell" [1]) _ [el 1 "a"] [el 1 "a"]); [cbn; tauto|reflexivity|exact Cell|].
    apply (ex_line _ _ (ln 20 "cell" [1]) _ [el 1 "a"] []); [cbn; tauto|reflexivity|exact Cell|constructor].
  - reflexivity.
  - intros limit H. replace limit with (5 + (limit - 5))%nat by lia. vm_compute. reflexivity.
Qed.
Print Assumptions C45_line_used_twice_refuted.

(** main is cell backwards and cell is a (b c): c b a expected, b c a read *)
Theorem C45_nested_backwards_refuted : exists M k es enough, one_meaning M /\ free_keys M /\ lines_named_once M /\ In k (m_lines M) /\
  expansion M (jl_items k) es /\ map je_name es = ["c"; "b"; "a"]%string /\
  forall limit, (enough <= limit)%nat -> imported_names limit M (jl_name k) = Some ["b"; "c"; "a"]%string.
Proof.
  set (M := {| m_lines := [ln 10 "main" [-20]; ln 20 "cell" [1; 30]; ln 30 "arc" [2; 3]]; m_elems := [el 1 "a"; el 2 "b"; el 3 "c"]; m_rpn := [] |}).
  exists M, (ln 10 "main" [-20]), [el 3 "c"; el 2 "b"; el 1 "a"], 6%nat.
  unfold one_meaning. repeat match goal with |- _ /\ _ => split end.
  - cbn. repeat (constructor; [cbn; intuition discriminate|]). constructor.
  - intros i H. named H; lia.
  - cbn. repeat (constructor; [cbn; intuition discriminate|]). constructor.
  - cbn. repeat (constructor; [cbn; intuition discriminate|]). constructor.
  - constructor.
  - intros e k v H1 H2. named H1; subst e; named H2; injection H2 as <- _; repeat split; discriminate.
  - intros k H. apply once_by. named H; subst k; reflexivity.
  - left. reflexivity.
  - cbn [jl_items ln]. apply (ex_back M (-20) (ln 20 "cell" [1; 30]) [] [el 1 "a"; el 2 "b"; el 3 "c"] []); [cbn; tauto|reflexivity|lia| |constructor].
    apply ex_elem; [cbn; tauto|reflexivity|].
    apply (ex_line M _ (ln 30 "arc" [2; 3]) [] [el 2 "b"; el 3 "c"] []); [cbn; tauto|reflexivity| |constructor].
    apply ex_elem; [cbn; tauto|reflexivity|]. apply ex_elem; [cbn; tauto|reflexivity|]. constructor.
  - reflexivity.
  - intros limit H. replace limit with (6 + (limit - 6))%nat by lia. vm_compute. reflexivity.
Qed.
Print Assumptions C45_nested_backwards_refuted.

(** Two elements of one name in one line: the second record is lost. *)
Definition marked (i : Z) (s : string) : jelem := {| je_id := i; je_name := "a"; je_type := "DRIFT"; je_fields := [("mark"%string, VStr s)] |}.
Theorem C45_same_name_refuted : exists M k es enough, free_keys M /\ lines_named_once M /\ back_flat M /\ In k (m_lines M) /\
  NoDup (map jl_id (m_lines M) ++ map je_id (m_elems M)) /\
  expansion M (jl_items k) es /\ map je_fields es = [[("mark", VStr "one")]; [("mark", VStr "two")]]%string /\
  forall limit, (enough <= limit)%nat -> imported_ids limit M (jl_name k) = Some [Some (VStr "one"); Some (VStr "one")]%string.
Proof.
  set (M := {| m_lines := [ln 10 "main" [1; 2]]; m_elems := [marked 1 "one"; marked 2 "two"]; m_rpn := [] |}).
  exists M, (ln 10 "main" [1; 2]), [marked 1 "one"; marked 2 "two"], 6%nat.
  unfold one_meaning. repeat match goal with |- _ /\ _ => split end.
  - intros e k v H1 H2. named H1; subst e; named H2; injection H2 as <- _; repeat split; discriminate.
  - intros k H. apply once_by. named H; subst k; reflexivity.
  - intros k i c H1 H2 H3. named H1; subst k; named H2; subst i; lia.
  - left. reflexivity.
  - cbn. repeat (constructor; [cbn; intuition discriminate|]). constructor.
  - apply ex_elem; [cbn; tauto|reflexivity|]. apply ex_elem; [cbn; tauto|reflexivity|]. constructor.
  - reflexivity.
  - intros limit H. replace limit with (6 + (limit - 6))%nat by lia. vm_compute. reflexivity.
Qed.
Print Assumptions C45_same_name_refuted.

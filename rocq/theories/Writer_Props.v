(** C126: what a writer holds after any calls of create_column and create_parameter
    (rsbeams/rsdata/SDDS.py writeSDDS). *)
From Coq Require Import List Bool Ascii String ZArith Reals.
From Verif Require Import PyBase PyText Lte_Spec Sdds_Model Sdds_Spec Sdds_Proofs Sdds_Samples.
Import ListNotations.

(** A call, and a script of calls: one that raises leaves the writer as it was. *)
Inductive call := NewColumn (c : wcol) | NewParameter (p : wparam).
Definition make (w : writer) (x : call) : res writer := match x with NewColumn c => create_column w c | NewParameter p => create_parameter w p end.
Fixpoint script (w : writer) (xs : list call) : writer * list (option exn) :=
  match xs with
  | [] => (w, [])
  | x :: r => match make w x with
              | Ok w' => let '(v, es) := script w' r in (v, None :: es)
              | Err e => let '(v, es) := script w r in (v, Some e :: es)
              | Diverges => (w, [])
              end
  end.
Definition empty_writer : writer := {| w_params := []; w_cols := [] |}.

(** Specification: the types that can be written; a fixed value, which is written in the header,
    excludes a value in the data. *)
Definition known_type (t : text) : Prop := t = T "double" \/ t = T "short" \/ t = T "long" \/ t = T "string".
Definition has_fixed (p : wparam) : Prop :=
  match p_fixed p with
  | NoFix => False
  | FixInt z => z <> 0%Z
  | FixFloat s => py_float s <> Some 0%R
  | FixStr t => t <> []
  end.
Definition accepted (x : call) : Prop :=
  match x with
  | NewColumn c => known_type (w_type c)
  | NewParameter p => known_type (p_type p) /\ ~ (has_fixed p /\ p_data p <> None)
  end.
Definition columns_in (xs : list call) : list wcol := flat_map (fun x => match x with NewColumn c => [c] | _ => [] end) xs.
Definition parameters_in (xs : list call) : list wparam := flat_map (fun x => match x with NewParameter p => [p] | _ => [] end) xs.
(** [ys] are the calls of [xs] that are accepted, in order; [es] tells which were refused *)
Inductive kept : list call -> list call -> list (option exn) -> Prop :=
  | kept_nil : kept [] [] []
  | kept_yes : forall x xs ys es, accepted x -> kept xs ys es -> kept (x :: xs) (x :: ys) (None :: es)
  | kept_no : forall x xs ys es, ~ accepted x -> kept xs ys es -> kept (x :: xs) ys (Some AssertionError :: es).

Lemma types_known : forall t, existsb (teqb t) writable_types = true <-> known_type t.
Proof.
  intros t. unfold writable_types, known_type. cbn [existsb]. rewrite !orb_true_iff. split.
  - intros [H|[H|[H|[H|H]]]]; try discriminate; apply teqb_eq in H; tauto.
  - intros [->|[->|[->| ->]]]; rewrite teqb_refl; tauto.
Qed.
Lemma fixed_known : forall p, fixed_truthy (p_fixed p) = true <-> has_fixed p.
Proof.
  intros p. unfold has_fixed. destruct (p_fixed p) as [|z|s|t]; cbn [fixed_truthy].
  - split; [discriminate|contradiction].
  - rewrite negb_true_iff, Z.eqb_neq. reflexivity.
  - destruct (py_float s) as [v|]; [|split; [discriminate|reflexivity]]. destruct (Reals.RIneq.Req_EM_T v 0) as [->|N]; [split; [discriminate|congruence]|split; [congruence|reflexivity]].
  - destruct t; split; try reflexivity; try discriminate; congruence.
Qed.
Lemma make_spec : forall w x, (accepted x /\ make w x = Ok {| w_params := w_params w ++ parameters_in [x]; w_cols := w_cols w ++ columns_in [x] |}) \/ (~ accepted x /\ make w x = Err AssertionError).
Proof.
  intros w [c|p]; cbn [make accepted columns_in parameters_in flat_map app]; rewrite ?app_nil_r.
  - unfold create_column. destruct (existsb (teqb (w_type c)) writable_types) eqn:E; [left; split; [now apply types_known|reflexivity]|right; split; [|reflexivity]]. rewrite <- types_known, E. discriminate.
  - unfold create_parameter. destruct (existsb (teqb (p_type p)) writable_types) eqn:E; cbn [negb]; [|right; split; [|reflexivity]; intros [H _]; apply types_known in H; congruence].
    destruct (fixed_truthy (p_fixed p)) eqn:F; cbn [andb].
    + destruct (p_data p) as [v|] eqn:D; [right|left]; (split; [|reflexivity]).
      * intros [_ H]. apply H. split; [now apply fixed_known|discriminate].
      * split; [now apply types_known|]. intros [_ H]. now apply H.
    + left. split; [|reflexivity]. split; [now apply types_known|]. intros [H _]. apply fixed_known in H. congruence.
Qed.

(* ------------------------------------------------------------------ *)
(** ** C126.  After any calls, the writer holds what was accepted, in the order of the calls; a call
    that is refused raises AssertionError and leaves no trace. *)
Theorem C126_script_partial : forall xs, exists ys, kept xs ys (snd (script empty_writer xs)) /\
  w_cols (fst (script empty_writer xs)) = columns_in ys /\ w_params (fst (script empty_writer xs)) = parameters_in ys.
Proof.
  intros xs. assert (H : forall w, exists ys, kept xs ys (snd (script w xs)) /\ w_cols (fst (script w xs)) = w_cols w ++ columns_in ys /\ w_params (fst (script w xs)) = w_params w ++ parameters_in ys).
  { induction xs as [|x xs IH]; intros w.
    - exists []. split; [constructor|]. cbn. rewrite !app_nil_r. split; reflexivity.
    - cbn [script]. destruct (make_spec w x) as [[A E]|[A E]]; rewrite E.
      + destruct (IH {| w_params := w_params w ++ parameters_in [x]; w_cols := w_cols w ++ columns_in [x] |}) as (ys & K & C & P). destruct (script _ xs) as [v es]. cbn [fst snd] in *. exists (x :: ys).
        split; [now constructor|]. rewrite C, P. cbn [w_cols w_params]. unfold columns_in, parameters_in. cbn [flat_map]. rewrite !app_nil_r, <- !app_assoc. split; reflexivity.
      + destruct (IH w) as (ys & K & C & P). destruct (script w xs) as [v es]. cbn [fst snd] in *. exists ys. split; [now constructor|]. split; assumption. }
  destruct (H empty_writer) as (ys & K & C & P). exists ys. split; [exact K|]. split; assumption.
Qed.
Print Assumptions C126_script_partial.

(** The class promises the type character as well; it is refused. *)
Theorem C126_character_refuted : forall w c p, w_type c = T "character" -> p_type p = T "character" -> create_column w c = Err AssertionError /\ create_parameter w p = Err AssertionError.
Proof. intros w c p C P. unfold create_column, create_parameter. rewrite C, P. split; reflexivity. Qed.
Print Assumptions C126_character_refuted.

(** Two columns and a parameter with two refused calls between them. *)
Example C126_applies :
  let bad := {| w_name := T "q"; w_data := CDouble []; w_type := T "float"; w_units := []; w_symbol := []; w_format := []; w_description := []; w_length := 0 |} in
  let both := {| p_name := T "n"; p_data := Some (WInt 1); p_type := T "long"; p_units := []; p_symbol := []; p_format := []; p_description := []; p_fixed := FixInt 2 |} in
  script empty_writer [NewColumn c_x; NewColumn bad; NewParameter p_title; NewParameter both; NewColumn c_tag] =
  ({| w_params := [p_title]; w_cols := [c_x; c_tag] |}, [None; Some AssertionError; None; Some AssertionError; None]).
Proof. reflexivity. Qed.

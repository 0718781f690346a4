(** * Claim C146: the coordinates of a phase space object. *)
From Coq Require Import List Reals Bool Arith String Ascii ZArith Lia.
From Verif Require Import PyBase PyDict Scatter_Model Scatter_Props Coord_Model.
Import ListNotations.
Open Scope R_scope.

(* ------------------------------------------------------------------ *)
(** ** Specification *)
(** An array has as many entries as its shape says. *)
Definition full (a : ndarray) : Prop := List.length (entries a) = fold_right Nat.mul 1%nat (shape a).
(** The files hold 6 by N arrays. *)
Definition full_files (fs : files) : Prop := forall f a, dget string_dec fs f = Some a -> full a /\ exists n, six_rows a n.
(** The six getters return n numbers each, which are all the numbers of the array, row by row. *)
Definition six_coordinates (p : phase_space_6d) (n : nat) : Prop := exists x xp y yp s dp,
  get_array_x p = Ok x /\ get_array_xp p = Ok xp /\ get_array_y p = Ok y /\ get_array_yp p = Ok yp /\ get_array_s p = Ok s /\ get_array_dp p = Ok dp /\
  Forall (fun l => List.length l = n) [x; xp; y; yp; s; dp] /\ entries (array_6d p) = x ++ xp ++ y ++ yp ++ s ++ dp.

(* ------------------------------------------------------------------ *)
(** ** Proofs *)
Lemma skip_skip : forall (l : list R) a b, skipn a (skipn b l) = skipn (b + a) l.
Proof. intros l a b. revert l. induction b as [|b IH]; intros l; [reflexivity|]. destruct l; [now rewrite !skipn_nil|]. cbn [skipn Nat.add]. apply IH. Qed.
Lemma six_cut : forall p n, full (array_6d p) -> shape (array_6d p) = [6; n]%nat -> six_coordinates p n.
Proof.
  intros p n F Sh. unfold six_coordinates, get_array_x, get_array_xp, get_array_y, get_array_yp, get_array_s, get_array_dp, row. rewrite Sh.
  unfold full in F. rewrite Sh in F. cbn [fold_right] in F. set (l := entries (array_6d p)) in *. rewrite Nat.mul_1_r in F.
  assert (L : forall i, (i < 6)%nat -> List.length (firstn n (skipn (i * n) l)) = n).
  { intros i I. rewrite firstn_length, skipn_length, F. apply Nat.min_l. nia. }
  assert (D : forall i, skipn (i * n) l = firstn n (skipn (i * n) l) ++ skipn (S i * n) l).
  { intros i. rewrite <- (firstn_skipn n (skipn (i * n) l)) at 1. f_equal. rewrite skip_skip. f_equal. lia. }
  do 6 eexists. repeat (split; [reflexivity|]). split.
  - repeat (apply Forall_cons; [apply L; lia|]). apply Forall_nil.
  - rewrite <- (app_nil_r (firstn n (skipn (5 * n) l))). replace (@nil R) with (skipn (6 * n) l) by (apply skipn_all2; lia).
    rewrite <- !D. reflexivity.
Qed.
Definition sound_space (p : phase_space_6d) : Prop := full (array_6d p) /\ counted p.
Lemma zeros_full : forall r c, full (np_zeros r c).
Proof. intros r c. unfold full, np_zeros. cbn [entries shape fold_right]. rewrite repeat_length. lia. Qed.
Lemma sound_run : forall calls p fs, sound_space p -> full_files fs -> Forall no_foreign_array calls -> sound_space (fst (ps_run (p, fs) calls)).
Proof.
  induction calls as [|c calls IH]; intros p fs [U C] G F; [split; assumption|]. inversion F as [|? ? NC F']; subst. cbn [ps_run].
  destruct c as [m|f| | | |a]; cbn [ps_step fst].
  - unfold set_num_ptcls. destruct (0 <? m)%Z eqn:P; apply IH; auto; [|split; assumption]. apply Z.ltb_lt in P. split; [apply zeros_full|]. exists (Z.to_nat m). split; [split; [reflexivity|lia]|cbn; lia].
  - unfold set_file_name. destruct (string_dec f ""); apply IH; auto; split; assumption.
  - apply IH; [split; assumption| |exact F']. intros f a D. unfold write_array in D. rewrite dget_dset in D. destruct (string_dec _ f); [|now apply (G f)]. injection D as <-. split; [exact U|]. destruct C as [k [S _]]. now exists k.
  - unfold read_array. destruct (dget string_dec fs _) as [a|] eqn:D; [|apply IH; auto; split; assumption]. destruct (G _ _ D) as [Ua [k [S P]]]. unfold check_array. cbn [array_6d]. rewrite S. cbn [Nat.eqb negb].
    destruct (k <? 1)%nat eqn:K; [apply Nat.ltb_lt in K; lia|]. apply IH; [|exact G|exact F']. split; [exact Ua|]. exists k. split; [split; assumption|reflexivity].
  - unfold check_array. destruct C as [k [[S P] Q]]. rewrite S. cbn [Nat.eqb negb]. destruct (k <? 1)%nat eqn:K; [apply Nat.ltb_lt in K; lia|]. apply IH; [|exact G|exact F']. split; [exact U|]. exists k. split; [split; assumption|reflexivity].
  - destruct NC.
Qed.

(* ------------------------------------------------------------------ *)
(** ** Theorems *)
(** Partial: arrays are not replaced from outside, and the files hold 6 by N arrays. *)
Theorem C146_rows_partial : forall n p fs calls, new_space n = Ok p -> full_files fs -> Forall no_foreign_array calls ->
  let q := fst (ps_run (p, fs) calls) in six_coordinates q (Z.to_nat (num_ptcls q)).
Proof.
  intros n p fs calls E G F q. assert (S : sound_space p).
  { unfold new_space in E. destruct (0 <? n)%Z eqn:P; [|discriminate]. apply Z.ltb_lt in P. injection E as <-. split; [apply zeros_full|]. exists (Z.to_nat n). split; [split; [reflexivity|lia]|cbn; lia]. }
  destruct (sound_run calls p fs S G F) as [U [k [[Sh _] N]]]. fold q in U, Sh, N. rewrite N, Nat2Z.id. now apply six_cut.
Qed.
Print Assumptions C146_rows_partial.
(** After any calls, and with any array: once check_array has succeeded the coordinates are those of the array. *)
Theorem C146_checked : forall p q fs, full (array_6d p) -> ps_step (p, fs) CheckArray = (q, fs, Ok tt) ->
  array_6d q = array_6d p /\ six_coordinates q (Z.to_nat (num_ptcls q)).
Proof.
  intros p q fs U E. destruct (C102_checked p fs q CheckArray (or_introl eq_refl) E) as [k [[Sh _] N]].
  assert (A : array_6d q = array_6d p).
  { cbn in E. destruct (check_array p) as [q' x] eqn:D. injection E as <- ->. unfold check_array in D. destruct (shape (array_6d p)) as [|r [|c [|? ?]]]; try discriminate.
    destruct (negb _); [discriminate|]. destruct (_ <? _)%nat; [discriminate|]. injection D as <-. reflexivity. }
  split; [exact A|]. rewrite N, Nat2Z.id. apply six_cut; [now rewrite A|exact Sh].
Qed.
Print Assumptions C146_checked.
(** With an array of fewer rows the last coordinate cannot be had; with one of other length the coordinates are not as many as the object says. *)
Theorem C146_foreign_refuted : forall p a r c, full a -> shape a = [r; c] ->
  ((r < 6)%nat -> get_array_dp (set_array_6d p a) = Err IndexError) /\
  (r = 6%nat -> six_coordinates (set_array_6d p a) c /\ num_ptcls (set_array_6d p a) = num_ptcls p).
Proof.
  intros p a r c U S. split.
  - intros L. unfold get_array_dp, row. cbn [set_array_6d array_6d]. rewrite S. destruct (Nat.ltb_spec 5 r); [lia|reflexivity].
  - intros ->. split; [|reflexivity]. apply six_cut; assumption.
Qed.
Print Assumptions C146_foreign_refuted.

(** three particles, saved, replaced by five and read again; one particle with coordinates 1 to 6 *)
Example C146_applies : (exists p, new_space 3 = Ok p /\ six_coordinates (fst (ps_run (p, []) [SetFile "a"; WriteArray; SetNum 5; ReadArray])) 3) /\
  get_array_yp (set_array_6d {| num_ptcls := 7; array_6d := np_zeros 6 7; file_name := "a" |} {| shape := [6; 1]%nat; entries := [1; 2; 3; 4; 5; 6] |}) = Ok [4].
Proof.
  split; [|reflexivity]. eexists. split; [reflexivity|]. refine (C146_rows_partial 3 _ [] [SetFile "a"; WriteArray; SetNum 5; ReadArray] _ _ _); [reflexivity|intros f a D; discriminate|repeat constructor].
Qed.

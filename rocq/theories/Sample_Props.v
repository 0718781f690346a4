(** Theorems about sampling from a distribution (properties C18, C19, C75). *)
From Coq Require Import List Reals Lra Lia Psatz Bool Arith String.
From Verif Require Import PyBase Stats_Spec Stats_Proofs Sample_Model Sample_Spec Sample_Proofs.
Import ListNotations.
Open Scope R_scope.

(** ---------------- C18 ---------------- *)
Theorem C18_cdf : forall d grid ar w, d grid (call_args ar) = Ok w -> weights_ok w ->
  exists c, cdf_on_grid d grid ar = Ok (map Some c) /\ List.length c = List.length w /\
    (forall k, (k < List.length w)%nat -> 0 <= nth k c 0 <= 1) /\
    (forall j k, (j <= k)%nat -> (k < List.length w)%nat -> nth j c 0 <= nth k c 0) /\
    nth 0 c 0 = nth 0 w 0 / total w /\
    (forall k, (S k < List.length w)%nat -> nth (S k) c 0 - nth k c 0 = nth (S k) w 0 / total w) /\
    nth (List.length w - 1) c 0 = 1.
Proof.
  intros d grid ar w Ed [Hw Ht]. unfold cdf_on_grid. rewrite Ed. cbn [rbind].
  exists (map (fun k => partial_sum w (S k) / total w) (seq 0 (List.length w))).
  rewrite calculate_cdf_spec by lra. rewrite map_map.
  split; [reflexivity|]. split; [rewrite map_length, seq_length; reflexivity|].
  assert (Hn : forall k, (k < List.length w)%nat ->
     nth k (map (fun k => partial_sum w (S k) / total w) (seq 0 (List.length w))) 0 = partial_sum w (S k) / total w).
  { intros k Hk. set (f := fun k => partial_sum w (S k) / total w).
    rewrite (nth_indep (map f _) 0 (f 0%nat)) by (rewrite map_length, seq_length; exact Hk).
    rewrite map_nth, seq_nth by exact Hk. reflexivity. }
  assert (Hinv : 0 < / total w) by (apply Rinv_0_lt_compat; exact Ht).
  assert (Hne : (0 < List.length w)%nat) by (destruct w; [unfold total in Ht; simpl in Ht; lra|simpl; lia]).
  split; [|split; [|split; [|split]]].
  - intros k Hk. rewrite Hn by exact Hk. split.
    + apply Rmult_le_pos; [apply partial_nonneg; exact Hw|lra].
    + apply Rmult_le_reg_r with (total w); [exact Ht|]. unfold Rdiv. rewrite Rmult_assoc, Rinv_l by lra.
      rewrite Rmult_1_l, Rmult_1_r. rewrite <- (partial_all w) . apply partial_mono; [exact Hw|lia|lia].
  - intros j k Hj Hk. rewrite !Hn by lia. unfold Rdiv. apply Rmult_le_compat_r; [lra|]. apply partial_mono; [exact Hw|lia|lia].
  - rewrite Hn by exact Hne. rewrite partial_step by exact Hne. unfold partial_sum. simpl. unfold Rdiv. ring.
  - intros k Hk. rewrite !Hn by lia. rewrite (partial_step w (S k)) by exact Hk. unfold Rdiv. ring.
  - rewrite Hn by lia. replace (S (List.length w - 1)) with (List.length w) by lia. rewrite partial_all.
    unfold Rdiv. apply Rinv_r. lra.
Qed.
Print Assumptions C18_cdf.

Definition flat : distribution := fun grid _ => Ok (map (fun _ => 1) grid).
Example C18_applies : exists c, cdf_on_grid flat [0; 1; 2; 3] NoArgs = Ok (map Some c) /\ nth 1 c 0 - nth 0 c 0 = 1 / 4.
Proof.
  destruct (C18_cdf flat [0; 1; 2; 3] NoArgs [1; 1; 1; 1] eq_refl) as (c & E & _ & _ & _ & _ & H & _).
  - split; [|unfold total; simpl; lra]. intros x Hx. simpl in Hx. lra.
  - exists c. split; [exact E|]. rewrite (H 0%nat) by (simpl; lia). unfold total. simpl. field.
Qed.

(** ---------------- C19 ---------------- *)
Definition values (a : array) : list R := match a with Flat l => l | Column l => l end.

Theorem C19_numeric_partial : forall rand halton interp n d a b ar wn method w,
  d (linspace a b wn) (call_args ar) = Ok w -> List.length w = wn -> weights_ok w ->
  let y := if String.eqb method "random" then rand n else halton n in
  method = "random"%string \/ method = "halton"%string ->
  List.length y = n -> (forall u, In u y -> 0 <= u < 1) ->
  exists s, sample rand halton interp true n d a b ar wn method "numeric" = Ok s /\
    List.length (values s) = n /\
    (method = "random"%string -> exists l, s = Flat l) /\
    forall k, (k < n)%nat -> exists i,
      first_reaching w (nth k y 0) i /\ nth k (values s) 0 = grid_point a b wn i /\
      (a <= b -> a <= nth k (values s) 0 <= b).
Proof.
  intros rand halton interp n d a b ar wn method w Ed Hl Hw y Hm Hy Hu.
  unfold sample, cdf_on_grid. cbn [negb]. rewrite Ed. cbn [rbind].
  assert (HS : forall u, In u y -> first_reaching w u (searchsorted (calculate_cdf w) u)).
  { intros u Hin. apply search_cdf; [exact Hw|]. specialize (Hu u Hin). lra. }
  destruct (fancy_spec (linspace a b wn) (map (searchsorted (calculate_cdf w)) y)) as (v & Ev & F).
  { intros i Hi. apply in_map_iff in Hi. destruct Hi as (u & <- & Hin). rewrite linspace_len, <- Hl.
    apply (HS u Hin). }
  assert (HF : forall k, (k < n)%nat -> exists i,
      first_reaching w (nth k y 0) i /\ nth k v 0 = grid_point a b wn i /\ (a <= b -> a <= nth k v 0 <= b)).
  { intros k Hk. exists (searchsorted (calculate_cdf w) (nth k y 0)).
    assert (Hin : In (nth k y 0) y) by (apply nth_In; lia). split; [apply HS; exact Hin|].
    assert (Hpos : (searchsorted (calculate_cdf w) (nth k y 0%R) < wn)%nat) by (rewrite <- Hl; apply (HS _ Hin)).
    assert (E : nth k v 0 = grid_point a b wn (searchsorted (calculate_cdf w) (nth k y 0))).
    { pose proof (fancy_nth _ _ _ _ k F ltac:(lia)) as Ht. rewrite linspace_nth in Ht by exact Hpos. congruence. }
    split; [exact E|]. intros Hab. rewrite E. apply grid_point_in; assumption. }
  assert (Hlen : List.length v = n).
  { rewrite (fancy_len _ _ _ F), map_length. exact Hy. }
  destruct Hm as [->| ->]; cbn in y; cbn [rbind String.eqb Ascii.eqb Bool.eqb]; fold y; rewrite ?Ev; cbn [rbind].
  - exists (Flat v). split; [reflexivity|]. split; [exact Hlen|]. split; [intros _; exists v; reflexivity|exact HF].
  - exists (Column v). split; [reflexivity|]. split; [exact Hlen|]. split; [discriminate|exact HF].
Qed.
Print Assumptions C19_numeric_partial.

Example C19_applies : exists s,
  sample (fun n => repeat (3/10) n) (fun _ => []) (fun _ _ => Err ValueError) true 2 flat 0 3 NoArgs 4 "random" "numeric" = Ok s /\
  nth 1 (values s) 0 = 1.
Proof.
  destruct (C19_numeric_partial (fun n => repeat (3/10) n) (fun _ => []) (fun _ _ => Err ValueError) 2 flat 0 3 NoArgs 4 "random" [1;1;1;1])
    as (s & E & _ & _ & H).
  - reflexivity.
  - reflexivity.
  - split; [|unfold total; simpl; lra]. intros x Hx. simpl in Hx. lra.
  - left. reflexivity.
  - reflexivity.
  - intros u Hu. cbn in Hu. destruct Hu as [<-|[<-|[]]]; lra.
  - exists s. split; [exact E|]. destruct (H 1%nat ltac:(lia)) as (i & (Hi & R1 & R2) & Hg & _). cbn in R1, R2, Hi.
    rewrite Hg. assert (i = 1)%nat.
    { destruct i as [|[|i]]; [|reflexivity|].
      - exfalso. unfold partial_sum, total in R1. simpl in R1. lra.
      - exfalso. specialize (R2 1%nat ltac:(lia)). unfold partial_sum, total in R2. simpl in R2. lra. }
    subst. unfold grid_point. simpl. field.
Qed.

(** Halton sampling does not return n numbers but an (n,1) array. *)
Theorem C19_halton_shape_refuted : exists l,
  sample (fun _ => []) (fun n => repeat (3/10) n) (fun _ _ => Err ValueError) true 2 flat 0 3 NoArgs 4 "halton" "numeric" = Ok (Column l).
Proof.
  destruct (fancy_spec (linspace 0 3 4) (map (searchsorted (calculate_cdf [1;1;1;1])) (repeat (3/10) 2))) as (v & Ev & _).
  { intros i Hi. apply in_map_iff in Hi. destruct Hi as (u & <- & Hu). rewrite linspace_len. change 4%nat with (List.length [1;1;1;1]).
    cbn in Hu. destruct Hu as [<-|[<-|[]]]; (apply search_cdf; [|lra]); (split; [|unfold total; simpl; lra]); intros x Hx; simpl in Hx; lra. }
  exists v. unfold sample, cdf_on_grid. cbn [negb String.eqb Ascii.eqb Bool.eqb].
  change (flat (linspace 0 3 4) (call_args NoArgs)) with (@Ok (list R) [1;1;1;1]). cbn [rbind]. rewrite Ev. reflexivity.
Qed.
Print Assumptions C19_halton_shape_refuted.

(** Unsupported names are refused, whatever the distribution. *)
Theorem C19_unsupported : forall rand halton interp n d a b ar wn method invert w,
  d (linspace a b wn) (call_args ar) = Ok w ->
  ((method <> "random" /\ method <> "halton") \/ (invert <> "numeric" /\ invert <> "interpolate"))%string ->
  sample rand halton interp true n d a b ar wn method invert = Err NotImplementedError.
Proof.
  intros rand halton interp n d a b ar wn method invert w Ed H. unfold sample, cdf_on_grid. cbn [negb]. rewrite Ed. cbn [rbind].
  destruct (String.eqb_spec method "random"), (String.eqb_spec method "halton"),
    (String.eqb_spec invert "numeric"), (String.eqb_spec invert "interpolate"); cbn [rbind]; try reflexivity; exfalso; tauto.
Qed.
Print Assumptions C19_unsupported.

(** ---------------- C75 ---------------- *)
(** The extra arguments reach the distribution, except a lone 0. *)
Theorem C75_args_passed_partial : forall d grid v l,
  cdf_on_grid d grid NoArgs = rmap calculate_cdf (d grid []) /\
  cdf_on_grid d grid (Seq l) = rmap calculate_cdf (d grid l) /\
  (v <> 0 -> cdf_on_grid d grid (Scalar v) = rmap calculate_cdf (d grid [v])).
Proof.
  intros d grid v l. split; [reflexivity|]. split; [reflexivity|]. intros Hv. unfold cdf_on_grid, call_args.
  destruct (Req_EM_T v 0); [contradiction|]. reflexivity.
Qed.
Print Assumptions C75_args_passed_partial.

Theorem C75_zero_dropped_refuted : exists d grid,
  (exists c, rmap calculate_cdf (d grid [0]) = Ok c) /\ cdf_on_grid d grid (Scalar 0) = Err TypeError.
Proof.
  exists (fun grid l => match l with [v] => Ok (map (fun x => x + v) grid) | _ => Err TypeError end), [1; 2].
  split; [eexists; reflexivity|]. unfold cdf_on_grid, call_args. destruct (Req_EM_T 0 0) as [_|n]; [reflexivity|lra].
Qed.
Print Assumptions C75_zero_dropped_refuted.

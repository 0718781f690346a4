(** Numeric sampling draws quantiles (property C127). *)
From Coq Require Import List Reals Lra Lia Psatz Bool Arith String.
From Verif Require Import PyBase Stats_Spec Stats_Proofs Sample_Model Sample_Spec Sample_Proofs Sample_Props.
Import ListNotations.
Open Scope R_scope.

(** The numbers a method draws *)
Definition drawn (rand halton : nat -> list R) (method : string) (n : nat) : list R :=
  if String.eqb method "random" then rand n else halton n.
Definition known (method : string) : Prop := method = "random"%string \/ method = "halton"%string.
(** numbers as the generators make them, one per sample *)
Definition unit_numbers (n : nat) (y : list R) : Prop := List.length y = n /\ (forall u, In u y -> 0 <= u < 1).

(** share of the weights on the points before the i-th, and up to it *)
Definition below (w : list R) (i : nat) : R := partial_sum w i / total w.

Lemma total_pos : forall w, weights_ok w -> 0 < / total w.
Proof. intros w [_ H]. now apply Rinv_0_lt_compat. Qed.
Lemma below_mono : forall w i j, weights_ok w -> (i <= j)%nat -> (j <= List.length w)%nat -> below w i <= below w j.
Proof.
  intros w i j W H L. unfold below, Rdiv. apply Rmult_le_compat_r; [left; now apply total_pos|]. apply partial_mono; [apply W|exact H|exact L].
Qed.
Lemma first_interval : forall w u i, weights_ok w -> 0 <= u -> first_reaching w u i ->
  u <= below w (S i) /\ (i <> 0%nat -> below w i < u).
Proof. intros w u i W H (L & A & B). split; [exact A|]. intros I. destruct i; [contradiction|]. apply B. lia. Qed.
Lemma first_unique : forall w u i j, weights_ok w -> first_reaching w u i -> (j < List.length w)%nat -> u <= below w (S j) ->
  (j <> 0%nat -> below w j < u) -> i = j.
Proof.
  intros w u i j W (L & A & B) Lj Aj Bj. destruct (lt_eq_lt_dec i j) as [[H|H]|H]; [|exact H|].
  - exfalso. assert (below w j < u) by (apply Bj; lia). pose proof (below_mono w (S i) j W ltac:(lia) ltac:(lia)). unfold below in *. lra.
  - exfalso. specialize (B j H). unfold below in *. lra.
Qed.
Lemma first_mono : forall w u v i j, weights_ok w -> u <= v -> first_reaching w u i -> first_reaching w v j -> (i <= j)%nat.
Proof.
  intros w u v i j W H (L & A & B) (Lj & Aj & Bj). destruct (le_lt_dec i j) as [|G]; [assumption|]. specialize (B j G). lra.
Qed.
Lemma partial_scale : forall c w k, partial_sum (map (Rmult c) w) k = c * partial_sum w k.
Proof.
  intros c. induction w as [|x w IH]; intros [|k]; try (unfold partial_sum; cbn; ring).
  cbn [map]. rewrite !partial_S, IH. ring.
Qed.
Lemma total_scale : forall c w, total (map (Rmult c) w) = c * total w.
Proof. intros. rewrite <- !partial_all, map_length. apply partial_scale. Qed.
Lemma grid_mono : forall a b n i j, a <= b -> (i <= j)%nat -> (j < n)%nat -> grid_point a b n i <= grid_point a b n j.
Proof.
  intros a b n i j H L B. unfold grid_point. apply Rplus_le_compat_l. apply Rmult_le_compat_r; [|now apply le_INR].
  destruct n as [|[|n]]; [lia| |].
  - cbn. unfold Rdiv. rewrite Rinv_0. lra.
  - apply Rmult_le_pos; [lra|]. left. apply Rinv_0_lt_compat, lt_0_INR. lia.
Qed.

(** sampling with invert='numeric' *)
Definition draw (rand halton : nat -> list R) (interp : list fl -> list R -> res (R -> res R))
  (n : nat) (d : distribution) (a b : R) (ar : args) (wn : nat) (method : string) : res array :=
  sample rand halton interp true n d a b ar wn method "numeric".

(** The i-th point of the grid is drawn by exactly the numbers between the share of the density on
    the points before it and the share up to it: an interval as long as its own share. *)
Theorem C127_share : forall rand halton interp n d a b ar wn method w,
  d (linspace a b wn) (call_args ar) = Ok w -> List.length w = wn -> weights_ok w -> known method ->
  unit_numbers n (drawn rand halton method n) ->
  exists s index, draw rand halton interp n d a b ar wn method = Ok s /\ List.length (values s) = n /\
    (forall k, (k < n)%nat -> (index k < wn)%nat /\ nth k (values s) 0 = grid_point a b wn (index k)) /\
    (forall k i, (k < n)%nat -> (i < wn)%nat ->
       let u := nth k (drawn rand halton method n) 0 in
       (index k = i <-> (i = 0%nat \/ below w i < u) /\ u <= below w (S i))) /\
    (forall i, (i < wn)%nat -> below w (S i) - below w i = nth i w 0 / total w).
Proof.
  intros rand halton interp n d a b ar wn method w Ed Hl W K [Hn Hu].
  destruct (C19_numeric_partial rand halton interp n d a b ar wn method w Ed Hl W K Hn Hu) as (s & E & L & _ & H).
  assert (HS : forall k, (k < n)%nat -> first_reaching w (nth k (drawn rand halton method n) 0) (searchsorted (calculate_cdf w) (nth k (drawn rand halton method n) 0))).
  { intros k Hk. apply search_cdf; [exact W|]. left. apply Hu. apply nth_In. rewrite Hn. exact Hk. }
  exists s, (fun k => searchsorted (calculate_cdf w) (nth k (drawn rand halton method n) 0)). split; [exact E|]. split; [exact L|].
  assert (U : forall k, (k < n)%nat -> 0 <= nth k (drawn rand halton method n) 0).
  { intros k Hk. apply Hu, nth_In. rewrite Hn. exact Hk. }
  split; [|split].
  - intros k Hk. destruct (H k Hk) as (i & Fi & G & _). specialize (HS k Hk). split; [rewrite <- Hl; apply HS|].
    rewrite G. f_equal. eapply first_unique; [exact W|exact Fi|apply HS| |].
    + now apply (first_interval w _ _ W (U k Hk) HS).
    + now apply (first_interval w _ _ W (U k Hk) HS).
  - intros k i Hk Hi. cbn zeta. specialize (HS k Hk). split.
    + intros <-. destruct (first_interval w _ _ W (U k Hk) HS) as [A B]. split; [|exact A].
      match goal with |- ?x = 0%nat \/ _ => destruct (Nat.eq_dec x 0) as [Z|Z] end; [now left|right; now apply B].
    + intros [A B]. eapply first_unique; [exact W|exact HS|lia|exact B|]. intros Z. destruct A; [contradiction|assumption].
  - intros i Hi. unfold below. rewrite partial_step by lia. unfold Rdiv. ring.
Qed.
Print Assumptions C127_share.

(** A larger number draws a sample at least as large, and no number but 0 draws a point where the
    density is zero. *)
Theorem C127_order : forall rand halton interp n d a b ar wn method w s,
  d (linspace a b wn) (call_args ar) = Ok w -> List.length w = wn -> weights_ok w -> known method ->
  unit_numbers n (drawn rand halton method n) -> draw rand halton interp n d a b ar wn method = Ok s -> a <= b ->
  (forall j k, (j < n)%nat -> (k < n)%nat -> nth j (drawn rand halton method n) 0 <= nth k (drawn rand halton method n) 0 ->
     nth j (values s) 0 <= nth k (values s) 0) /\
  (forall k, (k < n)%nat -> 0 < nth k (drawn rand halton method n) 0 ->
     exists i, (i < wn)%nat /\ nth k (values s) 0 = grid_point a b wn i /\ 0 < nth i w 0).
Proof.
  intros rand halton interp n d a b ar wn method w s Ed Hl W K Hy E Hab.
  destruct (C127_share rand halton interp n d a b ar wn method w Ed Hl W K Hy) as (s' & index & E' & L & G & I & D).
  assert (s' = s) by congruence. subst s'. split.
  - intros j k Hj Hk H. destruct (G j Hj) as [Bj ->], (G k Hk) as [Bk ->]. apply grid_mono; [exact Hab| |exact Bk].
    pose proof (proj1 (I j (index j) Hj Bj) eq_refl) as [Aj _]. pose proof (proj1 (I k (index k) Hk Bk) eq_refl) as [_ Ck].
    destruct (le_lt_dec (index j) (index k)) as [|Q]; [assumption|]. exfalso. destruct Aj as [Z|Aj]; [lia|].
    pose proof (below_mono w (S (index k)) (index j) W ltac:(lia) ltac:(lia)). lra.
  - intros k Hk Hu. destruct (G k Hk) as [B Q]. exists (index k). split; [exact B|]. split; [exact Q|].
    pose proof (proj1 (I k (index k) Hk B) eq_refl) as [A C]. specialize (D (index k) B).
    assert (P : 0 < nth (index k) w 0 / total w).
    { rewrite <- D. destruct A as [Z|A]; [|lra]. rewrite Z in C |- *. unfold below at 2. unfold partial_sum. cbn. unfold Rdiv. lra. }
    destruct W as [_ T]. apply Rmult_lt_reg_r with (/ total w); [now apply Rinv_0_lt_compat|]. rewrite Rmult_0_l. exact P.
Qed.
Print Assumptions C127_order.

(** The density need not be normalised, and the axis may be moved and stretched: a density with
    the same shape on another interval gives the same positions in that interval. *)
Theorem C127_shape : forall rand halton interp n d d' a b a' b' ar ar' wn method w c s,
  d (linspace a b wn) (call_args ar) = Ok w -> d' (linspace a' b' wn) (call_args ar') = Ok (map (Rmult c) w) -> 0 < c ->
  List.length w = wn -> weights_ok w -> known method -> unit_numbers n (drawn rand halton method n) ->
  draw rand halton interp n d a b ar wn method = Ok s ->
  exists s', draw rand halton interp n d' a' b' ar' wn method = Ok s' /\ List.length (values s') = n /\
    forall k, (k < n)%nat -> exists t, 0 <= t <= 1 /\ nth k (values s) 0 = a + t * (b - a) /\ nth k (values s') 0 = a' + t * (b' - a').
Proof.
  intros rand halton interp n d d' a b a' b' ar ar' wn method w c s Ed Ed' Hc Hl W K Hy E.
  assert (W' : weights_ok (map (Rmult c) w)).
  { destruct W as [P T]. split; [|rewrite total_scale; now apply Rmult_lt_0_compat].
    intros x Hx. apply in_map_iff in Hx. destruct Hx as (y & <- & Hy'). apply Rmult_le_pos; [lra|now apply P]. }
  destruct (C127_share rand halton interp n d a b ar wn method w Ed Hl W K Hy) as (s0 & index & E0 & L & G & I & D).
  assert (s0 = s) by congruence. subst s0.
  destruct (C127_share rand halton interp n d' a' b' ar' wn method _ Ed' ltac:(now rewrite map_length) W' K Hy) as (s' & index' & E' & L' & G' & I' & D').
  exists s'. split; [exact E'|]. split; [exact L'|]. intros k Hk. destruct (G k Hk) as [B ->], (G' k Hk) as [B' ->].
  assert (Bs : forall i, below (map (Rmult c) w) i = below w i).
  { intros i. unfold below. rewrite partial_scale, total_scale. destruct W as [_ T]. field. lra. }
  assert (Q : index' k = index k).
  { apply (I' k (index k) Hk B). rewrite !Bs. apply (I k (index k) Hk B). reflexivity. }
  rewrite Q. unfold grid_point.
  destruct (Nat.eq_dec wn 1) as [One|One].
  - exists 0. subst wn. assert (index k = 0%nat) by lia. rewrite H. cbn [INR]. split; [lra|]. split; lra.
  - exists (INR (index k) / INR (wn - 1)).
    assert (P : 0 < INR (wn - 1)) by (apply lt_0_INR; lia).
    assert (R1 : INR (index k) <= INR (wn - 1)) by (apply le_INR; lia). pose proof (pos_INR (index k)).
    split; [split|split].
    + apply Rmult_le_pos; [assumption|left; now apply Rinv_0_lt_compat].
    + apply Rmult_le_reg_r with (INR (wn - 1)); [exact P|]. unfold Rdiv. rewrite Rmult_assoc, Rinv_l by lra. lra.
    + field. lra.
    + field. lra.
Qed.
Print Assumptions C127_shape.

(** The number 0, which the generator can return, draws the lower bound whatever the density is
    there. *)
Theorem C127_zero_refuted : forall halton interp d a b ar wn w,
  d (linspace a b wn) (call_args ar) = Ok w -> List.length w = wn -> weights_ok w ->
  draw (fun _ => [0]) halton interp 1 d a b ar wn "random" = Ok (Flat [a]).
Proof.
  intros halton interp d a b ar wn w Ed Hl W.
  assert (Y : unit_numbers 1 (drawn (fun _ => [0]) halton "random" 1)).
  { split; [reflexivity|]. intros u [<-|[]]. lra. }
  destruct (C127_share (fun _ => [0]) halton interp 1 d a b ar wn "random" w Ed Hl W (or_introl eq_refl) Y) as (s & index & E & L & G & I & _).
  rewrite E. assert (exists l, s = Flat l) as (l & ->).
  { destruct (C19_numeric_partial (fun _ => [0]) halton interp 1 d a b ar wn "random" w Ed Hl W (or_introl eq_refl) (proj1 Y) (proj2 Y)) as (s' & E' & _ & Fl & _).
    unfold draw in E. rewrite E in E'. injection E' as ->. now apply Fl. }
  cbn in L. destruct l as [|x [|]]; try discriminate. destruct (G 0%nat ltac:(lia)) as [B Q]. cbn in Q. rewrite Q. do 3 f_equal.
  assert (index 0%nat = 0%nat).
  { apply (I 0%nat 0%nat); [lia| |]. - lia. - split; [now left|]. cbn. unfold below. apply Rmult_le_pos; [apply partial_nonneg, W|left; now apply total_pos]. }
  rewrite H. unfold grid_point. cbn [INR]. ring.
Qed.
Print Assumptions C127_zero_refuted.

(** A density that is zero at all points of the grid is not refused: every sample is the lower
    bound. *)
Lemma cdf_of_zeros : forall n, calculate_cdf (repeat 0 n) = repeat None n.
Proof.
  intros n. unfold calculate_cdf. rewrite np_sum_total. assert (T : total (repeat 0 n) = 0).
  { induction n; [reflexivity|]. cbn [repeat]. rewrite total_cons, IHn. ring. }
  rewrite T. generalize 0 at 2. induction n as [|n IH]; intros c; [reflexivity|]. cbn [repeat cdf_loop]. rewrite IH.
  - unfold ndiv. destruct (Req_EM_T 0 0); [reflexivity|contradiction].
  - cbn [repeat] in T. rewrite total_cons in T. lra.
Qed.
Lemma bisect_none : forall fuel n key max, bisect fuel (repeat None n) key 0 max = 0%nat.
Proof.
  induction fuel as [|fuel IH]; intros n key max; [reflexivity|]. cbn [bisect].
  assert (N : forall m, np_lt (nth m (repeat None n) None) key = false).
  { intros m. assert (nth m (repeat (@None R) n) None = None) as ->.
    { destruct (le_lt_dec n m); [apply nth_overflow; rewrite repeat_length; assumption|]. apply nth_repeat. }
    reflexivity. }
  unfold fl in *. destruct (0 <? max)%nat; [|reflexivity]. rewrite N. apply IH.
Qed.
Theorem C127_nothing_refuted : forall rand halton interp n d a b ar wn, (0 < wn)%nat ->
  d (linspace a b wn) (call_args ar) = Ok (repeat 0 wn) -> List.length (rand n) = n ->
  draw rand halton interp n d a b ar wn "random" = Ok (Flat (repeat a n)).
Proof.
  intros rand halton interp n d a b ar wn P Ed Hn. unfold draw, sample, cdf_on_grid. cbn [negb]. rewrite Ed. cbn [rbind String.eqb Ascii.eqb Bool.eqb].
  rewrite cdf_of_zeros. assert (M : map (searchsorted (repeat None wn)) (rand n) = repeat 0%nat n).
  { assert (A : forall l, map (searchsorted (repeat None wn)) l = repeat 0%nat (List.length l)).
    { induction l as [|u l IH]; [reflexivity|]. cbn [map List.length repeat]. rewrite IH. f_equal. apply bisect_none. }
    rewrite A, Hn. reflexivity. }
  unfold fl in *. rewrite M. assert (F : forall m, fancy (linspace a b wn) (repeat 0%nat m) = Ok (repeat a m)).
  { induction m as [|m IH]; [reflexivity|]. cbn [repeat fancy]. rewrite linspace_nth by exact P. rewrite IH. cbn [rbind]. do 2 f_equal.
    unfold grid_point. cbn [INR]. ring. }
  rewrite F. reflexivity.
Qed.
Print Assumptions C127_nothing_refuted.

(** The hypotheses are met: a ramp on [0, 3] sampled with two numbers, and the same ramp, not
    normalised, on [10, 16]. *)
Definition ramp : distribution := fun grid _ => Ok (map (fun x => x) grid).
Definition stretched : distribution := fun grid _ => Ok (map (fun x => 7 * ((x - 10) / 2)) grid).
Example C127_applies : exists s s',
  draw (fun _ => [1/10; 9/10]) (fun _ => []) (fun _ _ => Err ValueError) 2 ramp 0 3 NoArgs 4 "random" = Ok s /\
  draw (fun _ => [1/10; 9/10]) (fun _ => []) (fun _ _ => Err ValueError) 2 stretched 10 16 NoArgs 4 "random" = Ok s' /\
  nth 0 (values s) 0 = 1 /\ nth 1 (values s) 0 = 3 /\ nth 0 (values s) 0 <= nth 1 (values s) 0 /\
  exists t, nth 0 (values s) 0 = 0 + t * (3 - 0) /\ nth 0 (values s') 0 = 10 + t * (16 - 10).
Proof.
  assert (E1 : ramp (linspace 0 3 4) (call_args NoArgs) = Ok [0; 1; 2; 3]) by (unfold ramp; f_equal; cbn; repeat f_equal; lra).
  assert (E2 : stretched (linspace 10 16 4) (call_args NoArgs) = Ok (map (Rmult 7) [0; 1; 2; 3])) by (unfold stretched; f_equal; cbn; repeat f_equal; lra).
  assert (W : weights_ok [0; 1; 2; 3]) by (split; [intros x Hx; cbn in Hx; lra|unfold total; cbn; lra]).
  assert (Y : unit_numbers 2 (drawn (fun _ => [1/10; 9/10]) (fun _ => []) "random" 2)).
  { split; [reflexivity|]. intros u [<-|[<-|[]]]; lra. }
  destruct (C127_share (fun _ => [1/10; 9/10]) (fun _ => []) (fun _ _ => Err ValueError) 2 ramp 0 3 NoArgs 4 "random" _ E1 eq_refl W (or_introl eq_refl) Y)
    as (s & index & E & L & G & I & _).
  destruct (C127_shape _ _ _ _ _ stretched 0 3 10 16 _ NoArgs _ _ _ 7 _ E1 E2 ltac:(lra) eq_refl W (or_introl eq_refl) Y E) as (s' & E' & _ & S2).
  exists s, s'. split; [exact E|]. split; [exact E'|].
  assert (I0 : index 0%nat = 1%nat).
  { apply (I 0%nat 1%nat); [lia|lia|]. cbn. unfold below, partial_sum, total. cbn. split; [right|]; lra. }
  assert (I1 : index 1%nat = 3%nat).
  { apply (I 1%nat 3%nat); [lia|lia|]. cbn. unfold below, partial_sum, total. cbn. split; [right|]; lra. }
  split; [rewrite (proj2 (G 0%nat ltac:(lia))), I0; unfold grid_point; cbn; lra|].
  split; [rewrite (proj2 (G 1%nat ltac:(lia))), I1; unfold grid_point; cbn; lra|].
  split.
  - apply (C127_order _ _ _ _ _ _ _ _ _ _ _ _ E1 eq_refl W (or_introl eq_refl) Y E); [lra|lia|lia|]. cbn. lra.
  - destruct (S2 0%nat ltac:(lia)) as (t & _ & A & B). exists t. split; assumption.
Qed.

(** Theorems about matching a beam to Twiss parameters in place (property C112). *)
From Coq Require Import List Reals Lra Lia Psatz Bool Arith ZArith String.
From Verif Require Import PyBase Stats_Model Stats_Spec Stats_Proofs Jacobi_Proofs Decor_Proofs
  Twiss_Model Twiss_Spec Twiss_Proofs Twiss_Props Match_Model Match_Spec.
Import ListNotations.
Open Scope R_scope.

Lemma msqrt_neg : forall x, x < 0 -> msqrt x = Err ValueError.
Proof. intros x H. unfold msqrt. destruct (Rlt_dec x 0); [reflexivity|contradiction]. Qed.

(** Exactly the parameters of a real ellipse are accepted. *)
Lemma plane_coeffs_cases : forall t,
  (0 < tw_beta t /\ 0 <= tw_emit t /\ exists k, plane_coeffs t = Ok k) \/
  (exists e, plane_coeffs t = Err e /\ refused (Some t) e).
Proof.
  intros t. destruct (Rtotal_order (tw_beta t) 0) as [Hn|[Hz|Hp]].
  - right. exists ValueError. split; [|right; left; auto].
    unfold plane_coeffs. rewrite pdiv_ok by lra. cbn [rbind].
    set (al := tw_alpha t). set (be := tw_beta t) in *. set (ga := (1 + al ^ 2) / be).
    assert (Hbg : be * ga = 1 + al ^ 2) by (unfold ga; field; lra).
    pose proof (pow2_ge_0 al) as Ha.
    assert (Hga : ga < 0) by nra.
    assert (Hd : 0 <= (ga - be) ^ 2 + 4 * al ^ 2) by (pose proof (pow2_ge_0 (ga - be)); lra).
    rewrite (msqrt_ok _ Hd). cbn [rbind].
    set (rt := sqrt ((ga - be) ^ 2 + 4 * al ^ 2)).
    assert (Hrt : 0 <= rt) by apply sqrt_pos.
    assert (Hrt2 : rt ^ 2 = (ga - be) ^ 2 + 4 * al ^ 2) by (apply pow2_sqrt; exact Hd).
    assert (Hs : ga + be + rt < 0) by nra.
    destruct (Rle_dec 0 (ga - be)); rewrite msqrt_neg by lra; reflexivity.
  - right. exists ZeroDivisionError. split; [|left; auto].
    unfold plane_coeffs, pdiv. rewrite Hz. destruct (Req_EM_T 0 0); [reflexivity|lra].
  - destruct (Rlt_dec (tw_emit t) 0) as [He|He].
    + right. exists ValueError. split; [|right; right; auto].
      set (t' := {| tw_emit := 0; tw_beta := tw_beta t; tw_alpha := tw_alpha t; tw_gamma := tw_gamma t |}).
      destruct (plane_coeffs_spec t') as (fac & fi & s & c & E & _); [exact Hp|cbn; lra|].
      unfold plane_coeffs in E |- *. cbn [t' tw_alpha tw_beta tw_emit] in E.
      destruct (pdiv (1 + tw_alpha t ^ 2) (tw_beta t)) as [g| |]; cbn [rbind] in *; try discriminate.
      destruct (msqrt ((g - tw_beta t) ^ 2 + 4 * tw_alpha t ^ 2)) as [rt| |]; cbn [rbind] in *; try discriminate.
      match type of E with context [rbind (if Rle_dec 0 ?x then ?A else ?B)] =>
        destruct (if Rle_dec 0 x then A else B) as [ff| |]; cbn [rbind] in *; try discriminate end.
      match type of E with context [rbind (if Req_EM_T ?x 0 then ?A else ?B)] =>
        destruct (if Req_EM_T x 0 then A else B) as [sc| |]; cbn [rbind] in *; try discriminate end.
      rewrite (msqrt_neg _ He). reflexivity.
    + left. split; [exact Hp|]. split; [lra|].
      destruct (plane_coeffs_spec t Hp ltac:(lra)) as (fac & fi & s & c & E & _). eexists. exact E.
Qed.

Lemma refused_not_usable : forall o e, refused o e -> ~ usable o.
Proof.
  intros [t|] e H (t' & E & H1 & H2); [|discriminate]. injection E as <-. cbn in H.
  destruct H as [[? _]|[[? _]|[_ [? _]]]]; lra.
Qed.

Lemma make_plane_cases : forall o u v, List.length u = List.length v ->
  (exists t u' v', o = Some t /\ usable o /\
     (do t <- look_plane o; make_plane t u v) = Ok (u', v') /\ make_plane t u v = Ok (u', v') /\
     List.length u' = List.length u /\ List.length v' = List.length u) \/
  (exists e, (do t <- look_plane o; make_plane t u v) = Err e /\ refused o e).
Proof.
  intros [t|] u v HL; [|right; exists KeyError; split; reflexivity].
  cbn [look_plane rbind]. unfold make_plane.
  destruct (plane_coeffs_cases t) as [(Hb & He & k & E)|(e & E & Hr)].
  - left. destruct k as [[[[fac fi] s] c] rt]. rewrite E. cbn [rbind].
    eexists t, _, _. split; [reflexivity|]. split; [exists t; auto|].
    split; [reflexivity|]. split; [rewrite E; reflexivity|].
    rewrite !map_length, combine_length, HL. lia.
  - right. exists e. rewrite E. split; [reflexivity|exact Hr].
Qed.

Lemma set_row_length : forall b i r, List.length (set_row b i r) = List.length b.
Proof. induction b as [|x b IH]; intros [|i] r; cbn; auto. Qed.

Lemma row_set_row : forall b i k r, (i < List.length b)%nat ->
  row (set_row b i r) k = if Nat.eqb k i then r else row b k.
Proof.
  unfold row. induction b as [|x b IH]; intros i k r H; cbn in H; [lia|].
  destruct i as [|i], k as [|k]; cbn; try reflexivity. apply IH. lia.
Qed.

Lemma set_row_beam : forall N b i r, is_beam N b -> List.length r = N -> is_beam N (set_row b i r).
Proof.
  intros N b i r [HL HF] Hr. split; [rewrite set_row_length; exact HL|].
  clear HL. revert i. induction HF as [|x b Hx HF IH]; intros [|i]; cbn; constructor; auto.
Qed.

(** One plane: written, or refused with the array as it was. *)
Lemma match_plane_step : forall N temp arr i o rest, is_beam N temp -> is_beam N arr -> (i + 1 < 6)%nat ->
  (exists t u v, o = Some t /\ usable o /\ make_plane t (row temp i) (row temp (i + 1)) = Ok (u, v) /\
     is_beam N (set_row (set_row arr i u) (i + 1) v) /\
     match_planes temp arr ((i, o) :: rest) = match_planes temp (set_row (set_row arr i u) (i + 1) v) rest) \/
  (exists e, refused o e /\ match_planes temp arr ((i, o) :: rest) = (arr, Err e)).
Proof.
  intros N temp arr i o rest Ht Ha Hi.
  assert (L : forall k, (k < 6)%nat -> List.length (row temp k) = N) by (intros k Hk; apply is_beam_row_len; assumption).
  destruct (make_plane_cases o (row temp i) (row temp (i + 1))) as [(t & u & v & E & U & M & M' & L1 & L2)|(e & M & Hr)].
  - rewrite !L by lia. reflexivity.
  - left. exists t, u, v. split; [exact E|]. split; [exact U|]. split; [exact M'|].
    rewrite L in L1, L2 by lia.
    split; [apply set_row_beam; [apply set_row_beam; assumption|assumption]|].
    cbn [match_planes]. fold (row temp i) (row temp (i + 1)). rewrite M. reflexivity.
  - right. exists e. split; [exact Hr|]. cbn [match_planes]. fold (row temp i) (row temp (i + 1)).
    rewrite M. reflexivity.
Qed.

Lemma rows_after : forall N arr i u v k, is_beam N arr -> (i + 1 < 6)%nat ->
  row (set_row (set_row arr i u) (i + 1) v) k =
    if Nat.eqb k (i + 1) then v else if Nat.eqb k i then u else row arr k.
Proof.
  intros N arr i u v k [HL _] Hi. rewrite row_set_row by (rewrite set_row_length; lia).
  rewrite row_set_row by lia. reflexivity.
Qed.

(** What happens to a beam, whatever is asked for. *)
Lemma in_place_cases : forall N b ox oy oz, is_beam N b ->
  (exists tx ty tz b', ox = Some tx /\ oy = Some ty /\ oz = Some tz /\
     usable ox /\ usable oy /\ usable oz /\
     make_twiss_dist_in_place b ox oy oz = (b', Ok tt) /\ make_twiss_dist_6d b tx ty tz = Ok b' /\ is_beam N b') \/
  (exists e, refused ox e /\ make_twiss_dist_in_place b ox oy oz = (b, Err e)) \/
  (exists e tx b' u v, refused oy e /\ ox = Some tx /\ usable ox /\
     make_twiss_dist_in_place b ox oy oz = (b', Err e) /\ is_beam N b' /\
     make_plane tx (row b 0) (row b 1) = Ok (u, v) /\ row b' 0 = u /\ row b' 1 = v /\ same_from 2 b b') \/
  (exists e tx ty b' u v u' v', refused oz e /\ ox = Some tx /\ usable ox /\ oy = Some ty /\ usable oy /\
     make_twiss_dist_in_place b ox oy oz = (b', Err e) /\ is_beam N b' /\
     make_plane tx (row b 0) (row b 1) = Ok (u, v) /\ row b' 0 = u /\ row b' 1 = v /\
     make_plane ty (row b 2) (row b 3) = Ok (u', v') /\ row b' 2 = u' /\ row b' 3 = v' /\ same_from 4 b b').
Proof.
  intros N b ox oy oz Hb. unfold make_twiss_dist_in_place.
  destruct (match_plane_step N b b 0 ox [(2%nat, oy); (4%nat, oz)] Hb Hb ltac:(lia))
    as [(tx & u & v & -> & Ux & Mx & B1 & ->)|(e & Hr & ->)].
  2:{ right. left. exists e. split; [exact Hr|reflexivity]. }
  cbn [Nat.add] in *. pose proof (rows_after N b 0 u v) as R1. cbn [Nat.add] in R1.
  set (b1 := set_row (set_row b 0 u) 1 v) in *.
  destruct (match_plane_step N b b1 2 oy [(4%nat, oz)] Hb B1 ltac:(lia))
    as [(ty & u' & v' & -> & Uy & My & B2 & ->)|(e & Hr & ->)].
  2:{ right. right. left. exists e, tx, b1, u, v. split; [exact Hr|]. split; [reflexivity|]. split; [exact Ux|].
      split; [reflexivity|]. split; [exact B1|]. split; [exact Mx|].
      split; [apply R1; [exact Hb|lia]|]. split; [apply R1; [exact Hb|lia]|].
      intros k Hk. rewrite R1 by (auto; lia).
      destruct k as [|[|k]]; try lia. reflexivity. }
  cbn [Nat.add] in *. pose proof (rows_after N b1 2 u' v') as R2. cbn [Nat.add] in R2.
  set (b2 := set_row (set_row b1 2 u') 3 v') in *.
  destruct (match_plane_step N b b2 4 oz [] Hb B2 ltac:(lia))
    as [(tz & u2 & v2 & -> & Uz & Mz & B3 & ->)|(e & Hr & ->)].
  2:{ right. right. right. exists e, tx, ty, b2, u, v, u', v'. split; [exact Hr|]. split; [reflexivity|].
      split; [exact Ux|]. split; [reflexivity|]. split; [exact Uy|]. split; [reflexivity|]. split; [exact B2|].
      split; [exact Mx|].
      split; [rewrite R2 by (auto; lia); apply R1; [exact Hb|lia]|].
      split; [rewrite R2 by (auto; lia); apply R1; [exact Hb|lia]|].
      split; [exact My|]. split; [apply R2; [exact B1|lia]|]. split; [apply R2; [exact B1|lia]|].
      intros k Hk. rewrite R2 by (auto; lia). do 4 (destruct k as [|k]; [lia|]). cbn [Nat.eqb].
      rewrite R1 by (auto; lia). reflexivity. }
  left. cbn [Nat.add match_planes] in *.
  exists tx, ty, tz, (set_row (set_row b2 4 u2) 5 v2). repeat (split; [reflexivity||assumption|]).
  split; [|exact B3].
  unfold make_twiss_dist_6d. fold (row b 0) (row b 1) (row b 2) (row b 3) (row b 4) (row b 5).
  rewrite Mx, My, Mz. cbn [rbind fst snd]. f_equal.
  unfold b2, b1. destruct Hb as [HL _].
  do 6 (destruct b as [|? b]; [discriminate|]). destruct b; [|discriminate]. reflexivity.
Qed.

(** ---------------- C112 ---------------- *)
(** A matching succeeds exactly when the three planes ask for real ellipses; it then is the
    matching of C16. *)
Theorem C112_accepted : forall N b ox oy oz, is_beam N b ->
  (snd (make_twiss_dist_in_place b ox oy oz) = Ok tt <-> usable ox /\ usable oy /\ usable oz) /\
  (forall tx ty tz, ox = Some tx -> oy = Some ty -> oz = Some tz -> usable ox -> usable oy -> usable oz ->
     make_twiss_dist_6d b tx ty tz = Ok (fst (make_twiss_dist_in_place b ox oy oz))).
Proof.
  intros N b ox oy oz Hb.
  destruct (in_place_cases N b ox oy oz Hb)
    as [(tx & ty & tz & b' & -> & -> & -> & U1 & U2 & U3 & -> & E & _)
       |[(e & Hr & ->)|[(e & tx & b' & u & v & Hr & -> & U1 & -> & _)
       |(e & tx & ty & b' & u & v & u' & v' & Hr & -> & U1 & -> & U2 & -> & _)]]]; cbn [fst snd];
  try pose proof (refused_not_usable _ _ Hr) as NU.
  - split; [tauto|]. intros tx' ty' tz' E1 E2 E3 _ _ _. congruence.
  - split; [split; [discriminate|tauto]|tauto].
  - split; [split; [discriminate|tauto]|tauto].
  - split; [split; [discriminate|tauto]|tauto].
Qed.
Print Assumptions C112_accepted.

(** The exception tells what is wrong with the first plane that is not accepted. *)
Theorem C112_which_error : forall N b ox oy oz e, is_beam N b ->
  snd (make_twiss_dist_in_place b ox oy oz) = Err e ->
  refused ox e \/ (usable ox /\ refused oy e) \/ (usable ox /\ usable oy /\ refused oz e).
Proof.
  intros N b ox oy oz e Hb.
  destruct (in_place_cases N b ox oy oz Hb)
    as [(tx & ty & tz & b' & -> & -> & -> & U1 & U2 & U3 & -> & E & _)
       |[(e' & Hr & ->)|[(e' & tx & b' & u & v & Hr & -> & U1 & -> & _)
       |(e' & tx & ty & b' & u & v & u' & v' & Hr & -> & U1 & -> & U2 & -> & _)]]]; cbn [fst snd];
  intros H; try discriminate; injection H as <-; auto.
Qed.
Print Assumptions C112_which_error.

(** When the first plane is refused the beam is as it was.  When a later one is, the planes
    before it are already matched to what was asked for and the others are as they were. *)
Theorem C112_after_failure_partial : forall N b ox oy oz e b', is_beam N b -> (0 < N)%nat ->
  make_twiss_dist_in_place b ox oy oz = (b', Err e) ->
  is_beam N b' /\ same_from 4 b b' /\
  (~ usable ox -> b' = b) /\
  (~ usable oy -> same_from 2 b b') /\
  (forall tx, ox = Some tx -> usable ox -> unit_plane (row b 0) (row b 1) ->
     ~ round_tilted (tw_alpha tx) (tw_beta tx) ->
     matched (tw_alpha tx) (tw_beta tx) (tw_emit tx) (row b' 0) (row b' 1)) /\
  (forall ty, usable ox -> oy = Some ty -> usable oy -> unit_plane (row b 2) (row b 3) ->
     ~ round_tilted (tw_alpha ty) (tw_beta ty) ->
     matched (tw_alpha ty) (tw_beta ty) (tw_emit ty) (row b' 2) (row b' 3)).
Proof.
  intros N b ox oy oz e b' Hb HN H.
  assert (L : forall i j, (i < 6)%nat -> (j < 6)%nat -> List.length (row b i) = List.length (row b j)).
  { intros i j Hi Hj. rewrite !(is_beam_row_len N b) by assumption. reflexivity. }
  assert (M : forall t i u v, usable (Some t) -> (i + 1 < 6)%nat -> unit_plane (row b i) (row b (i + 1)) ->
     ~ round_tilted (tw_alpha t) (tw_beta t) -> make_plane t (row b i) (row b (i + 1)) = Ok (u, v) ->
     matched (tw_alpha t) (tw_beta t) (tw_emit t) u v).
  { intros t i u v (t' & Et & Hbt & He) Hi Hu Hn E. injection Et as <-.
    destruct (plane_matched t (row b i) (row b (i + 1))) as (u' & v' & E' & _ & _ & _ & _ & K & _).
    - split; [exact Hbt|]. split; [exact He|exact Hu].
    - apply L; lia.
    - rewrite E in E'. injection E' as <- <-. apply K, Hn. }
  destruct (in_place_cases N b ox oy oz Hb)
    as [(tx & ty & tz & b1 & -> & -> & -> & U1 & U2 & U3 & R & E & _)
       |[(e1 & Hr & R)|[(e1 & tx & b1 & u & v & Hr & -> & U1 & R & B & E1 & R0 & R1 & S)
       |(e1 & tx & ty & b1 & u & v & u' & v' & Hr & -> & U1 & -> & U2 & R & B & E1 & R0 & R1 & E2 & R2 & R3 & S)]]];
  rewrite R in H; try discriminate H; injection H as <- <-; try pose proof (refused_not_usable _ _ Hr) as NU.
  - split; [exact Hb|]. split; [intros k _; reflexivity|]. split; [reflexivity|].
    split; [intros _ k _; reflexivity|]. split; intros; contradiction.
  - split; [exact B|]. split; [intros k Hk; apply S; lia|]. split; [intros; contradiction|].
    split; [intros _; exact S|]. split; [|intros; contradiction].
    intros t Et _ Hu Hn. injection Et as <-. rewrite R0, R1. exact (M tx 0%nat u v U1 ltac:(lia) Hu Hn E1).
  - split; [exact B|]. split; [exact S|]. split; [intros; contradiction|].
    split; [intros; contradiction|]. split.
    + intros t Et _ Hu Hn. injection Et as <-. rewrite R0, R1. exact (M tx 0%nat u v U1 ltac:(lia) Hu Hn E1).
    + intros t _ Et _ Hu Hn. injection Et as <-. rewrite R2, R3. exact (M ty 2%nat u' v' U2 ltac:(lia) Hu Hn E2).
Qed.
Print Assumptions C112_after_failure_partial.

(** The two component edits change nothing when they are refused, in any history. *)
Theorem C112_component_edits : forall b x i,
  (~ (0 <= i <= 5)%Z -> do_edit b (Offset x i) = (b, Err GenericException) /\
                        do_edit b (Multiply x i) = (b, Err GenericException)) /\
  ((0 <= i <= 5)%Z ->
     (exists b', do_edit b (Offset x i) = (b', Ok tt) /\ List.length b' = List.length b /\
        forall j, row b' j = if Z.eqb (Z.of_nat j) i then map (fun v => v + x) (row b j) else row b j) /\
     (exists b', do_edit b (Multiply x i) = (b', Ok tt) /\ List.length b' = List.length b /\
        forall j, row b' j = if Z.eqb (Z.of_nat j) i then map (fun v => v * x) (row b j) else row b j)).
Proof.
  intros b x i. cbn [do_edit]. unfold offset_in_place, multiply_in_place.
  destruct (C74_component_edits b x i) as [H1 H2]. split; intros Hi.
  - destruct (H2 Hi) as [-> ->]. split; reflexivity.
  - destruct (H1 Hi) as [(b1 & -> & L1 & R1) (b2 & -> & L2 & R2)].
    split; [exists b1|exists b2]; (split; [reflexivity|]); split; assumption.
Qed.
Print Assumptions C112_component_edits.

(** A history without failures other than refused component edits and a matching refused in
    its first plane is the history without those calls. *)
Definition harmless (b : beam) (e : edit) : Prop :=
  match e with
  | Match ox _ _ => ~ usable ox
  | Offset _ i => ~ (0 <= i <= 5)%Z
  | Multiply _ i => ~ (0 <= i <= 5)%Z
  end.

Theorem C112_harmless_partial : forall N es b, is_beam N b -> Forall (harmless b) es ->
  fst (do_edits b es) = b /\ Forall (fun r => exists e, r = Err e) (snd (do_edits b es)).
Proof.
  intros N es b Hb H. induction H as [|e es He H IH]; [split; [reflexivity|constructor]|].
  assert (S : exists x, do_edit b e = (b, Err x)).
  { destruct e as [ox oy oz|x i|x i]; cbn [harmless] in He.
    - cbn [do_edit].
      destruct (in_place_cases N b ox oy oz Hb)
        as [(tx & ty & tz & b1 & -> & -> & -> & U1 & U2 & U3 & R & E & _)
           |[(e1 & Hr & R)|[(e1 & tx & b1 & u & v & Hr & -> & U1 & R & _)
           |(e1 & tx & ty & b1 & u & v & u' & v' & Hr & -> & U1 & -> & U2 & R & _)]]]; try contradiction.
      rewrite R. exists e1. reflexivity.
    - exists GenericException. apply (C112_component_edits b x i), He.
    - exists GenericException. apply (C112_component_edits b x i), He. }
  destruct S as [x Ex]. cbn [do_edits]. rewrite Ex.
  destruct (do_edits b es) as [b2 l]. cbn [fst snd] in *. destruct IH as [-> F].
  split; [reflexivity|]. constructor; [exists x; reflexivity|exact F].
Qed.
Print Assumptions C112_harmless_partial.

(** A matching refused in its second plane, asked for again with that plane corrected: the
    first plane is matched twice over. *)
Theorem C112_failure_changes_beam_refuted : exists b' b'' t bad,
  is_beam 5 unit_beam /\ t = tw 0 4 1 /\ bad = tw 0 1 (-1) /\
  do_edits unit_beam [Match (Some t) (Some bad) (Some t); Match (Some t) (Some t) (Some t)] =
    (b'', [Err ValueError; Ok tt]) /\
  do_edits unit_beam [Match (Some t) (Some bad) (Some t)] = (b', [Err ValueError]) /\
  covariance (row unit_beam 0) (row unit_beam 0) = 1 /\
  covariance (row b' 0) (row b' 0) = 4 /\ covariance (row b'' 0) (row b'' 0) = 16 /\
  covariance (row b'' 2) (row b'' 2) = 4.
Proof.
  set (t := tw 0 4 1). set (bad := tw 0 1 (-1)).
  assert (Ut : usable (Some t)) by (exists t; split; [reflexivity|cbn; lra]).
  assert (Nb : ~ usable (Some bad)) by (intros (t' & E & H1 & H2); injection E as <-; cbn in H2; lra).
  assert (Nr : ~ round_tilted (tw_alpha t) (tw_beta t)) by (intros [H _]; cbn in H; lra).
  assert (Hu : forall i, (i = 0 \/ i = 2 \/ i = 4)%nat -> unit_plane (row unit_beam i) (row unit_beam (i + 1))).
  { intros i [->|[->| ->]]; exact unit_pq. }
  destruct (make_twiss_dist_in_place unit_beam (Some t) (Some bad) (Some t)) as [b' r] eqn:E1.
  assert (Er : r = Err ValueError).
  { destruct (C112_accepted 5 unit_beam (Some t) (Some bad) (Some t) unit_beam_ok) as [A _]. rewrite E1 in A. cbn [snd] in A.
    destruct r as [[]|e|].
    - exfalso. apply Nb. apply A. reflexivity.
    - f_equal. destruct (C112_which_error 5 unit_beam (Some t) (Some bad) (Some t) e unit_beam_ok) as [H|[[_ H]|[_ [H _]]]].
      + rewrite E1. reflexivity.
      + destruct (refused_not_usable _ _ H Ut).
      + cbn in H. destruct H as [[H _]|[[H _]|[_ [_ H]]]]; try lra. exact H.
      + destruct (Nb H).
    - exfalso. destruct (in_place_cases 5 unit_beam (Some t) (Some bad) (Some t) unit_beam_ok)
        as [(tx & ty & tz & b1 & _ & _ & _ & _ & _ & _ & R & _)
           |[(e1 & Hr & R)|[(e1 & tx & b1 & u & v & Hr & _ & U1 & R & _)
           |(e1 & tx & ty & b1 & u & v & u' & v' & Hr & _ & U1 & _ & U2 & R & _)]]]; rewrite R in E1; discriminate. }
  subst r.
  destruct (C112_after_failure_partial 5 unit_beam (Some t) (Some bad) (Some t) ValueError b' unit_beam_ok ltac:(lia) E1)
    as (B' & _ & _ & S2 & Mx & _).
  specialize (S2 Nb). specialize (Mx t eq_refl Ut (Hu 0%nat ltac:(auto)) Nr).
  destruct (in_place_cases 5 b' (Some t) (Some t) (Some t) B')
    as [(tx & ty & tz & b1 & X1 & X2 & X3 & _ & _ & _ & R & E & B1)
       |[(e1 & Hr & R)|[(e1 & tx & b1 & u & v & Hr & _ & U1 & R & _)
       |(e1 & tx & ty & b1 & u & v & u' & v' & Hr & _ & U1 & _ & U2 & R & _)]]];
  try (destruct (refused_not_usable _ _ Hr Ut)).
  injection X1 as <-. injection X2 as <-. injection X3 as <-.
  exists b', b1, t, bad. split; [exact unit_beam_ok|]. split; [reflexivity|]. split; [reflexivity|].
  split; [cbn [do_edits do_edit]; rewrite E1, R; reflexivity|].
  split; [cbn [do_edits do_edit]; rewrite E1; reflexivity|].
  split; [apply unit_pq|]. destruct Mx as (M1 & M2 & M3).
  split; [rewrite M1; cbn; lra|].
  unfold make_twiss_dist_6d in E. fold (row b' 0) (row b' 1) (row b' 2) (row b' 3) (row b' 4) (row b' 5) in E.
  assert (L : forall i, (i < 6)%nat -> List.length (row b' i) = 5%nat) by (intros i Hi; apply is_beam_row_len; assumption).
  assert (K : forall u v u' v', List.length u = List.length v -> make_plane t u v = Ok (u', v') ->
     covariance u' u' = 4 * covariance u u).
  { intros u v u' v' HL Ep. unfold make_plane in Ep.
    destruct (plane_coeffs_spec t) as (fac & fi & s & c & Ec & C1 & C2 & C3); [cbn; lra|cbn; lra|].
    cbn [t tw tw_alpha tw_beta tw_emit] in C1, C2, C3.
    assert (G : fi * s = 0).
    { unfold plane_coeffs in Ec. cbn [t tw tw_alpha tw_beta tw_emit] in Ec.
      destruct (pdiv (1 + 0 ^ 2) 4) as [g| |]; cbn [rbind] in Ec; try discriminate.
      destruct (msqrt ((g - 4) ^ 2 + 4 * 0 ^ 2)) as [rt| |]; cbn [rbind] in Ec; try discriminate.
      match type of Ec with context [rbind (if Rle_dec 0 ?x then ?A else ?B)] =>
        destruct (if Rle_dec 0 x then A else B) as [ff| |]; cbn [rbind] in Ec; try discriminate end.
      destruct (Req_EM_T 0 0) as [_|]; [|lra]. cbn [rbind fst snd] in Ec.
      destruct (msqrt 1) as [q| |]; cbn [rbind] in Ec; try discriminate.
      injection Ec as _ _ <- _ _. destruct (Rlt_dec _ _); ring. }
    rewrite Ec in Ep. cbn [rbind] in Ep. injection Ep as <- <-.
    cbn [t tw tw_emit]. rewrite sqrt_1.
    rewrite (map_ext _ (fun p => fac * c * fst p + 0 * snd p)).
    2:{ intros p. replace (fi * s) with 0 by (symmetry; exact G). ring. }
    change (map (fun p => fac * c * fst p + 0 * snd p) (combine u v)) with (lin2 (fac * c) 0 u v).
    rewrite lin2_cov by exact HL.
    replace (fac * c * (fac * c)) with (4 - (fi * s) * (fi * s)).
    - rewrite G. ring.
    - rewrite <- C1. ring. }
  destruct (make_plane t (row b' 0) (row b' 1)) as [[u v]| |] eqn:P0; cbn [rbind fst snd] in E; try discriminate.
  destruct (make_plane t (row b' 2) (row b' 3)) as [[u1 v1]| |] eqn:P1; cbn [rbind fst snd] in E; try discriminate.
  destruct (make_plane t (row b' 4) (row b' 5)) as [[u2 v2]| |] eqn:P2; cbn [rbind fst snd] in E; try discriminate.
  injection E as <-. change (covariance u u = 16 /\ covariance u1 u1 = 4).
  split.
  - rewrite (K (row b' 0) (row b' 1) u v) by (assumption || (rewrite !L by lia; reflexivity)). rewrite M1. cbn. lra.
  - rewrite (K (row b' 2) (row b' 3) u1 v1) by (assumption || (rewrite !L by lia; reflexivity)). rewrite S2 by lia.
    change (row unit_beam 2) with pu1.
    destruct unit_pq as [-> _]. lra.
Qed.
Print Assumptions C112_failure_changes_beam_refuted.

Example C112_applies :
  usable (Some (tw 0 4 1)) /\ ~ usable (Some (tw 0 1 (-1))) /\ ~ usable None /\
  do_edits unit_beam [Match None (Some (tw 0 4 1)) None; Offset 1 6; Multiply 2 (-1)] =
    (unit_beam, [Err KeyError; Err GenericException; Err GenericException]).
Proof.
  split; [exists (tw 0 4 1); split; [reflexivity|cbn; lra]|].
  split; [intros (t' & E & H1 & H2); injection E as <-; cbn in H2; lra|].
  split; [intros (t' & E & _); discriminate|]. reflexivity.
Qed.

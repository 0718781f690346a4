From Coq Require Import List Reals Lra Bool Lia Psatz.
From Verif Require Import PyBase Kin_Model Kin_Spec.
Import ListNotations.
Open Scope R_scope.

Definition of_beta (c m b : R) : particle :=
  let g := / sqrt (1 - b ^ 2) in
  {| q_beta := b; q_gamma := g; q_momentum := b * g * m; q_energy := g * m;
     q_kenergy := m * (g - 1); q_betagamma := b * g; q_velocity := b * c;
     q_brho := b * g * m / c |}.

Lemma sqrt_pos_lt : forall x, 0 < x -> 0 < sqrt x.
Proof. apply sqrt_lt_R0. Qed.

Lemma gamma_facts : forall b, -1 < b < 1 ->
  let g := / sqrt (1 - b ^ 2) in
  0 < 1 - b ^ 2 /\ 0 < g /\ g ^ 2 * (1 - b ^ 2) = 1 /\ 1 <= g.
Proof.
  intros b Hb g.
  assert (H : 0 < 1 - b ^ 2) by nra.
  assert (Hs : 0 < sqrt (1 - b ^ 2)) by (apply sqrt_lt_R0; exact H).
  assert (Hg : 0 < g) by (apply Rinv_0_lt_compat; exact Hs).
  assert (Hq : g ^ 2 * (1 - b ^ 2) = 1).
  { unfold g. rewrite <- (sqrt_sqrt (1 - b ^ 2)) at 2 by lra. field. lra. }
  repeat split; auto. nra.
Qed.

Lemma of_beta_relativistic : forall c m b,
  0 < c -> 0 < m -> -1 < b < 1 -> relativistic c m (of_beta c m b).
Proof.
  intros c m b Hc Hm Hb.
  destruct (gamma_facts b Hb) as (H1 & H2 & H3 & H4).
  unfold relativistic, of_beta;
  cbn [q_beta q_gamma q_momentum q_energy q_kenergy q_betagamma q_velocity q_brho].
  set (g := / sqrt (1 - b ^ 2)) in *.
  split; [exact Hb|].
  split; [exact H4|].
  split; [exact H3|].
  split; [reflexivity|].
  split; [reflexivity|].
  split. { replace ((g*m)^2) with (m^2 * (g^2)) by ring.
           replace ((b*g*m)^2) with (m^2 * (b^2*g^2)) by ring.
           assert (Hx : g^2 = 1 + b^2*g^2) by lra. rewrite Hx at 1. ring. }
  split; [nra|].
  split; [ring|].
  split; [reflexivity|].
  field. lra.
Qed.

Lemma relativistic_energy : forall c m q,
  0 < m -> relativistic c m q -> q_energy q = q_gamma q * m.
Proof.
  intros c m q Hm (Hb & Hg & H3 & H4 & H5 & H6 & H7 & _).
  assert (Hsq : q_energy q ^ 2 = (q_gamma q * m) ^ 2).
  { rewrite H6, H5, H4. replace ((q_gamma q * m)^2) with (m^2 * q_gamma q ^2) by ring.
    assert (q_gamma q ^ 2 = 1 + q_beta q ^2 * q_gamma q ^2) by nra. nra. }
  assert (0 < q_gamma q * m) by nra. nra.
Qed.

Lemma relativistic_of_beta : forall c m q,
  0 < c -> 0 < m -> relativistic c m q -> q = of_beta c m (q_beta q).
Proof.
  intros c m q Hc Hm Hr.
  pose proof (relativistic_energy c m q Hm Hr) as HE.
  destruct Hr as (Hb & Hg & H3 & H4 & H5 & H6 & H7 & H8 & H9 & H10).
  destruct (gamma_facts _ Hb) as (F1 & F2 & F3 & F4).
  assert (Hgam : q_gamma q = / sqrt (1 - q_beta q ^ 2)).
  { set (g := / sqrt (1 - q_beta q ^ 2)) in *.
    assert (q_gamma q ^ 2 = g ^ 2) by nra. nra. }
  assert (Hbr : q_brho q = q_momentum q / c) by (rewrite <- H10; field; lra).
  destruct q; unfold of_beta; simpl in *. subst.
  f_equal; try reflexivity; ring.
Qed.

(** A relativistic particle is determined by any signed quantity. *)
Lemma relativistic_unique : forall c m k q1 q2,
  0 < c -> 0 < m -> relativistic c m q1 -> relativistic c m q2 ->
  quantity q1 k = quantity q2 k ->
  (signed_kind k = true \/ (0 <= q_beta q1 /\ 0 <= q_beta q2)) ->
  q1 = q2.
Proof.
  intros c m k q1 q2 Hc Hm R1 R2 Hq Hs.
  rewrite (relativistic_of_beta c m q1), (relativistic_of_beta c m q2) by assumption.
  f_equal.
  pose proof (relativistic_energy _ _ _ Hm R1) as E1.
  pose proof (relativistic_energy _ _ _ Hm R2) as E2.
  destruct R1 as (B1 & G1 & A1 & A2 & A3 & A4 & A5 & A6 & A7 & A8).
  destruct R2 as (B2 & G2 & D1 & D2 & D3 & D4 & D5 & D6 & D7 & D8).
  assert (Hgam : q_gamma q1 = q_gamma q2 -> q_beta q1 ^ 2 = q_beta q2 ^ 2).
  { intros Hg. rewrite Hg in A1.
    assert (0 < q_gamma q2 ^ 2) by nra. nra. }
  assert (Hbg : q_betagamma q1 = q_betagamma q2 -> q_beta q1 = q_beta q2).
  { intros HB. rewrite A2, D2 in HB.
    assert (X1 : q_gamma q1 ^ 2 = 1 + (q_beta q1 * q_gamma q1) ^ 2) by nra.
    assert (X2 : q_gamma q2 ^ 2 = 1 + (q_beta q2 * q_gamma q2) ^ 2) by nra.
    rewrite HB, <- X2 in X1.
    assert (q_gamma q1 = q_gamma q2) by nra. nra. }
  assert (Hmom : q_momentum q1 = q_momentum q2 -> q_beta q1 = q_beta q2).
  { intros HM. apply Hbg. rewrite A3, D3 in HM. nra. }
  destruct k; simpl in Hq.
  - auto.
  - rewrite A7, D7 in Hq. nra.
  - destruct Hs as [Hs|[P1 P2]]; [discriminate|].
    assert (q_gamma q1 = q_gamma q2) by nra. specialize (Hgam H). nra.
  - destruct Hs as [Hs|[P1 P2]]; [discriminate|].
    assert (q_gamma q1 = q_gamma q2) by nra. specialize (Hgam H). nra.
  - auto.
  - apply Hmom. rewrite <- A8, <- D8, Hq. reflexivity.
  - exact Hq.
  - destruct Hs as [Hs|[P1 P2]]; [discriminate|].
    specialize (Hgam Hq). nra.
Qed.

Lemma nsqrt_pos : forall x, 0 <= x -> nsqrt x = Some (sqrt x).
Proof. intros x H. unfold nsqrt. destruct (Rlt_dec x 0); [lra|reflexivity]. Qed.

Lemma ndiv_some : forall x y, y <> 0 -> ndiv (Some x) (Some y) = Some (x / y).
Proof. intros x y H. simpl. destruct (Req_EM_T y 0); [contradiction|reflexivity]. Qed.

Lemma pdiv_ok : forall x y, y <> 0 -> pdiv x y = Ok (x / y).
Proof. intros x y H. unfold pdiv. destruct (Req_EM_T y 0); [contradiction|reflexivity]. Qed.

Lemma beta_of_bg : forall x,
  let b := x / sqrt (1 + x ^ 2) in
  -1 < b < 1 /\ b * / sqrt (1 - b ^ 2) = x.
Proof.
  intros x b.
  assert (H0 : 0 <= x ^ 2) by nra.
  assert (Hs : 0 < sqrt (1 + x ^ 2)) by (apply sqrt_lt_R0; lra).
  assert (Hsq : sqrt (1 + x ^ 2) ^ 2 = 1 + x ^ 2).
  { apply pow2_sqrt. lra. }
  assert (Hb : b * sqrt (1 + x ^ 2) = x) by (unfold b; field; lra).
  assert (Hb2 : b ^ 2 * (1 + x ^ 2) = x ^ 2).
  { rewrite <- Hsq. replace (b ^ 2 * sqrt (1 + x ^ 2) ^ 2) with ((b * sqrt (1 + x ^ 2)) ^ 2) by ring.
    rewrite Hb. reflexivity. }
  assert (Hlt : b ^ 2 < 1) by nra.
  assert (Hbb : -1 < b < 1) by (split; nra).
  split; [exact Hbb|].
  assert (Heq : 1 - b ^ 2 = (/ sqrt (1 + x ^ 2)) ^ 2).
  { replace ((/ sqrt (1 + x ^ 2)) ^ 2) with (/ (sqrt (1 + x ^ 2) ^ 2)) by (field; lra).
    rewrite Hsq.
    assert (1 + x ^ 2 <> 0) by nra.
    apply Rmult_eq_reg_r with (1 + x ^ 2); [|assumption].
    rewrite Rinv_l by assumption. nra. }
  rewrite Heq, sqrt_pow2 by (left; apply Rinv_0_lt_compat; exact Hs).
  rewrite Rinv_inv. exact Hb.
Qed.

Lemma start_gamma_of : forall g, 1 <= g ->
  let b := sqrt (1 - 1 / g ^ 2) in
  0 <= b < 1 /\ / sqrt (1 - b ^ 2) = g.
Proof.
  intros g Hg b.
  assert (Hg2 : 1 <= g ^ 2) by nra.
  assert (Hi : 0 < 1 / g ^ 2 <= 1).
  { split. apply Rdiv_lt_0_compat; lra.
    apply Rmult_le_reg_r with (g ^ 2); [lra|]. unfold Rdiv. rewrite Rmult_assoc, Rinv_l by lra. lra. }
  assert (Hb2 : b ^ 2 = 1 - 1 / g ^ 2).
  { unfold b. rewrite pow2_sqrt by lra. reflexivity. }
  assert (Hb0 : 0 <= b) by apply sqrt_pos.
  split. { split; [assumption|]. nra. }
  rewrite Hb2. replace (1 - (1 - 1 / g ^ 2)) with ((/ g) ^ 2) by (field; lra).
  rewrite sqrt_pow2 by (left; apply Rinv_0_lt_compat; lra). apply Rinv_inv.
Qed.

Lemma gamma_pair_tail : forall b, -1 < b < 1 ->
  ndiv (Some 1) (nsqrt (1 - b ^ 2)) = Some (/ sqrt (1 - b ^ 2)).
Proof.
  intros b Hb.
  assert (0 < 1 - b ^ 2) by nra.
  rewrite nsqrt_pos by lra. rewrite ndiv_some.
  - unfold Rdiv. rewrite Rmult_1_l. reflexivity.
  - apply Rgt_not_eq, sqrt_lt_R0. assumption.
Qed.

Lemma startup_of_beta : forall K m k v,
  0 < c_light K -> 0 < m -> physical (c_light K) m k v ->
  exists b, -1 < b < 1 /\
    (signed_kind k = false -> 0 <= b) /\
    quantity (of_beta (c_light K) m b) k = v /\
    startup K m k v = Ok (Some b, Some (/ sqrt (1 - b ^ 2))).
Proof.
  intros K m k v Hc Hm Hp.
  set (c := c_light K) in *.
  assert (Hmom : forall p, exists b, -1 < b < 1 /\ b * / sqrt (1 - b ^ 2) * m = p /\
            start_momentum m p = Ok (Some b, Some (/ sqrt (1 - b ^ 2)))).
  { intros p. destruct (beta_of_bg (p / m)) as [B1 B2].
    exists (p / m / sqrt (1 + (p / m) ^ 2)). split; [exact B1|]. split.
    - rewrite B2. field. lra.
    - unfold start_momentum. rewrite pdiv_ok by lra. unfold rbind.
      rewrite nsqrt_pos by nra. rewrite ndiv_some.
      + rewrite gamma_pair_tail by exact B1. reflexivity.
      + apply Rgt_not_eq, sqrt_lt_R0. nra. }
  destruct k; simpl in Hp; simpl signed_kind.
  - destruct (Hmom v) as (b & B1 & B2 & B3). exists b. simpl.
    split; [exact B1|]. split; [discriminate|]. split; [exact B2|]. exact B3.
  - exists (v / c).
    assert (HB : -1 < v / c < 1).
    { split.
      - apply Rmult_lt_reg_r with c; [assumption|]. unfold Rdiv. rewrite Rmult_assoc, Rinv_l by lra. lra.
      - apply Rmult_lt_reg_r with c; [assumption|]. unfold Rdiv. rewrite Rmult_assoc, Rinv_l by lra. lra. }
    split; [exact HB|]. split; [discriminate|]. split. { simpl. field. lra. }
    unfold startup, start_velocity. fold c. rewrite pdiv_ok by lra. unfold rbind.
    rewrite gamma_pair_tail by exact HB. reflexivity.
  - destruct (start_gamma_of (v / m)) as [G1 G2].
    { apply Rmult_le_reg_r with m; [assumption|]. unfold Rdiv. rewrite Rmult_assoc, Rinv_l by lra. lra. }
    assert (Hge : 1 <= v / m).
    { apply Rmult_le_reg_r with m; [assumption|]. unfold Rdiv. rewrite Rmult_assoc, Rinv_l by lra. lra. }
    exists (sqrt (1 - 1 / (v / m) ^ 2)).
    split; [lra|]. split; [intros _; lra|]. split. { simpl. simpl in G2. rewrite G2. field. lra. }
    unfold startup, start_energy. rewrite pdiv_ok by lra. unfold rbind at 1.
    rewrite pdiv_ok by nra. unfold rbind. rewrite nsqrt_pos. 2:{
      assert (1 <= (v/m)^2) by nra.
      assert (1 / (v/m)^2 <= 1). { apply Rmult_le_reg_r with ((v/m)^2); [lra|]. unfold Rdiv at 1. rewrite Rmult_assoc, Rinv_l by lra. lra. }
      lra. }
    rewrite G2. reflexivity.
  - assert (Hge0 : 0 <= v / m).
    { apply Rmult_le_reg_r with m; [assumption|]. unfold Rdiv. rewrite Rmult_assoc, Rinv_l by lra. lra. }
    destruct (start_gamma_of (v / m + 1)) as [G1 G2]; [lra|].
    exists (sqrt (1 - 1 / (v / m + 1) ^ 2)).
    split; [lra|]. split; [intros _; lra|]. split. { simpl. simpl in G2. rewrite G2. field. lra. }
    unfold startup, start_kenergy. rewrite pdiv_ok by lra. unfold rbind at 1.
    rewrite pdiv_ok by nra. unfold rbind. rewrite nsqrt_pos. 2:{
      assert (1 <= (v/m+1)^2) by nra.
      assert (1 / (v/m+1)^2 <= 1). { apply Rmult_le_reg_r with ((v/m+1)^2); [lra|]. unfold Rdiv at 1. rewrite Rmult_assoc, Rinv_l by lra. lra. }
      lra. }
    rewrite G2. reflexivity.
  - destruct (beta_of_bg v) as [B1 B2].
    exists (v / sqrt (1 + v ^ 2)).
    split; [exact B1|]. split; [discriminate|]. split; [exact B2|].
    unfold startup, start_betagamma.
    rewrite nsqrt_pos by nra. rewrite ndiv_some by (apply Rgt_not_eq, sqrt_lt_R0; nra).
    rewrite gamma_pair_tail by exact B1. reflexivity.
  - destruct (Hmom (v * c)) as (b & B1 & B2 & B3). exists b.
    split; [exact B1|]. split; [discriminate|]. split.
    { simpl. simpl in B2. rewrite B2. field. lra. }
    unfold startup, start_brho. fold c. exact B3.
  - exists v. split; [exact Hp|]. split; [discriminate|]. split; [reflexivity|].
    unfold startup, start_beta. rewrite gamma_pair_tail by exact Hp. reflexivity.
  - destruct (start_gamma_of v) as [G1 G2]; [assumption|].
    exists (sqrt (1 - 1 / v ^ 2)).
    split; [lra|]. split; [intros _; lra|]. split; [exact G2|].
    unfold startup, start_gamma. rewrite pdiv_ok by nra. unfold rbind. rewrite nsqrt_pos. 2:{
      assert (1 <= v^2) by nra.
      assert (1 / v^2 <= 1). { apply Rmult_le_reg_r with (v^2); [lra|]. unfold Rdiv. rewrite Rmult_assoc, Rinv_l by lra. lra. }
      lra. }
    rewrite G2. reflexivity.
Qed.

(* ---------- the constructor ---------- *)

Definition has (a : kargs) (k : kind) : bool :=
  match a_val a k with Some _ => true | None => false end.

Lemma all_kinds_complete : forall k, In k all_kinds.
Proof. destruct k; simpl; tauto. Qed.

Lemma all_kinds_nodup : NoDup all_kinds.
Proof. repeat constructor; simpl; intuition discriminate. Qed.

Lemma filter_none {A} : forall (f : A -> bool) l,
  (forall x, In x l -> f x = false) -> filter f l = [].
Proof.
  induction l as [|x l IH]; intros H; [reflexivity|]. simpl.
  rewrite H by (left; reflexivity). apply IH. intros y Hy. apply H. right. exact Hy.
Qed.

Lemma filter_single {A} : forall (f : A -> bool) l k,
  NoDup l -> In k l -> f k = true -> (forall x, In x l -> x <> k -> f x = false) ->
  filter f l = [k].
Proof.
  induction l as [|x l IH]; intros k Hn Hin Hf Ho; [destruct Hin|].
  inversion Hn as [|? ? Hx Hl]; subst. simpl. destruct Hin as [->|Hin].
  - rewrite Hf. f_equal. apply filter_none. intros y Hy. apply Ho; [right; exact Hy|].
    intros ->. contradiction.
  - assert (x <> k) by (intros ->; contradiction).
    rewrite (Ho x); [|left; reflexivity|assumption].
    apply IH; auto. intros y Hy Hne. apply Ho; [right|]; assumption.
Qed.

Lemma declaration_given : forall a k v, given a k v -> declaration a = 1%nat.
Proof.
  intros a k v [H1 H2]. unfold declaration.
  rewrite (filter_single _ _ k); [reflexivity|apply all_kinds_nodup|apply all_kinds_complete| |].
  - rewrite H1. reflexivity.
  - intros x _ Hne. rewrite (H2 x Hne). reflexivity.
Qed.

Lemma declaration_inv : forall a, declaration a = 1%nat -> exists k v, given a k v.
Proof.
  intros a H. unfold declaration in H.
  remember (filter (fun k => match a_val a k with Some _ => true | None => false end) all_kinds) as l eqn:El.
  destruct l as [|k [|k2 l]]; simpl in H; try discriminate.
  assert (Hk : In k (filter (fun k => match a_val a k with Some _ => true | None => false end) all_kinds)).
  { rewrite <- El. left. reflexivity. }
  apply filter_In in Hk. destruct Hk as [_ Hk].
  destruct (a_val a k) as [v|] eqn:Ev; [|discriminate].
  exists k, v. split; [exact Ev|]. intros k' Hne.
  destruct (a_val a k') as [v'|] eqn:Ev'; [|reflexivity].
  exfalso. assert (Hk' : In k' [k]).
  { rewrite El. apply filter_In. split; [apply all_kinds_complete|]. rewrite Ev'. reflexivity. }
  simpl in Hk'. destruct Hk' as [->|[]]. apply Hne. reflexivity.
Qed.

Lemma unit_ok_iff : forall u, unit_ok u = true <-> proper_unit u.
Proof. destruct u; unfold unit_ok, proper_unit; simpl; intuition discriminate. Qed.

Definition eff_args (K : consts) (a : kargs) : kargs :=
  if unit_eqb (a_input_unit a) USI then convert_args K true a else a.

Lemma construct_ok : forall K a k v, proper_units a -> given a k v ->
  exists cv, construct K a = Ok cv /\ cv_args cv = eff_args K a /\
    cv_mass cv = fst (choose_mass K (eff_args K a)) /\
    cv_out cv = {| o_derived := fun _ => Method; o_beta := None; o_gamma := None;
                   o_mass := snd (choose_mass K (eff_args K a));
                   o_mass_label := a_mass_unit a;
                   o_input := None; o_input_type := None |}.
Proof.
  intros K a k v (U1 & U2 & U3) Hg. unfold construct.
  apply unit_ok_iff in U1, U2, U3. rewrite U1, U2, U3. simpl negb. cbv iota.
  rewrite (declaration_given a k v Hg). simpl Nat.eqb. cbv iota. simpl negb. cbv iota.
  fold (eff_args K a). destruct (choose_mass K (eff_args K a)) as [m rep] eqn:E.
  eexists. split; [reflexivity|]. simpl. repeat split; try reflexivity.
  unfold eff_args. destruct (unit_eqb (a_input_unit a) USI); reflexivity.
Qed.

Lemma construct_total : forall K a,
  (exists cv, construct K a = Ok cv) \/ construct K a = Err AssertionError.
Proof.
  intros K a. unfold construct.
  destruct (negb _); [right; reflexivity|].
  destruct (negb _); [right; reflexivity|].
  destruct (choose_mass _ _). left. eexists. reflexivity.
Qed.

Lemma construct_inv : forall K a cv, construct K a = Ok cv ->
  proper_units a /\ exists k v, given a k v.
Proof.
  intros K a cv H. unfold construct in H.
  destruct (unit_ok (a_mass_unit a)) eqn:U1; [|discriminate].
  destruct (unit_ok (a_input_unit a)) eqn:U2; [|discriminate].
  destruct (unit_ok (a_output_unit a)) eqn:U3; [|discriminate].
  simpl in H. destruct (Nat.eqb (declaration a) 1) eqn:D; [|discriminate].
  apply unit_ok_iff in U1, U2, U3. apply PeanoNat.Nat.eqb_eq in D.
  split; [repeat split; assumption|]. apply declaration_inv. exact D.
Qed.

Definition eff_val (K : consts) (a : kargs) (k : kind) (v : R) : R :=
  if unit_eqb (a_input_unit a) USI then
    match conversion_factor K k with Some f => v * f | None => v end
  else v.

Lemma eff_given : forall K a k v, given a k v -> given (eff_args K a) k (eff_val K a k v).
Proof.
  intros K a k v [H1 H2]. unfold eff_args, eff_val.
  destruct (unit_eqb (a_input_unit a) USI).
  - split.
    + simpl. rewrite H1. destruct (conversion_factor K k); reflexivity.
    + intros k' Hne. simpl. rewrite (H2 k' Hne). reflexivity.
  - split; assumption.
Qed.

Lemma eff_val_unit : forall K a k x, wf_consts K -> proper_unit (a_input_unit a) ->
  eff_val K a k (in_unit K (a_input_unit a) k x) = x.
Proof.
  intros K a k x (Hc & He & _ & _) [U|U]; unfold eff_val, in_unit; rewrite U; simpl unit_eqb; cbv iota.
  - reflexivity.
  - destruct k; simpl; try field; lra.
Qed.

Lemma eff_unit : forall K a, a_output_unit (eff_args K a) = a_output_unit a /\
  a_input_unit (eff_args K a) = a_input_unit a /\ a_mass_unit (eff_args K a) = a_mass_unit a.
Proof. intros. unfold eff_args. destruct (unit_eqb _ _); repeat split. Qed.

(** internal mass *)
Lemma internal_mass_wf : forall K a, wf_consts K -> proper_units a ->
  (forall m, a_mass a = Some m -> 0 < m) ->
  fst (choose_mass K (eff_args K a)) =
    match a_mass a, a_mass_unit a, a_input_unit a with
    | Some m, UeV, USI => m * (/ kg_per_ev K / ev_per_kg K)
    | Some m, USI, UeV => m * ev_per_kg K
    | _, _, _ => meant_mass K a
    end.
Proof.
  intros K a (Hc & He & Hm & Hk) (U1 & U2 & U3) Hp.
  assert (Hf : mass_factor K = / kg_per_ev K).
  { unfold mass_factor, kg_per_ev. field. lra. }
  assert (Hfp : 0 < mass_factor K).
  { unfold mass_factor. apply Rmult_lt_0_compat; [apply Rdiv_lt_0_compat; lra|]. apply pow_lt. exact Hc. }
  assert (Hev : 0 < ev_per_kg K) by (apply Rdiv_lt_0_compat; assumption).
  unfold eff_args, choose_mass, meant_mass.
  destruct U1 as [U1|U1], U2 as [U2|U2]; rewrite U2; simpl unit_eqb; cbv iota; simpl a_mass_unit; simpl a_mass; simpl a_input_unit; rewrite U1; try rewrite U2;
  destruct (a_mass a) as [m|] eqn:Em; try reflexivity.
  - specialize (Hp m eq_refl). destruct (Req_EM_T m 0); [lra|]. simpl. ring.
  - specialize (Hp m eq_refl).
    destruct (Req_EM_T (m * mass_factor K) 0); [nra|]. simpl. rewrite Hf. field.
    split; [|apply Rgt_not_eq; exact Hev].
    apply Rgt_not_eq. unfold kg_per_ev. apply Rdiv_lt_0_compat; [assumption|apply pow_lt; assumption].
  - simpl. ring.
  - simpl. rewrite Hf. field. apply Rgt_not_eq. unfold kg_per_ev. apply Rdiv_lt_0_compat; [assumption|apply pow_lt; assumption].
Qed.

Lemma internal_mass_exact : forall K a, exact_consts K -> proper_units a ->
  (forall m, a_mass a = Some m -> 0 < m) ->
  fst (choose_mass K (eff_args K a)) = meant_mass K a.
Proof.
  intros K a [Hw Hx] HU Hp. rewrite internal_mass_wf by assumption.
  destruct Hw as (Hc & He & Hm & Hk).
  assert (Hkg : 0 < kg_per_ev K).
  { unfold kg_per_ev. apply Rdiv_lt_0_compat; [assumption|apply pow_lt; assumption]. }
  assert (Hev : ev_per_kg K = / kg_per_ev K).
  { unfold ev_per_kg. rewrite Hx. field. lra. }
  unfold meant_mass.
  destruct (a_mass a) as [m|]; [|reflexivity].
  destruct (a_mass_unit a), (a_input_unit a); try reflexivity; rewrite ?Hev; field; lra.
Qed.

Lemma meant_mass_pos : forall K a, wf_consts K ->
  (forall m, a_mass a = Some m -> 0 < m) -> 0 < meant_mass K a.
Proof.
  intros K a (Hc & He & Hm & Hk) Hp. unfold meant_mass.
  destruct (a_mass a) as [m|] eqn:E; [|assumption]. specialize (Hp m eq_refl).
  destruct (a_mass_unit a); try assumption.
  apply Rdiv_lt_0_compat; [assumption|]. unfold kg_per_ev.
  apply Rdiv_lt_0_compat; [assumption|apply pow_lt; assumption].
Qed.

(* ---------- the call ---------- *)

Lemma set_beta_gamma_given : forall K cv k v o, given (cv_args cv) k v ->
  set_beta_gamma K cv all_kinds o =
    (do bg <- startup K (cv_mass cv) k v;
     Ok {| o_derived := o_derived o; o_beta := Some (fst bg); o_gamma := Some (snd bg);
           o_mass := o_mass o; o_mass_label := o_mass_label o;
           o_input := Some v; o_input_type := Some k |}).
Proof.
  intros K cv k v o [H1 H2].
  assert (Hgen : forall l o, NoDup l ->
     (In k l -> set_beta_gamma K cv l o =
       (do bg <- startup K (cv_mass cv) k v;
        Ok {| o_derived := o_derived o; o_beta := Some (fst bg); o_gamma := Some (snd bg);
           o_mass := o_mass o; o_mass_label := o_mass_label o;
           o_input := Some v; o_input_type := Some k |})) /\
     (~ In k l -> set_beta_gamma K cv l o = Ok o)).
  { induction l as [|x l IH]; intros o0 Hn.
    - split; [intros []|reflexivity].
    - inversion Hn as [|? ? Hx Hl]; subst. split.
      + intros [->|Hin].
        * simpl. rewrite H1. destruct (startup K (cv_mass cv) k v) as [bg|e|]; simpl; try reflexivity.
          destruct (IH {| o_derived := o_derived o0; o_beta := Some (fst bg); o_gamma := Some (snd bg);
             o_mass := o_mass o0; o_mass_label := o_mass_label o0;
             o_input := Some v; o_input_type := Some k |} Hl) as [_ IH2].
          apply IH2. exact Hx.
        * assert (x <> k) by (intros ->; contradiction). simpl. rewrite (H2 x H).
          apply IH; assumption.
      + intros Hnin. simpl in Hnin. simpl. rewrite (H2 x) by tauto. apply IH; tauto. }
  apply Hgen; [apply all_kinds_nodup|apply all_kinds_complete].
Qed.

(** scale of an output after j conversions *)
Definition scaled (K : consts) (u : unit_name) (j : nat) (k : kind) (x : R) : R :=
  match u with USI => x * si_per_ev K k ^ j | _ => x end.

Definition shows (K : consts) (u : unit_name) (j : nat) (o : outputs) (q : particle) : Prop :=
  forall k, reported o k = Some (Some (scaled K u j k (quantity q k))).

Lemma calculate_of_beta : forall K m b d, 0 < c_light K ->
  calculate K m (Some b) (Some (/ sqrt (1 - b ^ 2))) d =
  Some (quantity (of_beta (c_light K) m b)
    (match d with Dmomentum => Kmomentum | Dvelocity => Kvelocity | Denergy => Kenergy
     | Dkenergy => Kkenergy | Dbetagamma => Kbetagamma | Dbrho => Kbrho end)).
Proof.
  intros K m b d Hc. destruct d; simpl; try reflexivity.
  destruct (Req_EM_T (c_light K) 0); [lra|reflexivity].
Qed.

Lemma pow_sign_factor : forall K k f, wf_consts K -> conversion_factor K k = Some f ->
  pow_sign false f = si_per_ev K k.
Proof.
  intros K k f (Hc & He & _ & _) H. unfold pow_sign.
  destruct k; simpl in H; inversion H; subst; simpl; field; lra.
Qed.

Lemma no_factor : forall K k, conversion_factor K k = None -> si_per_ev K k = 1.
Proof. intros K k H. destruct k; simpl in H; try discriminate; reflexivity. Qed.

Lemma si_factor_beta : forall K j x u, scaled K u j Kbeta x = x /\ scaled K u j Kgamma x = x.
Proof. intros. unfold scaled. simpl. rewrite pow1, Rmult_1_r. destruct u; auto. Qed.

Lemma call_first : forall K cv k v b, wf_consts K ->
  proper_unit (a_output_unit (cv_args cv)) ->
  given (cv_args cv) k v ->
  (forall d, o_derived (cv_out cv) d = Method) ->
  startup K (cv_mass cv) k v = Ok (Some b, Some (/ sqrt (1 - b ^ 2))) ->
  exists cv', call K cv = Ok cv' /\ cv_args cv' = cv_args cv /\ cv_mass cv' = cv_mass cv /\
    shows K (a_output_unit (cv_args cv)) 1 (cv_out cv') (of_beta (c_light K) (cv_mass cv) b) /\
    o_mass (cv_out cv') = (if unit_eqb (a_output_unit (cv_args cv)) USI
                           then o_mass (cv_out cv) * kg_per_ev K else o_mass (cv_out cv)) /\
    o_mass_label (cv_out cv') = o_mass_label (cv_out cv).
Proof.
  intros K cv k v b Hw HU Hg Hm Hs.
  pose proof Hw as (Hc & He & _ & _).
  unfold call. rewrite (set_beta_gamma_given K cv k v _ Hg), Hs. cbn [rbind fst snd].
  eexists. split; [reflexivity|]. split; [reflexivity|]. split; [reflexivity|].
  assert (Hmf : pow_sign false (mass_factor K) = kg_per_ev K).
  { unfold pow_sign, mass_factor, kg_per_ev. field. lra. }
  destruct HU as [HU|HU]; rewrite HU; cbn [unit_eqb cv_out o_mass].
  - split; [|split; reflexivity].
    intros k'. unfold scaled.
    destruct k'; cbn -[calculate]; rewrite ?Hm; cbn -[calculate]; rewrite ?calculate_of_beta by assumption; try reflexivity.
  - split; [|split; [cbn [convert_outputs o_mass set_derived]; rewrite Hmf; reflexivity|reflexivity]].
    intros k'. unfold scaled.
    destruct k'; cbn -[calculate pow quantity of_beta]; rewrite ?Hm; cbn -[calculate pow quantity of_beta]; rewrite ?calculate_of_beta by assumption;
      cbn -[calculate pow quantity of_beta]; rewrite ?pow_1, ?Rmult_1_r; try reflexivity; do 2 f_equal;
      match goal with |- context[quantity ?q ?kk] => generalize (quantity q kk); intros z end;
      field; repeat split; lra.
Qed.

Lemma call_again : forall K cv k v b j q, wf_consts K ->
  proper_unit (a_output_unit (cv_args cv)) ->
  given (cv_args cv) k v ->
  startup K (cv_mass cv) k v = Ok (Some b, Some (/ sqrt (1 - b ^ 2))) ->
  q = of_beta (c_light K) (cv_mass cv) b ->
  shows K (a_output_unit (cv_args cv)) j (cv_out cv) q ->
  exists cv', call K cv = Ok cv' /\ cv_args cv' = cv_args cv /\ cv_mass cv' = cv_mass cv /\
    shows K (a_output_unit (cv_args cv)) (S j) (cv_out cv') q.
Proof.
  intros K cv k v b j q Hw HU Hg Hs Hq Hsh.
  pose proof Hw as (Hc & He & _ & _).
  unfold call. rewrite (set_beta_gamma_given K cv k v _ Hg), Hs. cbn [rbind fst snd].
  eexists. split; [reflexivity|]. split; [reflexivity|]. split; [reflexivity|].
  assert (HV : forall d x, match o_derived (cv_out cv) d with Value v0 => Some v0 | Method => None end = Some x ->
              o_derived (cv_out cv) d = Value x).
  { intros d x H. destruct (o_derived (cv_out cv) d); inversion H; reflexivity. }
  pose proof (HV _ _ (Hsh Kmomentum)) as S1. pose proof (HV _ _ (Hsh Kvelocity)) as S2.
  pose proof (HV _ _ (Hsh Kenergy)) as S3. pose proof (HV _ _ (Hsh Kkenergy)) as S4.
  pose proof (HV _ _ (Hsh Kbetagamma)) as S5. pose proof (HV _ _ (Hsh Kbrho)) as S6.
  intros k'. destruct HU as [HU|HU]; rewrite HU in *; cbn [unit_eqb cv_out].
  - destruct k'; cbn -[calculate scaled pow]; rewrite ?S1, ?S2, ?S3, ?S4, ?S5, ?S6; try reflexivity; subst q; reflexivity.
  - destruct k'; cbn -[calculate scaled pow]; rewrite ?S1, ?S2, ?S3, ?S4, ?S5, ?S6; cbn -[calculate pow];
      unfold scaled; cbn [si_per_ev]; rewrite ?pow1, ?Rmult_1_r; try reflexivity.
    + do 2 f_equal. cbn [pow]. field. repeat split; lra.
    + do 2 f_equal. cbn [pow]. field. repeat split; lra.
    + do 2 f_equal. cbn [pow]. field. repeat split; lra.
    + subst q; reflexivity.
    + subst q; reflexivity.
Qed.

(* ---------- the whole converter ---------- *)

Definition positive_mass (a : kargs) : Prop := forall m, a_mass a = Some m -> 0 < m.

(** n+1 calls of a freshly built converter. *)
Lemma converter_calls : forall K a k x, wf_consts K -> proper_units a ->
  given a k (in_unit K (a_input_unit a) k x) ->
  let m := fst (choose_mass K (eff_args K a)) in
  0 < m ->
  physical (c_light K) m k x ->
  exists q cv, construct K a = Ok cv /\ relativistic (c_light K) m q /\ quantity q k = x /\
    (signed_kind k = false -> 0 <= q_beta q) /\
    forall n, exists cv', call_n K (S n) cv = Ok cv' /\
       shows K (a_output_unit a) (S n) (cv_out cv') q.
Proof.
  intros K a k x Hw HU Hg m Hm Hp.
  destruct (construct_ok K a k _ HU Hg) as (cv & C1 & C2 & C3 & C4).
  pose proof (eff_given K a k _ Hg) as Hg'.
  rewrite eff_val_unit in Hg' by (try assumption; apply HU).
  assert (Hc : 0 < c_light K) by apply Hw.
  destruct (startup_of_beta K m k x Hc Hm Hp) as (b & B1 & B2 & B3 & B4).
  exists (of_beta (c_light K) m b), cv.
  split; [exact C1|]. split; [apply of_beta_relativistic; assumption|].
  split; [exact B3|]. split; [exact B2|].
  assert (HU' : proper_unit (a_output_unit (cv_args cv))).
  { rewrite C2. destruct (eff_unit K a) as [-> _]. apply HU. }
  assert (Eu : a_output_unit (cv_args cv) = a_output_unit a).
  { rewrite C2. apply eff_unit. }
  rewrite <- C2 in Hg'. fold m in C3.
  assert (Hind : forall n, exists cv', call_n K (S n) cv = Ok cv' /\ cv_args cv' = cv_args cv /\
            cv_mass cv' = cv_mass cv /\
            shows K (a_output_unit (cv_args cv)) (S n) (cv_out cv') (of_beta (c_light K) m b)).
  { induction n as [|n (cv1 & I1 & I2 & I3 & I4)].
    - destruct (call_first K cv k x b Hw HU' Hg') as (cv' & D1 & D2 & D3 & D4 & _).
      + intros d. rewrite C4. reflexivity.
      + rewrite C3. exact B4.
      + exists cv'. cbn [call_n rbind]. rewrite C3 in D4. auto.
    - destruct (call_again K cv1 k x b (S n) (of_beta (c_light K) m b) Hw) as (cv' & D1 & D2 & D3 & D4).
      + rewrite I2. exact HU'.
      + rewrite I2. exact Hg'.
      + rewrite I3, C3. exact B4.
      + rewrite I3, C3. reflexivity.
      + rewrite I2. exact I4.
      + exists cv'. cbn [call_n] in *. rewrite I1. cbn [rbind].
        rewrite D1, D2, D3, I2, I3. rewrite I2 in D4. auto. }
  intros n. destruct (Hind n) as (cv' & D1 & _ & _ & D4). exists cv'. rewrite <- Eu. auto.
Qed.

Lemma shows_1_reports : forall K u o q, proper_unit u -> shows K u 1 o q <-> reports K u o q.
Proof.
  intros K u o q Hu. unfold shows, reports, scaled, in_unit.
  split; intros H k; rewrite (H k); destruct u; rewrite ?pow_1; reflexivity.
Qed.

Lemma converter_correct : forall K a k x, exact_consts K -> proper_units a -> positive_mass a ->
  given a k (in_unit K (a_input_unit a) k x) ->
  physical (c_light K) (meant_mass K a) k x ->
  exists q cv cv', construct K a = Ok cv /\ call K cv = Ok cv' /\
    relativistic (c_light K) (meant_mass K a) q /\ quantity q k = x /\
    reports K (a_output_unit a) (cv_out cv') q /\
    (signed_kind k = false -> 0 <= q_beta q).
Proof.
  intros K a k x He HU Hm Hg Hp.
  pose proof (internal_mass_exact K a He HU Hm) as Hmass.
  destruct He as [Hw Hx].
  pose proof (meant_mass_pos K a Hw Hm) as Hpos.
  destruct (converter_calls K a k x Hw HU Hg) as (q & cv & C1 & C2 & C3 & C4 & C5).
  - rewrite Hmass. exact Hpos.
  - rewrite Hmass. exact Hp.
  - destruct (C5 O) as (cv' & D1 & D2). exists q, cv, cv'.
    rewrite Hmass in C2. cbn [call_n rbind] in D1.
    apply shows_1_reports in D2; [|apply HU]. repeat split; auto; apply C2.
Qed.

Lemma converter_correct_ev : forall K a k x, wf_consts K ->
  a_mass_unit a = UeV -> a_input_unit a = UeV -> a_output_unit a = UeV ->
  positive_mass a -> given a k x ->
  physical (c_light K) (meant_mass K a) k x ->
  exists q cv cv', construct K a = Ok cv /\ call K cv = Ok cv' /\
    relativistic (c_light K) (meant_mass K a) q /\ quantity q k = x /\
    reports K UeV (cv_out cv') q /\
    (signed_kind k = false -> 0 <= q_beta q).
Proof.
  intros K a k x Hw U1 U2 U3 Hm Hg Hp.
  assert (HU : proper_units a) by (repeat split; [rewrite U1|rewrite U2|rewrite U3]; left; reflexivity).
  assert (Hmass : fst (choose_mass K (eff_args K a)) = meant_mass K a).
  { rewrite internal_mass_wf by assumption. rewrite U1, U2. destruct (a_mass a); reflexivity. }
  pose proof (meant_mass_pos K a Hw Hm) as Hpos.
  destruct (converter_calls K a k x Hw HU) as (q & cv & C1 & C2 & C3 & C4 & C5).
  - unfold in_unit. rewrite U2. exact Hg.
  - rewrite Hmass. exact Hpos.
  - rewrite Hmass. exact Hp.
  - destruct (C5 O) as (cv' & D1 & D2). exists q, cv, cv'.
    rewrite Hmass in C2. cbn [call_n rbind] in D1.
    rewrite U3 in D2.
    apply shows_1_reports in D2; [|left; reflexivity]. repeat split; auto; apply C2.
Qed.

Lemma relativistic_physical : forall c m q k, 0 < c -> 0 < m -> relativistic c m q ->
  physical c m k (quantity q k).
Proof.
  intros c m q k Hc Hm Hr. pose proof (relativistic_energy c m q Hm Hr) as HE.
  destruct Hr as (B1 & G1 & A1 & A2 & A3 & A4 & A5 & A6 & A7 & A8).
  destruct k; simpl; try exact I; try assumption.
  - rewrite A7. split; nra.
  - rewrite HE. nra.
  - rewrite A6, HE. nra.
Qed.

Lemma converter_round_trip : forall K a k x a2 k2, exact_consts K ->
  proper_units a -> positive_mass a -> given a k (in_unit K (a_input_unit a) k x) ->
  physical (c_light K) (meant_mass K a) k x ->
  proper_units a2 -> positive_mass a2 -> meant_mass K a2 = meant_mass K a ->
  forall cv cv' q, construct K a = Ok cv -> call K cv = Ok cv' ->
  reports K (a_output_unit a) (cv_out cv') q ->
  given a2 k2 (in_unit K (a_input_unit a2) k2 (quantity q k2)) ->
  (signed_kind k2 = true \/ 0 <= q_beta q) ->
  exists cv2 cv2', construct K a2 = Ok cv2 /\ call K cv2 = Ok cv2' /\
    reports K (a_output_unit a2) (cv_out cv2') q.
Proof.
  intros K a k x a2 k2 He HU Hm Hg Hp HU2 Hm2 Hmm cv cv' q C1 C2 Hr Hg2 Hs.
  destruct (converter_correct K a k x He HU Hm Hg Hp) as (q' & cw & cw' & D1 & D2 & D3 & D4 & D5 & D6).
  rewrite C1 in D1. inversion D1; subst cw. rewrite C2 in D2. inversion D2; subst cw'.
  pose proof He as [Hw Hx]. pose proof Hw as (Hc & Hee & _ & _).
  assert (Hqq : q = q').
  { assert (Hk : forall k, quantity q k = quantity q' k).
    { intros k0. pose proof (Hr k0) as E1. rewrite (D5 k0) in E1. inversion E1 as [E2].
      unfold in_unit in E2. destruct (proj2 (proj2 HU)) as [U|U]; rewrite U in E2; [auto|].
      destruct k0; simpl in *; try lra;
       (eapply Rmult_eq_reg_r; [symmetry; exact E2|]); try lra.
      apply Rgt_not_eq. apply Rdiv_lt_0_compat; lra. }
    destruct q, q'. pose proof (Hk Kmomentum). pose proof (Hk Kvelocity). pose proof (Hk Kenergy).
    pose proof (Hk Kkenergy). pose proof (Hk Kbetagamma). pose proof (Hk Kbrho). pose proof (Hk Kbeta).
    pose proof (Hk Kgamma). simpl in *. subst. reflexivity. }
  subst q'.
  pose proof (meant_mass_pos K a Hw Hm) as Hpos.
  destruct (converter_correct K a2 k2 (quantity q k2) He HU2 Hm2 Hg2) as (q2 & cw & cw' & F1 & F2 & F3 & F4 & F5 & F6).
  { rewrite Hmm. apply relativistic_physical; assumption. }
  exists cw, cw'. split; [exact F1|]. split; [exact F2|].
  assert (q2 = q) as <-; [|exact F5].
  apply (relativistic_unique (c_light K) (meant_mass K a) k2); auto.
  - rewrite <- Hmm. exact F3.
  - destruct Hs as [Hs|Hs]; [left; exact Hs|].
    destruct (signed_kind k2) eqn:Ek; [left; reflexivity|right]. split; auto.
Qed.

(* ---------- reported mass ---------- *)

Lemma reported_mass : forall K a k x cv cv', wf_consts K -> proper_units a -> positive_mass a ->
  given a k (in_unit K (a_input_unit a) k x) ->
  construct K a = Ok cv -> call K cv = Ok cv' ->
  o_mass_label (cv_out cv') = a_mass_unit a /\
  o_mass (cv_out cv') =
   (match a_mass a with
    | Some m => if unit_eqb (a_input_unit a) USI then m / kg_per_ev K else m
    | None => if unit_eqb (a_mass_unit a) USI then me_kg K else me_ev K
    end) * (if unit_eqb (a_output_unit a) USI then kg_per_ev K else 1).
Proof.
  intros K a k x cv cv' Hw HU Hm Hg C1 C2.
  destruct (construct_ok K a k _ HU Hg) as (cw & D1 & D2 & D3 & D4).
  rewrite C1 in D1. inversion D1; subst cw.
  pose proof Hw as (Hc & He & Hev & Hkg).
  assert (Hf : mass_factor K = / kg_per_ev K).
  { unfold mass_factor, kg_per_ev. field. lra. }
  assert (Hfp : 0 < mass_factor K).
  { unfold mass_factor. apply Rmult_lt_0_compat; [apply Rdiv_lt_0_compat; lra|]. apply pow_lt. exact Hc. }
  unfold call in C2.
  destruct (set_beta_gamma K cv all_kinds (cv_out cv)) as [o1|e|] eqn:Es; simpl in C2; try discriminate.
  assert (Ho : o_mass o1 = o_mass (cv_out cv) /\ o_mass_label o1 = o_mass_label (cv_out cv)).
  { pose proof (eff_given K a k _ Hg) as Hg'. rewrite <- D2 in Hg'.
    rewrite (set_beta_gamma_given K cv _ _ _ Hg') in Es.
    destruct (startup _ _ _ _); simpl in Es; try discriminate. inversion Es; subst. split; reflexivity. }
  destruct Ho as [Ho1 Ho2].
  assert (Hrep : o_mass (cv_out cv) = match a_mass a with
    | Some m => if unit_eqb (a_input_unit a) USI then m / kg_per_ev K else m
    | None => if unit_eqb (a_mass_unit a) USI then me_kg K else me_ev K
    end).
  { rewrite D4. cbn [o_mass]. unfold eff_args, choose_mass.
    destruct HU as (U1 & U2 & _).
    assert (Hke : me_ev K / ev_per_kg K = me_kg K) by (unfold ev_per_kg; field; lra).
    destruct U1 as [U1|U1], U2 as [U2|U2]; rewrite U2; simpl unit_eqb; cbv iota; simpl a_mass_unit;
      simpl a_mass; rewrite U1; destruct (a_mass a) as [m|] eqn:Em; simpl; auto.
    - specialize (Hm m Em). destruct (Req_EM_T m 0); [lra|reflexivity].
    - specialize (Hm m Em). destruct (Req_EM_T (m * mass_factor K) 0); [nra|]. simpl.
      rewrite Hf. reflexivity.
    - rewrite Hf. reflexivity. }
  assert (Eu : a_output_unit (cv_args cv) = a_output_unit a).
  { rewrite D2. apply eff_unit. }
  rewrite Eu in C2. inversion C2; subst cv'; clear C2. cbn [cv_out].
  destruct (unit_eqb (a_output_unit a) USI); cbn; rewrite Ho1, Ho2, Hrep, D4; cbn.
  - split; [reflexivity|]. f_equal. rewrite Hf, Rinv_inv. reflexivity.
  - split; [reflexivity|]. ring.
Qed.

Lemma reported_mass_iff : forall K a k x cv cv', wf_consts K -> kg_per_ev K <> 1 ->
  proper_units a -> positive_mass a ->
  given a k (in_unit K (a_input_unit a) k x) ->
  construct K a = Ok cv -> call K cv = Ok cv' ->
  (o_mass (cv_out cv') = supplied_mass K a <->
   match a_mass a with
   | Some _ => a_input_unit a = a_output_unit a
   | None => a_output_unit a = UeV
   end).
Proof.
  intros K a k x cv cv' Hw Hne HU Hm Hg C1 C2.
  destruct (reported_mass K a k x cv cv' Hw HU Hm Hg C1 C2) as [_ H]. rewrite H. clear H.
  pose proof Hw as (Hc & He & Hev & Hkg).
  assert (Hkp : 0 < kg_per_ev K).
  { unfold kg_per_ev. apply Rdiv_lt_0_compat; [assumption|apply pow_lt; assumption]. }
  unfold supplied_mass. destruct HU as (U1 & U2 & U3).
  set (z := kg_per_ev K) in *.
  destruct (a_mass a) as [m|] eqn:Em.
  - specialize (Hm m Em).
    destruct U2 as [U2|U2], U3 as [U3|U3]; rewrite U2, U3; simpl.
    + split; [reflexivity|]. intros _. ring.
    + split; [|discriminate]. intros E. exfalso. apply Hne. nra.
    + split; [|discriminate]. intros E. exfalso. apply Hne.
      assert (m = m * z). { apply (Rmult_eq_compat_r z) in E. unfold Rdiv in E.
        rewrite Rmult_1_r, Rmult_assoc, Rinv_l, Rmult_1_r in E by lra. exact E. }
      nra.
    + split; [reflexivity|]. intros _. field. lra.
  - destruct U1 as [U1|U1], U3 as [U3|U3]; rewrite U1, U3; simpl.
    + split; [reflexivity|]. intros _. ring.
    + split; [|discriminate]. intros E. exfalso. apply Hne. nra.
    + split; [reflexivity|]. intros _. ring.
    + split; [|discriminate]. intros E. exfalso. apply Hne. nra.
Qed.

(* ---------- unphysical input ---------- *)

Lemma nsqrt_neg : forall x, x < 0 -> nsqrt x = None.
Proof. intros x H. unfold nsqrt. destruct (Rlt_dec x 0); [reflexivity|lra]. Qed.

Lemma gamma_tail_none : forall b, ~ (-1 < b < 1) -> ndiv (Some 1) (nsqrt (1 - b ^ 2)) = None.
Proof.
  intros b Hb. unfold nsqrt. destruct (Rlt_dec (1 - b ^ 2) 0) as [H|H]; [reflexivity|].
  assert (1 - b ^ 2 = 0). { destruct (Rle_lt_dec 1 b); [nra|]. destruct (Rle_lt_dec b (-1)); [nra|]. exfalso. apply Hb. lra. }
  rewrite H0, sqrt_0. simpl. destruct (Req_EM_T 0 0); [reflexivity|lra].
Qed.

Lemma gamma_sqrt_none : forall g, -1 < g < 1 ->
  (do q <- pdiv 1 (g ^ 2); Ok (nsqrt (1 - q), Some g)) = Err ZeroDivisionError \/
  (do q <- pdiv 1 (g ^ 2); Ok (nsqrt (1 - q), Some g)) = Ok (None, Some g).
Proof.
  intros g Hg. unfold pdiv. destruct (Req_EM_T (g ^ 2) 0) as [E|E]; [left; reflexivity|right].
  cbn [rbind]. rewrite nsqrt_neg; [reflexivity|].
  assert (0 < g ^ 2 < 1) by (split; [assert (0 <= g ^ 2) by nra; lra|nra]).
  assert (1 < 1 / g ^ 2); [|lra].
  apply Rmult_lt_reg_r with (g ^ 2); [lra|]. unfold Rdiv. rewrite Rmult_assoc, Rinv_l by lra. lra.
Qed.

(** Values for which the code does produce a complete finite answer. *)
Definition accepted_value (c m : R) (k : kind) (v : R) : Prop :=
  physical c m k v \/
  match k with
  | Kgamma => v <= -1
  | Kenergy => v <= - m
  | Kkenergy => v <= - 2 * m
  | _ => False
  end.

Lemma startup_rejects : forall K m k v, 0 < c_light K -> 0 < m ->
  ~ accepted_value (c_light K) m k v ->
  startup K m k v = Err ZeroDivisionError \/
  exists b g, startup K m k v = Ok (b, g) /\ (b = None \/ g = None).
Proof.
  intros K m k v Hc Hm Hn. unfold accepted_value in Hn.
  assert (Hdiv : forall x y, 0 < y -> x / y * y = x) by (intros; field; lra).
  destruct k; simpl in Hn; try (exfalso; apply Hn; left; exact I).
  - right. unfold startup, start_velocity. rewrite pdiv_ok by lra. cbn [rbind].
    do 2 eexists. split; [reflexivity|]. right. apply gamma_tail_none. intros [H1 H2].
    apply Hn. left. pose proof (Hdiv v _ Hc). split; nra.
  - assert (Hg : -1 < v / m < 1).
    { pose proof (Hdiv v m Hm). split; apply Rnot_le_lt; intros H1; apply Hn; [right|left]; nra. }
    unfold startup, start_energy. rewrite pdiv_ok by lra. cbn [rbind].
    destruct (gamma_sqrt_none _ Hg) as [E|E]; [left|right]; rewrite E; [reflexivity|]. eauto.
  - assert (Hg : -1 < v / m + 1 < 1).
    { pose proof (Hdiv v m Hm). split; apply Rnot_le_lt; intros H1; apply Hn; [right|left]; nra. }
    unfold startup, start_kenergy. rewrite pdiv_ok by lra. cbn [rbind].
    destruct (gamma_sqrt_none _ Hg) as [E|E]; [left|right]; rewrite E; [reflexivity|]. eauto.
  - right. unfold startup, start_beta.
    do 2 eexists. split; [reflexivity|]. right. apply gamma_tail_none. intros H1. apply Hn. left. exact H1.
  - assert (Hg : -1 < v < 1).
    { split; apply Rnot_le_lt; intros H1; apply Hn; [right|left]; lra. }
    unfold startup, start_gamma.
    destruct (gamma_sqrt_none _ Hg) as [E|E]; [left|right]; rewrite E; [reflexivity|]. eauto.
Qed.

Lemma call_rejects : forall K a k x cv, wf_consts K -> proper_units a ->
  given a k (in_unit K (a_input_unit a) k x) ->
  construct K a = Ok cv -> 0 < cv_mass cv ->
  ~ accepted_value (c_light K) (cv_mass cv) k x ->
  call K cv = Err ZeroDivisionError \/
  exists cv', call K cv = Ok cv' /\
    (reported (cv_out cv') Kbeta = Some None \/ reported (cv_out cv') Kgamma = Some None).
Proof.
  intros K a k x cv Hw HU Hg C1 Hm Hn.
  destruct (construct_ok K a k _ HU Hg) as (cw & D1 & D2 & D3 & D4).
  rewrite C1 in D1. inversion D1; subst cw.
  pose proof (eff_given K a k _ Hg) as Hg'.
  rewrite eff_val_unit in Hg' by (try assumption; apply HU).
  rewrite <- D2 in Hg'. assert (Hc : 0 < c_light K) by apply Hw.
  unfold call. rewrite (set_beta_gamma_given K cv _ _ _ Hg').
  destruct (startup_rejects K (cv_mass cv) k x Hc Hm Hn) as [E|(b & g & E & Hbg)]; rewrite E; cbn [rbind fst snd].
  - left. reflexivity.
  - right. eexists. split; [reflexivity|]. cbn [cv_out].
    destruct (unit_eqb _ _); cbn; destruct Hbg as [-> | ->]; auto.
Qed.

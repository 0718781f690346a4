(** Lemmas about the bunch model. *)
From Coq Require Import List Reals Lra Lia Psatz Bool Arith String.
From Verif Require Import PyBase Bunch_Model Stats_Model Stats_Spec Stats_Proofs Twiss_Spec Bunch_Spec.
Import ListNotations.
Open Scope R_scope.

(** ** Setters *)
Lemma pdiv_ok : forall x y, y <> 0 -> pdiv x y = Ok (x / y).
Proof. intros x y H. unfold pdiv. destruct (Req_EM_T y 0); [contradiction|reflexivity]. Qed.
Lemma pdiv_zero : forall x, pdiv x 0 = Err ZeroDivisionError.
Proof. intros x. unfold pdiv. destruct (Req_EM_T 0 0); [reflexivity|contradiction]. Qed.

Definition pos_tw (t : twiss4) : Prop := 0 < u_betax t /\ 0 < u_betay t.
Definition cons_x (t : twiss4) : Prop := u_gammax t * u_betax t = 1 + u_alphax t ^ 2.
Definition cons_y (t : twiss4) : Prop := u_gammay t * u_betay t = 1 + u_alphay t ^ 2.

Lemma consistent_x_iff : forall b, cons_x (b_tw b) -> consistent_x b.
Proof. intros b H. exists (u_betax (b_tw b)), (u_alphax (b_tw b)), (u_gammax (b_tw b)). repeat split; exact H. Qed.
Lemma consistent_y_iff : forall b, cons_y (b_tw b) -> consistent_y b.
Proof. intros b H. exists (u_betay (b_tw b)), (u_alphay (b_tw b)), (u_gammay (b_tw b)). repeat split; exact H. Qed.
Lemma consistent_y_inv : forall b, consistent_y b -> cons_y (b_tw b).
Proof.
  intros b (be & al & ga & H1 & H2 & H3 & H). unfold shows in *. cbn in H1, H2, H3.
  injection H1 as <-. injection H2 as <-. injection H3 as <-. exact H.
Qed.

(** What one assignment with a positive beta does. *)
Definition step_tw (k : kind) (t : twiss4) (s : setting) : twiss4 :=
  let gx a b := (1 + a ^ 2) / b in
  match s with
  | Betax v => match k with
               | Standard => {| u_betax := v; u_alphax := u_alphax t; u_betay := u_betay t; u_alphay := u_alphay t;
                                u_gammax := gx (u_alphax t) v; u_gammay := u_gammay t |}
               | Nonlinear => {| u_betax := v; u_alphax := u_alphax t; u_betay := v; u_alphay := u_alphay t;
                                u_gammax := gx (u_alphax t) v; u_gammay := gx (u_alphax t) v |}
               end
  | Betay v => match k with
               | Standard => {| u_betax := u_betax t; u_alphax := u_alphax t; u_betay := v; u_alphay := u_alphay t;
                                u_gammax := u_gammax t; u_gammay := gx (u_alphay t) v |}
               | Nonlinear => {| u_betax := v; u_alphax := u_alphax t; u_betay := v; u_alphay := u_alphay t;
                                u_gammax := gx (u_alphax t) v; u_gammay := gx (u_alphay t) v |}
               end
  | Alphax v => {| u_betax := u_betax t; u_alphax := v; u_betay := u_betay t; u_alphay := u_alphay t;
                   u_gammax := gx v (u_betax t); u_gammay := u_gammay t |}
  | Alphay v => {| u_betax := u_betax t; u_alphax := u_alphax t; u_betay := u_betay t; u_alphay := v;
                   u_gammax := u_gammax t; u_gammay := gx v (u_betay t) |}
  end.

Lemma assign_step : forall b s, pos_tw (b_tw b) -> positive_beta s ->
  assign b s = (with_tw b (step_tw (b_kind b) (b_tw b) s), Ok tt).
Proof.
  intros [k n d ex ey e [bx ax by_ ay gx gy] sz dp q tr lo ids t c cu] s [Hx Hy] Hs. cbn in Hx, Hy.
  destruct s as [v|v|v|v]; cbn in Hs; unfold assign, set_betax, set_betay, set_alphax, set_alphay.
  - destruct (Rlt_dec v 0); [lra|]. destruct k; unfold assign_gx, assign_gy_from_x; cbn;
      rewrite pdiv_ok by lra; cbn; try (rewrite pdiv_ok by lra); reflexivity.
  - destruct (Rlt_dec v 0); [lra|]. destruct k; unfold assign_gx, assign_gy; cbn;
      rewrite pdiv_ok by lra; cbn; try (rewrite pdiv_ok by lra); reflexivity.
  - unfold assign_gx; cbn. rewrite pdiv_ok by lra. reflexivity.
  - unfold assign_gy; cbn. rewrite pdiv_ok by lra. reflexivity.
Qed.

Lemma step_pos : forall k t s, pos_tw t -> positive_beta s -> pos_tw (step_tw k t s).
Proof. intros k t s [Hx Hy] Hs. destruct s, k; cbn in *; split; cbn; assumption. Qed.

Lemma history_fold : forall l b, pos_tw (b_tw b) -> Forall positive_beta l ->
  history b l = (with_tw b (fold_left (step_tw (b_kind b)) l (b_tw b)), Ok tt).
Proof.
  induction l as [|s l IH]; intros b Hb Hl.
  - cbn. destruct b; reflexivity.
  - inversion Hl as [|? ? Hs Hl']; subst. cbn [history]. rewrite assign_step by assumption. cbn [then_].
    rewrite IH; [destruct b; reflexivity | apply step_pos; assumption | assumption].
Qed.

Lemma fold_pos : forall l k t, pos_tw t -> Forall positive_beta l -> pos_tw (fold_left (step_tw k) l t).
Proof.
  induction l as [|s l IH]; intros k t Ht Hl; [exact Ht|]. inversion Hl; subst. cbn. apply IH; [apply step_pos; assumption|assumption].
Qed.

Lemma div_cancel : forall a b, 0 < b -> a / b * b = a.
Proof. intros a b H. field. lra. Qed.

Lemma step_cons_x : forall k t s, pos_tw t -> positive_beta s -> cons_x t -> cons_x (step_tw k t s).
Proof. intros k t s [Hx Hy] Hs H. unfold cons_x in *. destruct s, k; cbn in *; try assumption; apply div_cancel; assumption. Qed.
Lemma step_cons_y_std : forall t s, pos_tw t -> positive_beta s -> cons_y t -> cons_y (step_tw Standard t s).
Proof. intros t s [Hx Hy] Hs H. unfold cons_y in *. destruct s; cbn in *; try assumption; apply div_cancel; assumption. Qed.
Definition not_betax (s : setting) : Prop := match s with Betax _ => False | _ => True end.
Lemma step_cons_y_nl : forall t s, pos_tw t -> positive_beta s -> not_betax s -> cons_y t -> cons_y (step_tw Nonlinear t s).
Proof. intros t s [Hx Hy] Hs Hn H. unfold cons_y in *. destruct s; cbn in *; try contradiction; try assumption; apply div_cancel; assumption. Qed.

Lemma fold_cons_x : forall l k t, pos_tw t -> Forall positive_beta l -> cons_x t -> cons_x (fold_left (step_tw k) l t).
Proof.
  induction l as [|s l IH]; intros k t Ht Hl H; [exact H|]. inversion Hl; subst. cbn.
  apply IH; [apply step_pos; assumption|assumption|apply step_cons_x; assumption].
Qed.
Lemma fold_cons_y_std : forall l t, pos_tw t -> Forall positive_beta l -> cons_y t -> cons_y (fold_left (step_tw Standard) l t).
Proof.
  induction l as [|s l IH]; intros t Ht Hl H; [exact H|]. inversion Hl; subst. cbn.
  apply IH; [apply step_pos; assumption|assumption|apply step_cons_y_std; assumption].
Qed.
Lemma fold_cons_y_nl : forall l t, pos_tw t -> Forall positive_beta l -> Forall not_betax l -> cons_y t ->
  cons_y (fold_left (step_tw Nonlinear) l t).
Proof.
  induction l as [|s l IH]; intros t Ht Hl Hn H; [exact H|]. inversion Hl; inversion Hn; subst. cbn.
  apply IH; [apply step_pos; assumption|assumption|assumption|apply step_cons_y_nl; assumption].
Qed.

Lemma fold_reads : forall l k t,
  u_alphax (fold_left (step_tw k) l t) = last_given of_alphax (u_alphax t) l /\
  u_alphay (fold_left (step_tw k) l t) = last_given of_alphay (u_alphay t) l.
Proof.
  induction l as [|s l IH]; intros k t; [split; reflexivity|]. cbn [fold_left].
  destruct (IH k (step_tw k t s)) as [E1 E2]. rewrite E1, E2. unfold last_given. cbn [fold_left].
  destruct s, k; cbn; split; reflexivity.
Qed.
Lemma fold_betax_std : forall l t, u_betax (fold_left (step_tw Standard) l t) = last_given of_betax (u_betax t) l.
Proof.
  induction l as [|s l IH]; intros t; [reflexivity|]. cbn [fold_left]. rewrite IH. unfold last_given. cbn [fold_left].
  destruct s; reflexivity.
Qed.
Lemma fold_betay_std : forall l t, u_betay (fold_left (step_tw Standard) l t) = last_given of_betay (u_betay t) l.
Proof.
  induction l as [|s l IH]; intros t; [reflexivity|]. cbn [fold_left]. rewrite IH. unfold last_given. cbn [fold_left].
  destruct s; reflexivity.
Qed.
Lemma fold_betax_nl : forall l t, u_betax (fold_left (step_tw Nonlinear) l t) = last_given of_beta (u_betax t) l.
Proof.
  induction l as [|s l IH]; intros t; [reflexivity|]. cbn [fold_left]. rewrite IH. unfold last_given. cbn [fold_left].
  destruct s; reflexivity.
Qed.

(** ** The elliptic potential *)
Lemma nsqrt_ok : forall x, 0 <= x -> nsqrt x = Some (sqrt x).
Proof. intros x H. unfold nsqrt. destruct (Rlt_dec x 0); [lra|reflexivity]. Qed.

Lemma sq2 : forall a b, 0 <= a ^ 2 + b ^ 2.
Proof. intros a b. pose proof (pow2_ge_0 a). pose proof (pow2_ge_0 b). lra. Qed.
Lemma sq2_zero : forall a b, a ^ 2 + b ^ 2 = 0 -> a = 0 /\ b = 0.
Proof. intros a b H. apply Rplus_sqr_eq_0. unfold Rsqr. lra. Qed.
Definition d1 (x y : R) := sqrt ((x + 1) ^ 2 + y ^ 2).
Definition d2 (x y : R) := sqrt ((x - 1) ^ 2 + y ^ 2).
Lemma d1_sq : forall x y, d1 x y ^ 2 = (x + 1) ^ 2 + y ^ 2.
Proof. intros. unfold d1. rewrite pow2_sqrt; [reflexivity|apply sq2]. Qed.
Lemma d2_sq : forall x y, d2 x y ^ 2 = (x - 1) ^ 2 + y ^ 2.
Proof. intros. unfold d2. rewrite pow2_sqrt; [reflexivity|apply sq2]. Qed.
Lemma d1_nonneg : forall x y, 0 <= d1 x y. Proof. intros; apply sqrt_pos. Qed.
Lemma d2_nonneg : forall x y, 0 <= d2 x y. Proof. intros; apply sqrt_pos. Qed.

Lemma elliptic_u_eq : forall x y, elliptic_u x y = Some ((d1 x y + d2 x y) / 2).
Proof. intros. unfold elliptic_u. rewrite !nsqrt_ok by apply sq2. reflexivity. Qed.
Lemma elliptic_v_eq : forall x y, elliptic_v x y = Some ((d1 x y - d2 x y) / 2).
Proof. intros. unfold elliptic_v. rewrite !nsqrt_ok by apply sq2. reflexivity. Qed.

Lemma sum_ge : forall x y, 2 <= d1 x y + d2 x y.
Proof.
  intros x y. pose proof (d1_sq x y). pose proof (d2_sq x y). pose proof (d1_nonneg x y). pose proof (d2_nonneg x y).
  set (a := d1 x y) in *. set (b := d2 x y) in *.
  assert (x + 1 <= a). { destruct (Rle_dec (x + 1) 0); [lra|]. apply Rsqr_incr_0_var; [unfold Rsqr; nra|lra]. }
  assert (1 - x <= b). { destruct (Rle_dec (1 - x) 0); [lra|]. apply Rsqr_incr_0_var; [unfold Rsqr; nra|lra]. }
  lra.
Qed.
Lemma diff_le : forall x y, d1 x y - d2 x y <= 2.
Proof.
  intros x y. pose proof (d1_sq x y). pose proof (d2_sq x y). pose proof (d1_nonneg x y). pose proof (d2_nonneg x y).
  set (a := d1 x y) in *. set (b := d2 x y) in *.
  assert (x - 1 <= b). { destruct (Rle_dec (x - 1) 0); [lra|]. apply Rsqr_incr_0_var; [unfold Rsqr; nra|lra]. }
  assert (a <= b + 2); [|lra]. apply Rsqr_incr_0_var; [unfold Rsqr; nra|lra].
Qed.
Lemma d1_neg : forall x y, d1 (- x) y = d2 x y.
Proof. intros. unfold d1, d2. f_equal. ring. Qed.
Lemma d2_neg : forall x y, d2 (- x) y = d1 x y.
Proof. intros. unfold d1, d2. f_equal. ring. Qed.
Lemma d1_negy : forall x y, d1 x (- y) = d1 x y.
Proof. intros. unfold d1, d2. f_equal. ring. Qed.
Lemma d2_negy : forall x y, d2 x (- y) = d2 x y.
Proof. intros. unfold d1, d2. f_equal. ring. Qed.
Lemma diff_ge : forall x y, -2 <= d1 x y - d2 x y.
Proof. intros x y. pose proof (diff_le (- x) y) as H. rewrite d1_neg, d2_neg in H. lra. Qed.

Lemma f2u_ok : forall u, 1 <= u -> f2u u = Some (u * sqrt (u ^ 2 - 1) * ln (u + sqrt (u ^ 2 - 1))).
Proof.
  intros u H. unfold f2u, narccosh. rewrite nsqrt_ok by nra. destruct (Rle_dec 1 u); [reflexivity|contradiction].
Qed.
Lemma g2v_ok : forall v, -1 <= v <= 1 -> g2v v = Some (v * sqrt (1 - v ^ 2) * (- PI / 2 + acos v)).
Proof.
  intros v [H1 H2]. unfold g2v, narccos. rewrite nsqrt_ok by nra.
  destruct (Rle_dec (-1) v); [|contradiction]. destruct (Rle_dec v 1); [reflexivity|contradiction].
Qed.
Lemma g2v_even : forall v, -1 <= v <= 1 -> g2v (- v) = g2v v.
Proof.
  intros v H. rewrite !g2v_ok by lra. f_equal. rewrite acos_opp. replace ((- v) ^ 2) with (v ^ 2) by ring. field.
Qed.

Lemma den_zero : forall x y, ((d1 x y + d2 x y) / 2) ^ 2 - ((d1 x y - d2 x y) / 2) ^ 2 = 0 -> y = 0 /\ (x = 1 \/ x = -1).
Proof.
  intros x y H. replace (((d1 x y + d2 x y) / 2) ^ 2 - ((d1 x y - d2 x y) / 2) ^ 2) with (d1 x y * d2 x y) in H by field.
  apply Rmult_integral in H. pose proof (d1_sq x y) as H1. pose proof (d2_sq x y) as H2. destruct H as [H|H]; rewrite H in *.
  - destruct (sq2_zero (x + 1) y) as [A B]; [lra|]. split; [assumption|right; lra].
  - destruct (sq2_zero (x - 1) y) as [A B]; [lra|]. split; [assumption|left; lra].
Qed.

Definition elliptic_of (xN yN : R) : fl :=
  fbind (elliptic_u xN yN) (fun u => fbind (elliptic_v xN yN) (fun v =>
          ndiv (fmap2 Rplus (f2u u) (g2v v)) (Some (u ^ 2 - v ^ 2)))).

Lemma elliptic_finite : forall x y, ~ (y = 0 /\ (x = 1 \/ x = -1)) -> exists e, elliptic_of x y = Some e.
Proof.
  intros x y H. unfold elliptic_of. rewrite elliptic_u_eq, elliptic_v_eq. cbn [fbind].
  pose proof (sum_ge x y). pose proof (diff_le x y). pose proof (diff_ge x y).
  rewrite f2u_ok by lra. rewrite g2v_ok by lra. cbn [fmap2]. unfold ndiv.
  destruct (Req_EM_T _ 0) as [E|E]; [exfalso; exact (H (den_zero x y E))|]. eexists. reflexivity.
Qed.
Lemma elliptic_singular : forall x y, y = 0 -> x = 1 \/ x = -1 -> elliptic_of x y = None.
Proof.
  intros x y Hy Hx. unfold elliptic_of. rewrite elliptic_u_eq, elliptic_v_eq. cbn [fbind].
  assert (E : ((d1 x y + d2 x y) / 2) ^ 2 - ((d1 x y - d2 x y) / 2) ^ 2 = 0).
  { replace (((d1 x y + d2 x y) / 2) ^ 2 - ((d1 x y - d2 x y) / 2) ^ 2) with (d1 x y * d2 x y) by field.
    pose proof (d1_sq x y) as H1. pose proof (d2_sq x y) as H2. subst y. destruct Hx; subst x.
    - assert (d2 1 0 = 0) as ->; [|ring]. destruct (sq2_zero (d2 1 0) 0) as [A _]; [rewrite H2; ring|exact A].
    - assert (d1 (-1) 0 = 0) as ->; [|ring]. destruct (sq2_zero (d1 (-1) 0) 0) as [A _]; [rewrite H1; ring|exact A]. }
  rewrite E. unfold ndiv. destruct (fmap2 _ _ _); [|reflexivity]. destruct (Req_EM_T 0 0); [reflexivity|contradiction].
Qed.
Lemma elliptic_even_x : forall x y, elliptic_of (- x) y = elliptic_of x y.
Proof.
  intros x y. unfold elliptic_of. rewrite !elliptic_u_eq, !elliptic_v_eq, d1_neg, d2_neg. cbn [fbind].
  pose proof (diff_le x y). pose proof (diff_ge x y).
  replace ((d2 x y + d1 x y) / 2) with ((d1 x y + d2 x y) / 2) by field.
  replace ((d2 x y - d1 x y) / 2) with (- ((d1 x y - d2 x y) / 2)) by field.
  rewrite g2v_even by lra. replace ((- ((d1 x y - d2 x y) / 2)) ^ 2) with (((d1 x y - d2 x y) / 2) ^ 2) by ring. reflexivity.
Qed.
Lemma elliptic_even_y : forall x y, elliptic_of x (- y) = elliptic_of x y.
Proof. intros x y. unfold elliptic_of. rewrite !elliptic_u_eq, !elliptic_v_eq, d1_negy, d2_negy. reflexivity. Qed.

Lemma potential_nl : forall b x y, b_kind b = Nonlinear -> b_t b <> 0 -> b_c b <> 0 ->
  compute_potential b x y = Ok (fmap1 (fun e => 1/2 * (x ^ 2 + y ^ 2) + -1 * b_t b * b_c b ^ 2 * e) (elliptic_of (x / b_c b) (y / b_c b))).
Proof.
  intros b x y Hk Ht Hc. unfold compute_potential. rewrite Hk. destruct (Req_EM_T (b_t b) 0); [contradiction|].
  rewrite !pdiv_ok by assumption. reflexivity.
Qed.

Lemma potential_even_x : forall b x y, compute_potential b (- x) y = compute_potential b x y.
Proof.
  intros b x y. unfold compute_potential. replace ((- x) ^ 2) with (x ^ 2) by ring. destruct (b_kind b); [reflexivity|].
  destruct (Req_EM_T (b_t b) 0); [reflexivity|]. unfold pdiv. destruct (Req_EM_T (b_c b) 0); [reflexivity|]. cbn [rbind].
  replace (- x / b_c b) with (- (x / b_c b)) by (field; assumption).
  fold (elliptic_of (- (x / b_c b)) (y / b_c b)). rewrite elliptic_even_x. reflexivity.
Qed.
Lemma potential_even_y : forall b x y, compute_potential b x (- y) = compute_potential b x y.
Proof.
  intros b x y. unfold compute_potential. replace ((- y) ^ 2) with (y ^ 2) by ring. destruct (b_kind b); [reflexivity|].
  destruct (Req_EM_T (b_t b) 0); [reflexivity|]. unfold pdiv. destruct (Req_EM_T (b_c b) 0); [reflexivity|]. cbn [rbind].
  replace (- y / b_c b) with (- (y / b_c b)) by (field; assumption).
  fold (elliptic_of (x / b_c b) (- (y / b_c b))). rewrite elliptic_even_y. reflexivity.
Qed.

(** ** Loops *)
Definition group_len (b : bunch) : nat := if b_quiet b then 4 else 1.
Lemma appended_length : forall b p, List.length (appended b p) = group_len b.
Proof. intros b p. unfold appended, group_len. destruct (b_quiet b); reflexivity. Qed.

(** The list is made of whole groups, one for each accepted point. *)
Inductive grouped (b : bunch) (Q : coords -> Prop) : list coords -> Prop :=
| grouped_nil : grouped b Q []
| grouped_app : forall l p, grouped b Q l -> Q p -> grouped b Q (l ++ appended b p).

Lemma grouped_weaken : forall b (Q Q' : coords -> Prop) l, (forall p, Q p -> Q' p) -> grouped b Q l -> grouped b Q' l.
Proof. intros b Q Q' l H G. induction G; constructor; auto. Qed.

(** A particle made from a point with potential below h. *)
Definition made_at (b : bunch) (H : R -> Prop) (p : coords) : Prop :=
  exists h x y v u, H h /\ compute_potential b x y = Ok (Some v) /\ v < h /\ p = make_particle b h x y v u.

Lemma kv_loop_grouped : forall rnd fuel b xM yM pos made acc l,
  grouped b (made_at b (eq (b_emit b))) acc ->
  made = List.length acc -> kv_loop rnd fuel b xM yM pos made acc = Ok l ->
  grouped b (made_at b (eq (b_emit b))) l /\ (b_npart b <= List.length l)%nat.
Proof.
  intros rnd. induction fuel as [|fuel IH]; intros b xM yM pos made acc l G Hm H; cbn [kv_loop] in H; [discriminate|].
  destruct (made <? b_npart b)%nat eqn:E.
  - destruct (compute_potential b _ _) as [pot| |] eqn:EP; cbn [rbind] in H; try discriminate.
    destruct pot as [v|]; [|exact (IH _ _ _ _ _ _ _ G Hm H)].
    destruct (Rlt_dec v (b_emit b)) as [Hv|Hv]; [|exact (IH _ _ _ _ _ _ _ G Hm H)].
    apply IH in H; [exact H| |].
    + apply grouped_app; [exact G|]. eexists _, _, _, v, _. split; [reflexivity|]. split; [exact EP|]. split; [exact Hv|reflexivity].
    + rewrite app_length, appended_length. unfold group_len. rewrite Hm. reflexivity.
  - injection H as <-. split; [exact G|]. apply Nat.ltb_ge in E. lia.
Qed.

Lemma draw_positive_pos : forall rnd fuel pos r, draw_positive rnd fuel pos = Ok r -> 0 < fst r /\ exists k, fst r = rnd k.
Proof.
  intros rnd. induction fuel as [|f IH]; intros pos r H; cbn [draw_positive] in H; [discriminate|].
  destruct (Rle_dec (rnd pos) 0) as [E|E]; [exact (IH _ _ H)|]. injection H as <-. cbn. split; [lra|exists pos; reflexivity].
Qed.

(** After the trial loop the value is the potential of the point, or the loop did not run. *)
Lemma trial_loop_spec : forall rnd fuel b newH xM yM pos pt value r,
  trial_loop rnd fuel b newH xM yM pos pt value = Ok r ->
  match value with Some v => newH <= v | None => False end \/ (exists x y, pt = Some (x, y) /\ compute_potential b x y = Ok value) ->
  exists x y, fst (fst r) = Some (x, y) /\ compute_potential b x y = Ok (snd (fst r)).
Proof.
  intros rnd. induction fuel as [|f IH]; intros b newH xM yM pos pt value r H Hv; cbn [trial_loop] in H; [discriminate|].
  destruct value as [v|].
  - destruct (Rle_dec newH v) as [Hle|Hle].
    + destruct (compute_potential b _ _) as [pot| |] eqn:EP; cbn [rbind] in H; try discriminate.
      apply IH in H; [exact H|]. right. eexists _, _. split; [reflexivity|exact EP].
    + injection H as <-. cbn. destruct Hv as [Hv|Hv]; [contradiction|exact Hv].
  - injection H as <-. cbn. destruct Hv as [Hv|Hv]; [contradiction|exact Hv].
Qed.

Lemma waterbag_loop_grouped : forall newton rnd inner fuel b (H : R -> Prop) pos made pt acc l,
  (forall k, 0 < rnd k -> H (b_emit b * sqrt (rnd k)) /\ b_emit b * sqrt (rnd k) <= 10 ^ 10) ->
  grouped b (made_at b H) acc -> made = List.length acc ->
  waterbag_loop newton rnd inner fuel b pos made pt acc = Ok l ->
  grouped b (made_at b H) l /\ (b_npart b <= List.length l)%nat.
Proof.
  intros newton rnd inner. induction fuel as [|fuel IH]; intros b Hp pos made pt acc l HH G Hm H; cbn [waterbag_loop] in H; [discriminate|].
  destruct (made <? b_npart b)%nat eqn:E.
  - destruct (draw_positive rnd inner pos) as [[ranU pos1]| |] eqn:ED; cbn [rbind] in H; try discriminate.
    pose proof (draw_positive_pos _ _ _ _ ED) as [HU [k Hk]]. cbn in HU, Hk.
    destruct (newton _ _) as [yMax| |]; cbn [rbind] in H; try discriminate.
    destruct (trial_loop _ _ _ _ _ _ _ _ _) as [[[pt2 value] pos2]| |] eqn:ET; cbn [rbind] in H; try discriminate.
    destruct (HH k) as [HH1 HH2]; [rewrite <- Hk; exact HU|]. rewrite <- Hk in HH1, HH2.
    destruct (trial_loop_spec _ _ _ _ _ _ _ _ _ _ ET) as (x & y & Hpt & Hpot); [left; exact HH2|]. cbn [fst snd] in Hpt, Hpot.
    subst pt2. destruct value as [v|]; [|exact (IH _ _ _ _ _ _ _ HH G Hm H)].
    destruct (Rlt_dec v (b_emit b * sqrt ranU)) as [Hv|Hv]; [|exact (IH _ _ _ _ _ _ _ HH G Hm H)].
    eapply IH in H; [exact H|exact HH| |].
    + apply grouped_app; [exact G|]. exists (b_emit b * sqrt ranU), x, y, v, (rnd pos2). repeat split; assumption.
    + rewrite app_length, appended_length. unfold group_len. rewrite Hm. reflexivity.
  - injection H as <-. split; [exact G|]. apply Nat.ltb_ge in E. lia.
Qed.

(** The same without any condition on the numbers: whole groups of particles. *)
Definition made_any (b : bunch) (p : coords) : Prop := exists h x y v u, p = make_particle b h x y v u.
Lemma waterbag_loop_any : forall newton rnd inner fuel b pos made pt acc l,
  grouped b (made_any b) acc -> made = List.length acc ->
  waterbag_loop newton rnd inner fuel b pos made pt acc = Ok l ->
  grouped b (made_any b) l /\ (b_npart b <= List.length l)%nat.
Proof.
  intros newton rnd inner. induction fuel as [|fuel IH]; intros b pos made pt acc l G Hm H; cbn [waterbag_loop] in H; [discriminate|].
  destruct (made <? b_npart b)%nat eqn:E.
  - destruct (draw_positive rnd inner pos) as [[ranU pos1]| |] eqn:ED; cbn [rbind] in H; try discriminate.
    destruct (newton _ _) as [yMax| |]; cbn [rbind] in H; try discriminate.
    destruct (trial_loop _ _ _ _ _ _ _ _ _) as [[[pt2 value] pos2]| |] eqn:ET; cbn [rbind] in H; try discriminate.
    destruct value as [v|]; [|exact (IH _ _ _ _ _ _ G Hm H)].
    destruct (Rlt_dec v (b_emit b * sqrt ranU)) as [Hv|Hv]; [|exact (IH _ _ _ _ _ _ G Hm H)].
    destruct pt2 as [[x y]|]; [|discriminate].
    eapply IH in H; [exact H| |].
    + apply grouped_app; [exact G|]. eexists _, _, _, _, _. reflexivity.
    + rewrite app_length, appended_length. unfold group_len. rewrite Hm. reflexivity.
  - injection H as <-. split; [exact G|]. apply Nat.ltb_ge in E. lia.
Qed.

Lemma draw_two_pos : forall rnd fuel pos r, draw_two rnd fuel pos = Ok r -> 0 < fst r /\ exists i j, fst r = rnd i * rnd j.
Proof.
  intros rnd. induction fuel as [|f IH]; intros pos r H; cbn [draw_two] in H; [discriminate|].
  destruct (Rle_dec (rnd pos * rnd (pos + 1)%nat) 0) as [E|E]; [exact (IH _ _ H)|]. injection H as <-. cbn. split; [lra|eexists _, _; reflexivity].
Qed.

Lemma draw_H_spec : forall rnd inner fuel cutoff th pos r, draw_H rnd inner fuel cutoff th pos = Ok r ->
  fst r <= cutoff /\ (fst r = th \/ exists i j, 0 < rnd i * rnd j /\ fst r = - ln (rnd i * rnd j)).
Proof.
  intros rnd inner. induction fuel as [|f IH]; intros cutoff th pos r H; cbn [draw_H] in H; [discriminate|].
  destruct (Rlt_dec cutoff th) as [E|E].
  - destruct (draw_two rnd inner pos) as [[q pos1]| |] eqn:ED; cbn [rbind] in H; try discriminate.
    pose proof (draw_two_pos _ _ _ _ ED) as (Hq & i & j & Hij). cbn in Hq, Hij.
    apply IH in H as [H1 [H2|H2]]; split; try exact H1; right; [|exact H2].
    exists i, j. rewrite <- Hij. split; [exact Hq|]. rewrite H2. ring.
  - injection H as <-. cbn. split; [lra|left; reflexivity].
Qed.

Lemma grouped_emit : forall b e Q L, grouped (with_emit b e) Q L <-> grouped b Q L.
Proof.
  intros b e Q L. split; intros GG; induction GG.
  - constructor.
  - change (appended (with_emit b e) p) with (appended b p). constructor; assumption.
  - constructor.
  - change (appended b p) with (appended (with_emit b e) p). constructor; assumption.
Qed.

Lemma gaussian_loop_grouped : forall newton rnd inner fuel emit0 b (H : R -> Prop) pos made pt acc b' l,
  (forall th pos', draw_H rnd inner inner (b_cutoff b) (10 ^ 10) pos' = Ok th -> H (emit0 * fst th) /\ emit0 * fst th <= 10 ^ 10) ->
  grouped b (made_at b H) acc -> made = List.length acc ->
  gaussian_loop newton rnd inner fuel emit0 b pos made pt acc = (b', Ok l) ->
  grouped b (made_at b H) l /\ (b_npart b <= List.length l)%nat.
Proof.
  intros newton rnd inner. induction fuel as [|fuel IH]; intros emit0 b Hp pos made pt acc b' l HH G Hm H; cbn [gaussian_loop] in H; [discriminate|].
  destruct (made <? b_npart b)%nat eqn:E.
  - destruct (draw_H _ _ _ _ _ pos) as [[th pos1]| |] eqn:ED; try discriminate.
    destruct (HH _ _ ED) as [HH1 HH2]. cbn [fst] in HH1, HH2.
    destruct (newton _ _) as [yMax| |]; cbn [rbind] in H; try discriminate.
    destruct (trial_loop _ _ _ _ _ _ _ _ _) as [[[pt2 value] pos2]| |] eqn:ET; cbn [rbind] in H; try discriminate.
    destruct (trial_loop_spec _ _ _ _ _ _ _ _ _ _ ET) as (x & y & Hpt & Hpot); [left; exact HH2|]. cbn [fst snd] in Hpt, Hpot.
    subst pt2. change (compute_potential (with_emit b (emit0 * th)) x y) with (compute_potential b x y) in Hpot.
    assert (K : forall pos made pt acc, grouped b (made_at b Hp) acc -> made = List.length acc ->
      gaussian_loop newton rnd inner fuel emit0 (with_emit b (emit0 * th)) pos made pt acc = (b', Ok l) ->
      grouped b (made_at b Hp) l /\ (b_npart b <= List.length l)%nat).
    { intros p2 m2 t2 a2 G2 M2 H2. apply (IH _ _ Hp) in H2; [|exact HH|exact (proj2 (grouped_emit b (emit0 * th) (made_at b Hp) a2) G2)|exact M2].
      destruct H2 as [H2a H2b]. split; [|exact H2b]. exact (proj1 (grouped_emit b (emit0 * th) (made_at b Hp) l) H2a). }
    destruct value as [v|]; [|exact (K _ _ _ _ G Hm H)].
    destruct (Rlt_dec v (emit0 * th)) as [Hv|Hv]; [|exact (K _ _ _ _ G Hm H)].
    refine (K _ _ _ _ _ _ H).
    + apply (grouped_app b); [exact G|]. exists (emit0 * th), x, y, v, (rnd pos2). repeat split; assumption.
    + rewrite app_length, appended_length. unfold group_len. rewrite Hm. reflexivity.
  - injection H as <- <-. split; [exact G|]. apply Nat.ltb_ge in E. lia.
Qed.

Lemma gaussian_loop_any : forall newton rnd inner fuel emit0 b pos made pt acc b' l,
  grouped b (made_any b) acc -> made = List.length acc ->
  gaussian_loop newton rnd inner fuel emit0 b pos made pt acc = (b', Ok l) ->
  grouped b (made_any b) l /\ (b_npart b <= List.length l)%nat.
Proof.
  intros newton rnd inner. induction fuel as [|fuel IH]; intros emit0 b pos made pt acc b' l G Hm H; cbn [gaussian_loop] in H; [discriminate|].
  destruct (made <? b_npart b)%nat eqn:E.
  - destruct (draw_H _ _ _ _ _ pos) as [[th pos1]| |] eqn:ED; try discriminate.
    destruct (newton _ _) as [yMax| |]; cbn [rbind] in H; try discriminate.
    destruct (trial_loop _ _ _ _ _ _ _ _ _) as [[[pt2 value] pos2]| |] eqn:ET; cbn [rbind] in H; try discriminate.
    assert (K : forall pos made pt acc, grouped b (made_any b) acc -> made = List.length acc ->
      gaussian_loop newton rnd inner fuel emit0 (with_emit b (emit0 * th)) pos made pt acc = (b', Ok l) ->
      grouped b (made_any b) l /\ (b_npart b <= List.length l)%nat).
    { intros p2 m2 t2 a2 G2 M2 H2. apply IH in H2; [|exact (proj2 (grouped_emit b (emit0 * th) (made_any b) a2) G2)|exact M2].
      destruct H2 as [H2a H2b]. split; [|exact H2b]. exact (proj1 (grouped_emit b (emit0 * th) (made_any b) l) H2a). }
    destruct value as [v|]; [|exact (K _ _ _ _ G Hm H)].
    destruct (Rlt_dec v (emit0 * th)) as [Hv|Hv]; [|exact (K _ _ _ _ G Hm H)].
    destruct pt2 as [[x y]|]; [|discriminate].
    refine (K _ _ _ _ _ _ H).
    + apply (grouped_app b); [exact G|]. exists (emit0 * th), x, y, v, (rnd pos2). reflexivity.
    + rewrite app_length, appended_length. unfold group_len. rewrite Hm. reflexivity.
  - injection H as <- <-. split; [exact G|]. apply Nat.ltb_ge in E. lia.
Qed.

(** The loop writes no other attribute. *)
Lemma gaussian_loop_frame : forall newton rnd inner fuel emit0 b pos made pt acc b' r,
  gaussian_loop newton rnd inner fuel emit0 b pos made pt acc = (b', r) -> exists e, b' = with_emit b e.
Proof.
  intros newton rnd inner. induction fuel as [|fuel IH]; intros emit0 b pos made pt acc b' r H; cbn [gaussian_loop] in H.
  { injection H as <- _. exists (b_emit b). destruct b; reflexivity. }
  destruct (made <? b_npart b)%nat eqn:E.
  2:{ injection H as <- _. exists (b_emit b). destruct b; reflexivity. }
  destruct (draw_H _ _ _ _ _ pos) as [[th pos1]| |].
  2,3: injection H as <- _; exists (b_emit b); destruct b; reflexivity.
  destruct (rbind _ _) as [[[pt2 value] pos2]| |].
  2,3: injection H as <- _; eexists; reflexivity.
  assert (K : forall pos made pt acc, gaussian_loop newton rnd inner fuel emit0 (with_emit b (emit0 * th)) pos made pt acc = (b', r) -> exists e, b' = with_emit b e).
  { intros p2 m2 t2 a2 HK. apply IH in HK as [e ->]. exists e. destruct b; reflexivity. }
  destruct value as [v|]; [|exact (K _ _ _ _ H)].
  destruct (Rlt_dec v (emit0 * th)); [|exact (K _ _ _ _ H)].
  destruct pt2 as [[x y]|]; [exact (K _ _ _ _ H)|]. injection H as <- _. eexists; reflexivity.
Qed.

(** ** One particle *)
Lemma make_particle_ok : forall b h x y v u, 0 < u_betax (b_tw b) ->
  let s := sqrt (u_betax (b_tw b)) in
  let m := sqrt (2 * (h - v)) in
  make_particle b h x y v u =
  {| c_x := Some (x * s); c_px := Some ((m * cos (2 * PI * u) - u_alphax (b_tw b) * x) / s);
     c_y := Some (y * s); c_py := Some ((m * sin (2 * PI * u) - u_alphay (b_tw b) * y) / s) |}.
Proof.
  intros b h x y v u H s m. unfold make_particle, get_betax, get_betay, get_alphax, get_alphay.
  rewrite nsqrt_ok by lra. assert (Hs : 0 < s) by (apply sqrt_lt_R0; exact H). fold s. fold m.
  unfold ndiv. destruct (Req_EM_T s 0); [lra|]. reflexivity.
Qed.

Lemma zero_centroid_app : forall l k, zero_centroid l -> zero_centroid k -> zero_centroid (l ++ k).
Proof.
  intros l k (xs & pxs & ys & pys & (A1 & A2 & A3 & A4) & T1 & T2 & T3 & T4)
    (xs' & pxs' & ys' & pys' & (B1 & B2 & B3 & B4) & U1 & U2 & U3 & U4).
  exists (xs ++ xs'), (pxs ++ pxs'), (ys ++ ys'), (pys ++ pys'). unfold columns.
  rewrite !map_app, A1, A2, A3, A4, B1, B2, B3, B4, !total_app, T1, T2, T3, T4, U1, U2, U3, U4.
  repeat split; try reflexivity; ring.
Qed.

Lemma group_zero : forall b p, b_quiet b = true -> 0 < u_betax (b_tw b) -> made_any b p -> zero_centroid (appended b p).
Proof.
  intros b p Hq Hb (h & x & y & v & u & ->). rewrite make_particle_ok by exact Hb.
  unfold appended. rewrite Hq. unfold exact_centroids, fneg, fmap1. cbn [c_x c_px c_y c_py].
  eexists [_; _; _; _], [_; _; _; _], [_; _; _; _], [_; _; _; _]. unfold columns. cbn [map c_x c_px c_y c_py].
  repeat split. all: cbn; ring.
Qed.

Lemma grouped_zero : forall b l, b_quiet b = true -> 0 < u_betax (b_tw b) -> grouped b (made_any b) l -> zero_centroid l.
Proof.
  intros b l Hq Hb G. induction G.
  - exists [], [], [], []. repeat split; reflexivity.
  - apply zero_centroid_app; [exact IHG|]. apply group_zero; assumption.
Qed.

Lemma grouped_multiple : forall b Q l, b_quiet b = true -> grouped b Q l -> exists m, List.length l = (4 * m)%nat.
Proof.
  intros b Q l Hq G. induction G as [|l p G [m IH] HQ]; [exists 0%nat; reflexivity|].
  exists (S m). rewrite app_length, appended_length. unfold group_len. rewrite Hq. lia.
Qed.

Lemma store_ok : forall b l b', store b l = (b', Ok tt) ->
  b' = with_trans b l /\ List.length l = b_npart b /\ (0 < b_npart b)%nat.
Proof.
  intros b l b' H. unfold store in H. destruct (Nat.eqb (List.length l) (b_npart b)) eqn:E; cbn in H.
  - apply Nat.eqb_eq in E. destruct (Nat.eqb (List.length l) 0) eqn:E0; cbn in H; [discriminate|].
    apply Nat.eqb_neq in E0. injection H as <-. repeat split; lia.
  - discriminate.
Qed.
Lemma store_frame : forall b l b' r, store b l = (b', r) -> exists l', b' = with_trans b l'.
Proof.
  intros b l b' r H. unfold store in H. destruct (_ && _); injection H as <- _; [eexists; reflexivity|].
  exists (b_trans b). destruct b; reflexivity.
Qed.

(** What each routine leaves in the object. *)
Lemma KV_ok : forall newton rnd fuel b b', distribute_KV newton rnd fuel b = (b', Ok tt) ->
  let e := match b_kind b with Standard => 4 * b_emitx b | Nonlinear => b_emitx b end in
  exists l, b' = with_trans (with_emit b e) l /\ List.length l = b_npart b /\ b_emitx b = b_emity b /\
  grouped b (made_at b (eq e)) l.
Proof.
  intros newton rnd fuel b b' H e. unfold distribute_KV in H. fold e in H.
  destruct (Req_EM_T (b_emitx b) (b_emity b)) as [HE|HE]; [|discriminate].
  destruct (newton _ _) as [yMax| |]; try discriminate.
  destruct (kv_loop _ _ _ _ _ _ _ _) as [l| |] eqn:EL; try discriminate.
  apply store_ok in H as (-> & HL & Hp). exists l. split; [reflexivity|]. split; [exact HL|]. split; [exact HE|].
  apply kv_loop_grouped in EL as [G _]; [|constructor|reflexivity].
  apply grouped_emit in G. eapply grouped_weaken; [|exact G].
  intros p (h & x & y & v & u & H1 & H2 & H3 & H4). exists h, x, y, v, u. repeat split; assumption.
Qed.

Lemma made_at_any : forall b H p, made_at b H p -> made_any b p.
Proof. intros b H p (h & x & y & v & u & _ & _ & _ & ->). exists h, x, y, v, u. reflexivity. Qed.

Lemma routine_ok : forall newton rnd f b b', quiet_routine newton rnd f -> f b = (b', Ok tt) ->
  exists l e, b' = with_trans (with_emit b e) l /\ List.length l = b_npart b /\ grouped b (made_any b) l.
Proof.
  intros newton rnd f b b' [[fuel ->]|[(inner & fuel & ->)|(inner & fuel & ->)]] H.
  - apply KV_ok in H as (l & -> & HL & _ & G). exists l. eexists. split; [reflexivity|]. split; [exact HL|].
    eapply grouped_weaken; [|exact G]. apply made_at_any.
  - unfold distribute_waterbag in H. destruct (waterbag_loop _ _ _ _ _ _ _ _ _) as [l| |] eqn:EL; try discriminate.
    apply store_ok in H as (-> & HL & _). exists l, (b_emit b). split; [destruct b; reflexivity|]. split; [exact HL|].
    apply waterbag_loop_any in EL as [G _]; [exact G|constructor|reflexivity].
  - unfold distribute_Gaussian_nonlinear in H. destruct (gaussian_loop _ _ _ _ _ _ _ _ _ _) as [b1 [l| |]] eqn:EL; try discriminate.
    destruct (gaussian_loop_frame _ _ _ _ _ _ _ _ _ _ _ _ EL) as [e He]. subst b1.
    apply store_ok in H as (-> & HL & _). exists l, (b_emit b). split; [destruct b; reflexivity|]. split; [exact HL|].
    apply gaussian_loop_any in EL as [G _]; [exact G|constructor|reflexivity].
Qed.

(** C122: what phase advances and tunes (rsbeams/rsptcls/phases.py) do not depend on. *)
From Coq Require Import List Reals Lra Lia Psatz Bool Arith ZArith.
From Verif Require Import PyBase Phase_Model Phase_Proofs.
Import ListNotations.
Open Scope R_scope.

Definition times (a : R) (p : R * R) : R * R := (a * fst p, a * snd p).

Lemma arctan2_times : forall a y x, 0 < a -> arctan2 (a * y) (a * x) = arctan2 y x.
Proof.
  intros a y x A. unfold arctan2.
  assert (Q : x <> 0 -> a * y / (a * x) = y / x) by (intros X; field; split; lra).
  destruct (Rlt_dec 0 x) as [X|X]; destruct (Rlt_dec 0 (a * x)) as [X'|X']; try (exfalso; nra); [rewrite Q by lra; reflexivity|].
  destruct (Rlt_dec x 0) as [Y|Y]; destruct (Rlt_dec (a * x) 0) as [Y'|Y']; try (exfalso; nra).
  - rewrite Q by lra. destruct (Rle_dec 0 y); destruct (Rle_dec 0 (a * y)); try reflexivity; exfalso; nra.
  - destruct (Rlt_dec 0 y); destruct (Rlt_dec 0 (a * y)); try reflexivity; try (exfalso; nra). destruct (Rlt_dec y 0); destruct (Rlt_dec (a * y) 0); try reflexivity; exfalso; nra.
Qed.
(** Only the directions of the two vectors matter. *)
Theorem C122_directions : forall a b p q clockwise, 0 < a -> 0 < b -> phase_advance (times a p) (times b q) clockwise = phase_advance p q clockwise.
Proof. intros a b p q cw A B. unfold phase_advance, times. cbn [fst snd]. rewrite !arctan2_times by assumption. reflexivity. Qed.
Print Assumptions C122_directions.

(** Advances add up, modulo a full turn, and going back undoes going forth. *)
Theorem C122_sum : forall p q r,
  (phase_advance p q true + phase_advance q r true = phase_advance p r true \/ phase_advance p q true + phase_advance q r true = phase_advance p r true + 2 * PI) /\
  (phase_advance p q true = 0 /\ phase_advance q p true = 0 \/ 0 < phase_advance p q true /\ phase_advance q p true = phase_advance p q false).
Proof.
  intros [x y] [u v] [s t]. unfold phase_advance. cbn [fst snd negb]. pose proof (atan2_range y x) as A. pose proof (atan2_range v u) as B. pose proof (atan2_range t s) as C.
  set (a := arctan2 y x) in *. set (b := arctan2 v u) in *. set (c := arctan2 t s) in *. split.
  - destruct (Rlt_dec (a - b) 0); destruct (Rlt_dec (b - c) 0); destruct (Rlt_dec (a - c) 0); lra.
  - destruct (Rlt_dec (a - b) 0); destruct (Rlt_dec (b - a) 0); lra.
Qed.
Print Assumptions C122_sum.

(** ** tunes *)
Lemma dft_from_times : forall a n l k j, dft_from n k j (map (Rmult a) l) = (a * fst (dft_from n k j l), a * snd (dft_from n k j l)).
Proof. intros a n l. induction l as [|x l IH]; intros k j; cbn [map dft_from fst snd]; [f_equal; ring|]. rewrite IH. cbn [fst snd]. f_equal; ring. Qed.
Lemma spectrum_times : forall a l, spectrum (map (Rmult a) l) = map (Rmult (Rabs a)) (spectrum l).
Proof.
  intros a l. unfold spectrum, dft. rewrite map_length, map_map. apply map_ext. intros j. rewrite dft_from_times. cbn [fst snd].
  replace ((a * fst (dft_from (length l) 0 j l)) ^ 2 + (a * snd (dft_from (length l) 0 j l)) ^ 2) with (Rsqr a * (fst (dft_from (length l) 0 j l) ^ 2 + snd (dft_from (length l) 0 j l) ^ 2)) by (unfold Rsqr; ring).
  rewrite sqrt_mult; [|apply Rle_0_sqr|apply Rplus_le_le_0_compat; apply pow2_ge_0]. rewrite sqrt_Rsqr_abs. reflexivity.
Qed.
Lemma argmax_times : forall a l, 0 < a -> argmax (map (Rmult a) l) = argmax l.
Proof.
  intros a l A. assert (G : forall l pos best v, argmax_loop (map (Rmult a) l) pos best (a * v) = argmax_loop l pos best v).
  { clear l. induction l as [|x l IH]; intros pos best v; [reflexivity|]. cbn [map argmax_loop]. destruct (Rlt_dec v x); destruct (Rlt_dec (a * v) (a * x)); try (exfalso; nra); apply IH. }
  destruct l as [|x l]; [reflexivity|]. cbn [map argmax]. apply G.
Qed.
Lemma slice_times : forall a l i f, py_slice (map (Rmult a) l) i f = map (Rmult a) (py_slice l i f).
Proof. intros. unfold py_slice. rewrite map_length, skipn_map, firstn_map. reflexivity. Qed.
(** The tune does not depend on the size or the sign of the oscillation. *)
Theorem C122_amplitude : forall a x t_i t_f, a <> 0 -> tune_fft (map (Rmult a) x) t_i t_f = tune_fft x t_i t_f.
Proof.
  intros a x ti tf A. unfold tune_fft. rewrite map_length. set (f := match tf with None => _ | Some _ => _ end). rewrite slice_times, map_length, spectrum_times, argmax_times by (apply Rabs_pos_lt; exact A). reflexivity.
Qed.
Print Assumptions C122_amplitude.

Lemma dft_from_app : forall n l r k j, dft_from n k j (l ++ r) = (fst (dft_from n k j l) + fst (dft_from n (k + length l) j r), snd (dft_from n k j l) + snd (dft_from n (k + length l) j r)).
Proof.
  intros n l r. induction l as [|x l IH]; intros k j; cbn [app dft_from length fst snd].
  - rewrite Nat.add_0_r. destruct (dft_from n k j r). cbn [fst snd]. f_equal; ring.
  - rewrite IH. cbn [fst snd]. replace (k + S (length l))%nat with (S k + length l)%nat by lia. f_equal; ring.
Qed.
Lemma dft_rev : forall n j l k m, let w t := 2 * PI * INR j * t / INR n in let T := w (INR (m + k + length l) - 1) in
  fst (dft_from n k j (rev l)) = cos T * fst (dft_from n m j l) - sin T * snd (dft_from n m j l) /\
  snd (dft_from n k j (rev l)) = - sin T * fst (dft_from n m j l) - cos T * snd (dft_from n m j l).
Proof.
  intros n j l. induction l as [|x l IH]; intros k m w T.
  - cbn [rev dft_from fst snd]. split; ring.
  - cbn [rev]. rewrite dft_from_app, rev_length. cbn [dft_from fst snd]. destruct (IH k (S m)) as [F G]. fold w in F, G. replace (S m + k + length l)%nat with (m + k + length (x :: l))%nat in F, G by (cbn; lia). fold T in F, G.
    rewrite F, G. assert (E : 2 * PI * INR j * INR (k + length l) / INR n = T - 2 * PI * INR j * INR m / INR n).
    { unfold T, w. cbn [length]. replace (m + k + S (length l))%nat with (S (m + (k + length l))) by lia. rewrite S_INR, !plus_INR. unfold Rdiv. ring. }
    rewrite E, cos_minus, sin_minus. change (2 * PI * INR j * (INR (m + k + length (x :: l)) - 1) / INR n) with T. split; ring.
Qed.
Lemma spectrum_rev : forall l, spectrum (rev l) = spectrum l.
Proof.
  intros l. unfold spectrum, dft. rewrite rev_length. apply map_ext. intros j. destruct (dft_rev (length l) j l 0 0) as [F S]. cbv zeta in F, S. rewrite F, S. f_equal.
  set (T := 2 * PI * INR j * _ / _). pose proof (sin2_cos2 T) as P. unfold Rsqr in P. set (a := fst _). set (b := snd _). set (c := cos T) in *. set (s := sin T) in *.
  transitivity ((s * s + c * c) * (a ^ 2 + b ^ 2)); [ring|rewrite P; ring].
Qed.
Lemma whole : forall l : list R, py_slice l 0 (Z.of_nat (length l)) = l.
Proof.
  intros l. unfold py_slice, slice_bound. cbn [Z.ltb Z.compare]. replace (Z.to_nat (Z.min (Z.of_nat (length l)) (Z.max 0 0))) with 0%nat by lia.
  destruct (Z.ltb_spec (Z.of_nat (length l)) 0); [lia|]. replace (Z.to_nat (Z.min (Z.of_nat (length l)) (Z.max 0 (Z.of_nat (length l))))) with (length l) by lia.
  cbn [skipn]. rewrite Nat.sub_0_r. apply firstn_all.
Qed.
(** A record read backwards has the same tune. *)
Theorem C122_backwards : forall x, tune_fft (rev x) 0 None = tune_fft x 0 None.
Proof. intros x. unfold tune_fft. rewrite !whole, rev_length, spectrum_rev. reflexivity. Qed.
Print Assumptions C122_backwards.

(** The tune is that of the turns asked for: the turns before and after them do not matter, and
    negative numbers count from the last turn. *)
Lemma slice_middle : forall (a b c : list R) ti tf, b <> [] ->
  ti = Z.of_nat (length a) \/ (ti < 0 /\ ti = - Z.of_nat (length b + length c))%Z -> tf = Z.of_nat (length a + length b) \/ (tf < 0 /\ tf = - Z.of_nat (length c))%Z -> py_slice (a ++ b ++ c) ti tf = b.
Proof.
  intros a b c ti tf Nb Hi Hf. unfold py_slice. rewrite !app_length.
  assert (Ei : slice_bound (length a + (length b + length c)) ti = length a) by (unfold slice_bound; destruct (Z.ltb_spec ti 0); lia).
  assert (Ef : slice_bound (length a + (length b + length c)) tf = (length a + length b)%nat) by (unfold slice_bound; destruct (Z.ltb_spec tf 0); lia).
  rewrite Ei, Ef. replace (length a + length b - length a)%nat with (length b) by lia. rewrite skipn_app, skipn_all, Nat.sub_diag. cbn [skipn app].
  rewrite firstn_app, firstn_all, Nat.sub_diag. cbn [firstn]. apply app_nil_r.
Qed.
Theorem C122_turns : forall a b c t_i t_f, b <> [] ->
  t_i = Z.of_nat (length a) \/ (t_i < 0 /\ t_i = - Z.of_nat (length b + length c))%Z ->
  t_f = Some (Z.of_nat (length a + length b)) \/ (c <> [] /\ t_f = Some (- Z.of_nat (length c))%Z) \/ (c = [] /\ t_f = None) ->
  tune_fft (a ++ b ++ c) t_i t_f = tune_fft b 0 None.
Proof.
  intros a b c ti tf Nb Hi Hf. unfold tune_fft. rewrite whole.
  assert (Lb : (0 < length b)%nat) by (destruct b; [congruence|cbn; lia]).
  assert (E : (match tf with None => Z.of_nat (length (a ++ b ++ c)) | Some z => if (z =? 0)%Z then Z.of_nat (length (a ++ b ++ c)) else z end) = Z.of_nat (length a + length b) \/
    ((match tf with None => Z.of_nat (length (a ++ b ++ c)) | Some z => if (z =? 0)%Z then Z.of_nat (length (a ++ b ++ c)) else z end) < 0 /\
     (match tf with None => Z.of_nat (length (a ++ b ++ c)) | Some z => if (z =? 0)%Z then Z.of_nat (length (a ++ b ++ c)) else z end) = - Z.of_nat (length c))%Z).
  { destruct Hf as [->|[[Nc ->]|[-> ->]]].
    - left. destruct (Z.eqb_spec (Z.of_nat (length a + length b)) 0); lia.
    - right. assert (0 < length c)%nat by (destruct c; [congruence|cbn; lia]). destruct (Z.eqb_spec (- Z.of_nat (length c)) 0); lia.
    - left. rewrite app_nil_r, app_length. reflexivity. }
  match goal with |- context [py_slice _ _ ?f] => replace f with (match tf with None => Z.of_nat (length (a ++ b ++ c)) | Some z => if (z =? 0)%Z then Z.of_nat (length (a ++ b ++ c)) else z end) by (destruct tf as [[| |]|]; reflexivity) end.
  rewrite (slice_middle a b c _ _ Nb Hi E). reflexivity.
Qed.
Print Assumptions C122_turns.

Example C122_applies : exists q, tune_fft [1; 2; 5] 0 None = Ok q /\ [1; 2; 5] <> rev [1; 2; 5] /\ phase_advance (times 2 (0, 1)) (times 3 (1, 0)) true = PI / 2 /\ (2 <> 0)%R.
Proof.
  unfold tune_fft. rewrite whole. cbn [length Nat.eqb]. eexists. split; [reflexivity|]. split; [cbn; intros E; injection E; lra|]. split; [|lra].
  rewrite C122_directions by lra. pose proof PI_RGT_0. unfold phase_advance, arctan2. cbn [fst snd negb]. destruct (Rlt_dec 0 0); [lra|]. destruct (Rlt_dec 0 1); [|lra]. replace (0 / 1) with 0 by field. rewrite atan_0. destruct (Rlt_dec _ _); lra.
Qed.
Example C122_turns_apply : forall u v, tune_fft ([u] ++ [1; 2; 5] ++ [v]) (-4) (Some (-1)%Z) = tune_fft [1; 2; 5] 0 None.
Proof. intros u v. apply C122_turns; [discriminate|right; split; reflexivity|right; left; split; [discriminate|reflexivity]]. Qed.

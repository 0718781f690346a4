(** Properties of rsplot/util.py. *)
From Coq Require Import List Reals Bool Arith String Ascii ZArith Lia Lra.
From Verif Require Import PyBase PyDict Sample_Model Plot_Model Plot_Spec Plot_Proofs.
Import ListNotations.
Open Scope R_scope.

(** A number of bins as the caller gives it: any real whose integer part is n. *)
Definition bins_given (b : R) (n : nat) : Prop := INR n <= b < INR n + 1.

Lemma py_int_bins : forall b n, bins_given b n -> py_int b = Z.of_nat n.
Proof.
  intros b n [H1 H2]. unfold py_int. pose proof (pos_INR n).
  destruct (Rlt_dec b 0); [lra|].
  pose proof (base_Int_part b) as [A B]. rewrite INR_IZR_INZ in H1, H2.
  assert (Int_part b < Z.of_nat n + 1)%Z by (apply lt_IZR; rewrite plus_IZR; lra).
  assert (Z.of_nat n < Int_part b + 1)%Z by (apply lt_IZR; rewrite plus_IZR; lra). lia.
Qed.

(** C32: for every non-empty array of arrival times, every charge and every positive number n
    of bins the result consists of n bin centres and n finite currents.  The bins have one
    width w > 0 and cover the times (measured from their average) from the first to the last;
    the current of bin i is the charge of the particles in it divided by w, and the sum of
    current times width is the total charge. *)
Theorem C32_charge : forall times charge b n, times <> [] -> (1 <= n)%nat -> bins_given b n ->
  exists lo hi centres currents counts,
    let w := (hi - lo) / INR n in
    get_current_from_t times charge b = Ok (centres, map Some currents) /\
    data_range (map (fun t => t - average times) times) lo hi /\ 0 < w /\
    centres = map (fun i => lo + (INR i + / 2) * w) (seq 0 n) /\
    List.length currents = n /\ List.length counts = n /\
    (forall i, (i < n)%nat ->
       num (in_bin lo w n i) (map (fun t => t - average times) times) (nth i counts 0%nat) /\
       nth i currents 0 = charge / INR (List.length times) * INR (nth i counts 0%nat) / w) /\
    sum (map (fun c => c * w) currents) = charge.
Proof.
  intros times charge b n Ht Hn Hb.
  assert (HN : INR (List.length times) <> 0) by (apply not_0_INR; destruct times; [congruence|discriminate]).
  unfold get_current_from_t.
  unfold pdiv. destruct (Req_EM_T (INR (List.length times)) 0) as [E|_]; [contradiction|]. cbn [rbind].
  rewrite (py_int_bins b n Hb).
  assert (Ha : np_average times = average times) by (unfold np_average, average; rewrite np_sum_sum; reflexivity).
  rewrite Ha. set (data := map (fun t => t - average times) times).
  assert (Hd : data <> []) by (unfold data; destruct times; [congruence|discriminate]).
  destruct (np_histogram_ok data (Z.of_nat n) ltac:(lia) Hd) as (lo & hi & HR & HH).
  cbn zeta in HH. rewrite Nat2Z.id in HH. rewrite HH. cbn [rbind].
  destruct (data_range_in _ _ _ HR) as [Hlt Hin].
  set (counts := map (fun i => List.length (filter (in_bin_b (edge lo hi n) n i) data)) (seq 0 n)).
  set (w := (hi - lo) / INR n).
  assert (Hw : 0 < w) by (apply Rdiv_lt_0_compat; [lra|apply lt_0_INR; lia]).
  set (q := charge / INR (List.length times)).
  exists lo, hi, (map (fun i => lo + (INR i + / 2) * w) (seq 0 n)), (map (fun c => INR c * q / w) counts), counts.
  assert (Hbin : nth 1 (map (edge lo hi n) (seq 0 (S n))) 0 - nth 0 (map (edge lo hi n) (seq 0 (S n))) 0 = w).
  { rewrite !nth_edges by lia. unfold edge, w. cbn. ring. }
  rewrite Hbin, central_spec by lia. fold w.
  split.
  { f_equal. f_equal. rewrite map_map. apply map_ext. intros c. unfold ndiv.
    destruct (Req_EM_T w 0); [lra|reflexivity]. }
  split; [exact HR|]. split; [exact Hw|]. split; [reflexivity|].
  assert (HL : List.length counts = n) by (unfold counts; rewrite map_length, seq_length; reflexivity).
  split; [rewrite map_length; exact HL|]. split; [exact HL|].
  split.
  - intros i Hi.
    assert (Hc : nth i counts 0%nat = List.length (filter (in_bin_b (edge lo hi n) n i) data)).
    { unfold counts. set (f := fun i0 : nat => List.length (filter (in_bin_b (edge lo hi n) n i0) data)).
      rewrite (nth_indep _ 0%nat (f 0%nat)) by (rewrite map_length, seq_length; exact Hi).
      rewrite (map_nth f), seq_nth by exact Hi. reflexivity. }
    split.
    + rewrite Hc. apply num_filter. intros x. apply in_bin_b_spec. lia.
    + set (f := fun c : nat => INR c * q / w).
      rewrite (nth_indep _ 0 (f 0%nat)) by (rewrite map_length; lia).
      rewrite (map_nth f). unfold f, q. field. split; [exact HN|lra].
  - rewrite map_map, sum_counts by lra.
    assert (HT : list_sum counts = List.length times).
    { unfold counts. rewrite counts_total; [unfold data; apply map_length|lia| |].
      - intros i Hi. apply edge_mono; assumption.
      - intros x Hx. rewrite edge_0, edge_n by lia. apply Hin; exact Hx. }
    rewrite HT. unfold q. field. exact HN.
Qed.
Print Assumptions C32_charge.
Example C32_charge_applies : ([1; 2; 4] : list R) <> [] /\ (1 <= 2)%nat /\ bins_given 2.5 2.
Proof. split; [discriminate|]. split; [lia|]. unfold bins_given. cbn. lra. Qed.

(** C32: the same bins and counts, without the scaling, for get_histogram_points: no particle
    is lost. *)
Theorem C32_histogram : forall data b n, data <> [] -> (1 <= n)%nat -> bins_given b n ->
  exists lo hi centres counts,
    let w := (hi - lo) / INR n in
    get_histogram_points data b = Ok (centres, counts) /\
    data_range data lo hi /\ 0 < w /\
    centres = map (fun i => lo + (INR i + / 2) * w) (seq 0 n) /\
    List.length counts = n /\
    (forall i, (i < n)%nat -> num (in_bin lo w n i) data (nth i counts 0%nat)) /\
    list_sum counts = List.length data.
Proof.
  intros data b n Hd Hn Hb. unfold get_histogram_points. rewrite (py_int_bins b n Hb).
  destruct (np_histogram_ok data (Z.of_nat n) ltac:(lia) Hd) as (lo & hi & HR & HH).
  cbn zeta in HH. rewrite Nat2Z.id in HH. rewrite HH. cbn [rbind].
  destruct (data_range_in _ _ _ HR) as [Hlt Hin].
  set (counts := map (fun i => List.length (filter (in_bin_b (edge lo hi n) n i) data)) (seq 0 n)).
  exists lo, hi, (map (fun i => lo + (INR i + / 2) * ((hi - lo) / INR n)) (seq 0 n)), counts.
  rewrite central_spec by lia. split; [reflexivity|]. split; [exact HR|].
  split; [apply Rdiv_lt_0_compat; [lra|apply lt_0_INR; lia]|]. split; [reflexivity|].
  assert (HL : List.length counts = n) by (unfold counts; rewrite map_length, seq_length; reflexivity).
  split; [exact HL|]. split.
  - intros i Hi.
    assert (Hc : nth i counts 0%nat = List.length (filter (in_bin_b (edge lo hi n) n i) data)).
    { unfold counts. set (f := fun i0 : nat => List.length (filter (in_bin_b (edge lo hi n) n i0) data)).
      rewrite (nth_indep _ 0%nat (f 0%nat)) by (rewrite map_length, seq_length; exact Hi).
      rewrite (map_nth f), seq_nth by exact Hi. reflexivity. }
    rewrite Hc. apply num_filter. intros x. apply in_bin_b_spec. lia.
  - unfold counts. rewrite counts_total; [reflexivity|lia| |].
    + intros i Hi. apply edge_mono; assumption.
    + intros x Hx. rewrite edge_0, edge_n by lia. apply Hin; exact Hx.
Qed.
Print Assumptions C32_histogram.
Example C32_histogram_applies : ([1; 1; 7] : list R) <> [] /\ (1 <= 3)%nat /\ bins_given 3 3.
Proof. split; [discriminate|]. split; [lia|]. unfold bins_given. cbn. lra. Qed.

(** C32: no bins, or no particles, is reported as an error. *)
Theorem C32_errors : forall times charge b,
  (b < 1 -> times <> [] -> get_current_from_t times charge b = Err ValueError) /\
  get_current_from_t [] charge b = Err ZeroDivisionError.
Proof.
  intros times charge b. split.
  - intros Hb Ht. unfold get_current_from_t, pdiv.
    destruct (Req_EM_T (INR (List.length times)) 0) as [E|_].
    { apply (INR_eq _ 0) in E. destruct times; [congruence|discriminate]. }
    cbn [rbind]. unfold np_histogram.
    assert (L : (py_int b < 1)%Z).
    { unfold py_int. destruct (Rlt_dec b 0) as [N|N].
      - pose proof (base_Int_part (- b)) as [_ H].
        assert (-1 < Int_part (- b))%Z by (apply lt_IZR; lra). lia.
      - pose proof (base_Int_part b) as [H _]. apply lt_IZR. lra. }
    apply Z.ltb_lt in L. rewrite L. reflexivity.
  - unfold get_current_from_t, pdiv. cbn. destruct (Req_EM_T 0 0); [reflexivity|congruence].
Qed.
Print Assumptions C32_errors.

(* ------------------------------------------------------------------ *)

(** C33: a symbol whose letters all have a glyph in the alphabet chosen for them, and whose
    codes are the documented ones, gives its LaTeX text between dollar signs (or without them
    when matplotlib is off); and these are the only symbols for which a string is returned.
    The full property is false: see the refutations below. *)
Theorem C33_symbols_partial : forall l mpl, proper l ->
  (forall s, latex Roman l s ->
     format_symbol (spelled l) mpl = Ok (if mpl then ("$" ++ s ++ "$")%string else s)) /\
  (forall out, format_symbol (spelled l) mpl = Ok out -> exists s, latex Roman l s).
Proof.
  intros l mpl P. split.
  - intros s L. unfold format_symbol. change None with (table Roman).
    rewrite (format_latex Roman l s L P). cbn [rbind]. f_equal.
    destruct mpl; cbn [dollar]; [reflexivity|]. rewrite append_nil. reflexivity.
  - intros out H. unfold format_symbol in H. change None with (table Roman) in H.
    destruct (format_loop (spelled l) false (table Roman) (dollar mpl)) as [o|e|] eqn:E; try discriminate.
    apply format_inv in E; [|exact P]. destruct E as (s & L & _). exists s; exact L.
Qed.
Print Assumptions C33_symbols_partial.
Example C33_symbols_applies :
  let l := [Code "g"; Letter "b"; Code "r"; Code "b"; Letter "x"; Code "n"] in
  proper l /\ spelled l = "$gb$r$bx$n"%string /\ latex Roman l "\beta_{x}".
Proof.
  cbn. split; [intros H; cbn in H; intuition discriminate|]. split; [reflexivity|].
  apply l_greek. apply (l_letter Greek "b" "\beta" _ "_{x}"); [constructor; vm_compute; tauto|].
  apply l_roman. apply (l_sub Roman _ "x}"). apply (l_letter Roman "x" "x" _ "}"); [constructor|].
  apply (l_base Roman _ ""). constructor.
Qed.

(** C33: letters without codes are kept in order, whatever they are. *)
Theorem C33_plain : forall text, ~ In "$"%char (list_ascii_of_string text) ->
  format_symbol text true = Ok ("$" ++ text ++ "$")%string /\ format_symbol text false = Ok text.
Proof.
  intros text H.
  assert (G : text = spelled (map Letter (list_ascii_of_string text)) /\ latex Roman (map Letter (list_ascii_of_string text)) text /\
              proper (map Letter (list_ascii_of_string text))).
  { induction text as [|c r IH]; cbn.
    - split; [reflexivity|]. split; [constructor|intros []].
    - destruct IH as (E & L & P); [intros I; apply H; right; exact I|].
      split; [congruence|]. split.
      + apply (l_letter Roman c (String c "") _ r); [constructor|exact L].
      + intros [I|I]; [injection I as ->; apply H; left; reflexivity|exact (P I)]. }
  destruct G as (E & L & P).
  destruct (C33_symbols_partial _ true P) as [A _], (C33_symbols_partial _ false P) as [B _].
  pose proof (A text L) as A'. pose proof (B text L) as B'. rewrite <- E in A', B'. split; assumption.
Qed.
Print Assumptions C33_plain.
Example C33_plain_applies : ~ In "$"%char (list_ascii_of_string "S11").
Proof. cbn. intuition discriminate. Qed.

(** C33: the text between the dollar signs is one LaTeX formula: it contains no dollar sign,
    and its braces are balanced when every superscript and subscript is ended with $n and the
    letters are not braces themselves. *)
Theorem C33_balanced_partial : forall l out, proper l -> no_brace_letters l -> closed_scripts l ->
  format_symbol (spelled l) true = Ok out ->
  exists s, out = ("$" ++ s ++ "$")%string /\ ~ In "$"%char (list_ascii_of_string s) /\ balanced s.
Proof.
  intros l out P B C H.
  destruct (C33_symbols_partial l true P) as [A I]. destruct (I out H) as [s L].
  rewrite (A s L) in H. injection H as <-. exists s. split; [reflexivity|].
  split; [eapply latex_dollar; eassumption|].
  unfold balanced. rewrite (latex_depth _ _ _ L B). exact C.
Qed.
Print Assumptions C33_balanced_partial.
Example C33_balanced_applies :
  let l := [Letter "x"; Code "b"; Code "g"; Letter "b"; Code "e"; Code "n"] in
  proper l /\ no_brace_letters l /\ closed_scripts l /\ format_symbol (spelled l) true = Ok "$x_{\beta}$"%string.
Proof.
  cbn. repeat split; try reflexivity; intros H; cbn in H; intuition discriminate.
Qed.

(** C33 is false for a letter without a Greek counterpart, such as a digit, a blank or a bracket:
    the call raises TypeError. *)
Theorem C33_letter_refuted : exists l, proper l /\ (forall c, In (Code c) l -> In c ["g"; "r"]%char) /\
  spelled l = "$gs1$r"%string /\ format_symbol (spelled l) true = Err TypeError.
Proof.
  exists [Code "g"; Letter "s"; Letter "1"; Code "r"].
  split; [intros H; cbn in H; intuition discriminate|].
  split; [intros c H; cbn in H; cbn; intuition congruence|]. split; reflexivity.
Qed.
Print Assumptions C33_letter_refuted.

(** C33 is false when a subscript follows a superscript: $b does not return to the base line,
    so the braces do not match. *)
Theorem C33_scripts_refuted : exists l s, proper l /\ no_brace_letters l /\ spelled l = "x$a2$b0$n"%string /\
  format_symbol (spelled l) true = Ok ("$" ++ s ++ "$")%string /\ ~ balanced s.
Proof.
  exists [Letter "x"; Code "a"; Letter "2"; Code "b"; Letter "0"; Code "n"], "x^{2_{0}"%string.
  split; [intros H; cbn in H; intuition discriminate|].
  split; [split; intros H; cbn in H; intuition discriminate|].
  split; [reflexivity|]. split; [reflexivity|]. unfold balanced. cbn. discriminate.
Qed.
Print Assumptions C33_scripts_refuted.

(** C33: every string is a symbol possibly followed by a lone dollar sign, which is dropped; so
    the theorems above cover all strings, and format_symbol never does anything but return a
    string, raise KeyError (unknown code) or TypeError (unknown letter). *)
Theorem C33_all_strings : forall text mpl,
  (exists l, proper l /\ (text = spelled l \/ text = (spelled l ++ "$")%string) /\
     format_symbol text mpl = format_symbol (spelled l) mpl) /\
  (format_symbol text mpl = Err KeyError \/ format_symbol text mpl = Err TypeError \/
   exists out, format_symbol text mpl = Ok out).
Proof.
  intros text mpl. split.
  - destruct (spelled_all text) as (l & P & E). exists l. split; [exact P|]. split; [exact E|].
    destruct E as [->| ->]; [reflexivity|]. unfold format_symbol. change None with (table Roman).
    rewrite format_tail by exact P. reflexivity.
  - unfold format_symbol.
    assert (G : forall d m p acc, format_loop d m p acc = Err KeyError \/ format_loop d m p acc = Err TypeError \/
                exists out, format_loop d m p acc = Ok out).
    { induction d as [|c d IH]; intros m p acc; cbn [format_loop]; [right; right; eexists; reflexivity|].
      destruct m.
      - destruct (dget ascii_dec MODE c); [apply IH|]. destruct (dget ascii_dec PROCESS c); [apply IH|left; reflexivity].
      - destruct (Ascii.eqb c formatter_char); [apply IH|]. destruct p as [t|]; [|apply IH].
        destruct (process_character c t); [apply IH|right; left; reflexivity]. }
    destruct (G text false None (dollar mpl)) as [E|[E|[o E]]]; rewrite E; cbn [rbind]; eauto.
Qed.
Print Assumptions C33_all_strings.

(* ------------------------------------------------------------------ *)

(** C83: for every non-empty table the profile plot draws one rectangle per magnet row, in
    order, from the end of the previous row to its own end (times the scale), centred on the
    axis, in the colour of the magnet's family, and nothing for other rows; the base line ends
    at the last position.  An empty table is an IndexError. *)
Theorem C83_profile : forall rows scale height,
  (forall s_last ty before, rows = before ++ [(s_last, ty)] ->
     exists l, pieces 0 rows l /\
       plot_profile rows scale height =
       Ok (s_last * scale,
           map (fun '(a, b, c) => mkRect (a * scale) (- height / 2) ((b - a) * scale) height c) l)) /\
  plot_profile [] scale height = Err IndexError.
Proof.
  intros rows scale height. split; [|reflexivity].
  intros s_last ty before E. unfold plot_profile.
  assert (Hr : @rev row rows = (s_last, ty) :: rev before) by (unfold row; rewrite E, rev_app_distr; reflexivity).
  rewrite Hr.
  destruct (profile_loop_spec rows scale height 0) as (l & P & H). rewrite H. cbn [rbind].
  exists l. split; [exact P|]. f_equal. f_equal. apply map_ext. intros [[a b] c]. f_equal. ring.
Qed.
Print Assumptions C83_profile.
Example C83_profile_applies :
  let rows := [(1, "DRIFT"); (3/2, "KQUAD"); (4, "CSBEND")]%string in
  rows = [(1, "DRIFT"); (3/2, "KQUAD")]%string ++ [(4, "CSBEND"%string)] /\
  pieces 0 rows [(1, 3/2, "tab:green"%string); (3/2, 4, "tab:red"%string)].
Proof.
  cbn. split; [reflexivity|].
  apply p_other; [intros c H; inversion H|].
  apply p_magnet; [constructor|]. apply p_magnet; [constructor|]. constructor.
Qed.

(** C83: with positions that never decrease and a scale that is not negative the rectangles lie
    side by side without overlap, between 0 and the end of the base line. *)
Theorem C83_disjoint : forall rows scale height top rects, 0 <= scale ->
  (forall i j si ti sj tj, (i <= j)%nat -> nth_error rows i = Some (si, ti) -> nth_error rows j = Some (sj, tj) -> 0 <= si <= sj) ->
  plot_profile rows scale height = Ok (top, rects) ->
  (forall r, In r rects -> 0 <= r_x r /\ 0 <= r_w r /\ r_x r + r_w r <= top) /\
  (forall i j r r', (i < j)%nat -> nth_error rects i = Some r -> nth_error rects j = Some r' -> r_x r + r_w r <= r_x r').
Proof.
  intros rows scale height top rects Hs M H.
  destruct (rev rows) as [|[sl ty] b] eqn:E.
  { apply (f_equal (@rev _)) in E. rewrite rev_involutive in E. cbn in E. subst rows. cbn in H. discriminate. }
  apply (f_equal (@rev _)) in E. rewrite rev_involutive in E. cbn in E.
  destruct (C83_profile rows scale height) as [A _]. destruct (A sl ty (rev b) E) as (l & P & Q).
  rewrite Q in H. injection H as <- <-.
  assert (G : forall s0 rs l, pieces s0 rs l -> forall top, 
     (forall i j si ti sj tj, (i <= j)%nat -> nth_error ((s0, ""%string) :: rs) i = Some (si, ti) ->
        nth_error ((s0, ""%string) :: rs) j = Some (sj, tj) -> si <= sj) ->
     (forall s t, In (s, t) rs -> s <= top) ->
     (forall a b0 c, In (a, b0, c) l -> s0 <= a <= b0 /\ b0 <= top) /\
     (forall i j a b0 c a' b' c', (i < j)%nat -> nth_error l i = Some (a, b0, c) -> nth_error l j = Some (a', b', c') -> b0 <= a')).
  { clear. intros s0 rs l P. induction P as [s0|s0 s ty c rows l Hm P IH|s0 s ty rows l Hm P IH]; intros top M T.
    - split; [intros a b0 c []|]. intros i j a b0 c a' b' c' _ H. destruct i; discriminate.
    - assert (H0 : s0 <= s) by (apply (M 0%nat 1%nat s0 ""%string s ty); [lia|reflexivity|reflexivity]).
      destruct (IH top) as [I1 I2].
      + intros i j si ti sj tj Hij Hi Hj.
        destruct i as [|i]; cbn in Hi.
        * injection Hi as <- <-. destruct j as [|j]; cbn in Hj; [injection Hj as <- <-; lra|].
          apply (M 1%nat (S (S j)) s ty sj tj); [lia|reflexivity|exact Hj].
        * destruct j as [|j]; [lia|]. apply (M (S (S i)) (S (S j)) si ti sj tj); [lia|exact Hi|exact Hj].
      + intros u t Hu. apply (T u t). right; exact Hu.
      + split.
        * intros a b0 c0 [X|X].
          -- injection X as <- <- <-. split; [lra|]. apply (T s ty). left; reflexivity.
          -- destruct (I1 _ _ _ X). split; [lra|assumption].
        * intros i j a b0 c0 a' b' c' Hij Hi Hj. destruct j as [|j]; [lia|]. cbn in Hj.
          destruct i as [|i]; cbn in Hi.
          -- injection Hi as <- <- <-. apply nth_error_In in Hj. destruct (I1 _ _ _ Hj). lra.
          -- apply (I2 i j a b0 c0 a' b' c'); [lia|assumption|assumption].
    - assert (H0 : s0 <= s) by (apply (M 0%nat 1%nat s0 ""%string s ty); [lia|reflexivity|reflexivity]).
      destruct (IH top) as [I1 I2].
      + intros i j si ti sj tj Hij Hi Hj.
        destruct i as [|i]; cbn in Hi.
        * injection Hi as <- <-. destruct j as [|j]; cbn in Hj; [injection Hj as <- <-; lra|].
          apply (M 1%nat (S (S j)) s ty sj tj); [lia|reflexivity|exact Hj].
        * destruct j as [|j]; [lia|]. apply (M (S (S i)) (S (S j)) si ti sj tj); [lia|exact Hi|exact Hj].
      + intros u t Hu. apply (T u t). right; exact Hu.
      + split; [|exact I2]. intros a b0 c0 X. destruct (I1 _ _ _ X). split; [lra|assumption]. }
  assert (Hlen : nth_error rows (List.length (rev b)) = Some (sl, ty)).
  { rewrite E. rewrite nth_error_app2, Nat.sub_diag by lia. reflexivity. }
  destruct (G 0 rows l P sl) as [G1 G2].
  - intros i j si ti sj tj Hij Hi Hj.
    destruct i as [|i]; cbn in Hi.
    + injection Hi as <- <-. destruct j as [|j]; cbn in Hj; [injection Hj as <- <-; lra|].
      destruct (M j j sj tj sj tj ltac:(lia) Hj Hj). lra.
    + destruct j as [|j]; [lia|]. cbn in Hj. apply (M i j si ti sj tj); [lia|assumption|assumption].
  - intros s t I. apply In_nth_error in I. destruct I as [i Hi].
    assert (i <= List.length (rev b))%nat.
    { assert (i < List.length rows)%nat by (apply nth_error_Some; congruence).
      rewrite E, app_length in H. cbn in H. lia. }
    apply (M i (List.length (rev b)) s t sl ty); assumption.
  - split.
    + intros r I. apply in_map_iff in I. destruct I as ([[a b0] c] & <- & I). cbn.
      destruct (G1 _ _ _ I) as [[]]. split; [nra|]. split; nra.
    + intros i j r r' Hij Hi Hj. rewrite nth_error_map in Hi, Hj.
      destruct (nth_error l i) as [[[a b0] c]|] eqn:Ei; [|discriminate]. injection Hi as <-.
      destruct (nth_error l j) as [[[a' b'] c']|] eqn:Ej; [|discriminate]. injection Hj as <-. cbn.
      pose proof (G2 _ _ _ _ _ _ _ _ Hij Ei Ej). nra.
Qed.
Print Assumptions C83_disjoint.
Example C83_disjoint_applies :
  let rows := [(1, "QUAD"); (2, "SEXT")]%string in
  (forall i j si ti sj tj, (i <= j)%nat -> nth_error rows i = Some (si, ti) -> nth_error rows j = Some (sj, tj) -> 0 <= si <= sj) /\
  exists top rects, plot_profile rows 1 (1/4) = Ok (top, rects).
Proof.
  cbn. split; [|eexists; eexists; reflexivity].
  intros i j si ti sj tj Hij Hi Hj.
  destruct i as [|[|[|]]]; destruct j as [|[|[|]]]; cbn in *; try discriminate; try lia;
    injection Hi as <- <-; injection Hj as <- <-; lra.
Qed.

Lemma pieces_unique : forall s0 rs l, pieces s0 rs l -> forall l', pieces s0 rs l' -> l = l'.
Proof.
  assert (F : forall ty c c', magnet ty c -> magnet ty c' -> c = c') by (intros ty c c' A B; inversion A; subst; inversion B; reflexivity).
  intros s0 rs l P. induction P as [s0|s0 s ty c rs l M P IH|s0 s ty rs l M P IH]; intros l' P'; inversion P'; subst.
  - reflexivity.
  - f_equal; [|apply IH; assumption]. f_equal. eapply F; eassumption.
  - exfalso. match goal with H : forall c, ~ magnet ty c |- _ => exact (H c M) end.
  - exfalso. eapply M. eassumption.
  - apply IH; assumption.
Qed.
(** C83: besides the rectangles one coloured line at height zero is drawn for each magnet.  With the
    default scale it is a single point, the start of its magnet; with another scale it joins the start
    before and after scaling. *)
Theorem C83_lines_partial : forall rows, rows <> [] ->
  exists l, pieces 0 rows l /\
    profile_segments rows 1 = Ok (map (fun '(a, b, c) => (a, a, c)) l) /\
    (forall scale, profile_segments rows scale = Ok (map (fun '(a, b, c) => (a, a * scale, c)) l)).
Proof.
  intros rows N. destruct (segments_loop_spec rows 1 0) as (l & P & E).
  assert (G : forall scale, profile_segments rows scale = Ok (map (fun '(a, b, c) => (a, a * scale, c)) l)).
  { intros scale. unfold profile_segments. destruct rows as [|r rows]; [congruence|].
    destruct (segments_loop_spec (r :: rows) scale 0) as (l' & P' & E'). rewrite E'. f_equal. f_equal.
    symmetry. exact (pieces_unique _ _ _ P _ P'). }
  exists l. split; [exact P|]. split; [|exact G]. rewrite G. f_equal. apply map_ext. intros [[a b] c]. f_equal. f_equal. ring.
Qed.
Print Assumptions C83_lines_partial.

(** With another scale a coloured line may lie where there is no magnet: lengths in centimetres. *)
Theorem C83_lines_refuted :
  let rows := [(1, "DRIFT"); (2, "QUAD")]%string in
  exists top rects, plot_profile rows 100 (1/4) = Ok (top, rects) /\
    profile_segments rows 100 = Ok [(1, 1 * 100, "tab:green"%string)] /\
    (forall x, 1 <= x < 1 * 100 -> forall r, In r rects -> ~ r_x r <= x <= r_x r + r_w r) /\ List.length rects = 1%nat.
Proof.
  cbn. eexists; eexists. split; [reflexivity|]. split; [reflexivity|]. split; [|reflexivity].
  intros x Hx r [<-|[]]. cbn. lra.
Qed.
Print Assumptions C83_lines_refuted.
Example C83_lines_applies :
  profile_segments [(1, "DRIFT"); (3/2, "KQUAD"); (4, "CSBEND")]%string 1 = Ok [(1, 1 * 1, "tab:green"%string); (3/2, 3/2 * 1, "tab:red"%string)].
Proof. reflexivity. Qed.

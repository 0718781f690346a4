(** C98 to C101: what the plots of beams show. *)
From Coq Require Import List Reals Bool Arith String Ascii ZArith Lia Lra.
From Verif Require Import PyBase PyDict Sample_Model Plot_Model Plot_Spec Plot_Proofs Plot_Props Beam_Model Beam_Spec Beam_Proofs.
Import ListNotations.
Open Scope R_scope.

(** A page of a file, and its columns of numbers *)
Definition has_page (f : sdds) (k : nat) (p : page) : Prop := nth_error (pages f) k = Some p.
(** Every page of the file up to page k has rows *)
Definition filled (f : sdds) (k : nat) : Prop := Forall (fun q => (0 < row_count q)%nat) (firstn (S k) (pages f)).
Definition has_column (p : page) (name : string) (l : list R) : Prop := dget string_dec (numbers p) name = Some l.
Lemma has_column_ok : forall p n l, has_column p n l -> column p n = Ok l.
Proof. intros p n l H. unfold column. now rewrite H. Qed.

(* ------------------------------------------------------------------ *)
(** ** C98 The beamline profile draws every requested quantity.
    One curve per quantity, in order, through the points (s, value) of all rows, named with its symbol
    or description; the axis names all quantities and units; the magnets are those of the table.
    Partial: the symbols and units must be ones that can be formatted (C33), and
    no page up to the one shown is without rows. *)
Definition drawn (f : sdds) (p : page) (s : list R) (q : string) (c : curve) : Prop :=
  exists col, has_column p q col /\ points c = combine s col /\ named (symbol f q) (description f q) (label c).

Lemma written_ok : forall s t, written s t -> format_symbol s true = Ok t.
Proof. intros s t [l [x [-> [P [L ->]]]]]. destruct (C33_symbols_partial l true P) as [A _]. now rewrite (A x L). Qed.
Lemma named_ok : forall f q n, named (symbol f q) (description f q) n -> name_of f q = Ok n.
Proof.
  intros f q n [s [E [[NS W]|[-> D]]]]; unfold name_of; rewrite E; cbn [rbind]; destruct (string_dec _ _); try congruence. now apply written_ok.
Qed.
Lemma measured_ok : forall f q n, measured (units f q) n -> units_of f q = Ok n.
Proof.
  intros f q n [s [E [[NS W]|[-> D]]]]; unfold units_of; rewrite E; cbn [rbind]; destruct (string_dec _ _); try congruence. now apply written_ok.
Qed.
Lemma all_of_ok : forall (A B : Type) (f : A -> res B) l r, Forall2 (fun a b => f a = Ok b) l r -> all_of f l = Ok r.
Proof. intros A B f l r F. induction F as [|a b l r E _ IH]; [reflexivity|]. cbn [all_of]. rewrite E. cbn [rbind]. now rewrite IH. Qed.
Lemma append_cons : forall a b c : string, ((a ++ b) ++ c = a ++ (b ++ c))%string.
Proof. exact append_assoc. Qed.
Lemma fold_comma : forall r a b, (fold_left (fun acc x => (acc ++ "," ++ x)%string) r (a ++ b) = a ++ fold_left (fun acc x => (acc ++ "," ++ x)%string) r b)%string.
Proof. induction r as [|x r IH]; intros a b; [reflexivity|]. cbn [fold_left]. rewrite append_cons. apply IH. Qed.
Lemma joined_comma : forall l, comma_separated l (joined "," l).
Proof.
  intros [|a r]; [reflexivity|]. unfold comma_separated. revert a. induction r as [|b r IH]; intros a; [reflexivity|].
  change (joined "," (a :: b :: r)) with (a ++ "," ++ joined "," (b :: r))%string. rewrite (IH b). cbn [fold_left]. now rewrite (fold_comma r a), (fold_comma r ",").
Qed.

Theorem C98_curves_partial : forall f k p s ty qs names us xlim ylim,
  has_page f k p -> filled f k -> has_column p "s" s -> element_types p = Some ty -> List.length ty = List.length s -> s <> [] ->
  let wanted := match qs with [] => ["Sx"; "Sy"]%string | _ => qs end in
  Forall (fun q => exists col, has_column p q col) wanted ->
  Forall2 (fun q n => named (symbol f q) (description f q) n) wanted names ->
  Forall2 (fun q u => measured (units f q) u) wanted us ->
  exists r pcs, beamline_profile f (Z.of_nat k) qs xlim ylim = Ok r /\
    Forall2 (drawn f p s) wanted (curves r) /\ map label (curves r) = names /\
    x_label r = "s (m)"%string /\ (exists ns un, comma_separated names ns /\ comma_separated us un /\ y_label r = (ns ++ " (" ++ un ++ ")")%string) /\
    x_limits r = xlim /\ y_limits r = ylim /\
    pieces 0 (combine s ty) pcs /\ map (fun m => (r_x m, r_x m + r_w m, r_c m)) (magnets r) = pcs.
Proof.
  intros f k p s ty qs names us xlim ylim HP HF HS HT LT NS wanted HC HN HU.
  destruct (C83_profile (combine s ty) 1 (1 / 4)) as [PR _].
  assert (X : exists before sl tl, combine s ty = before ++ [(sl, tl)]).
  { destruct (exists_last (l := combine s ty)) as [b [[a c] E]]; [destruct s, ty; try contradiction; discriminate|eauto]. }
  destruct X as [before [sl [tl EL]]]. destruct (PR sl tl before EL) as [pcs [PI PE]].
  assert (CS : exists cs, Forall2 (fun q c => (do x <- column p "s"; do y <- column p q; do n <- name_of f q; Ok {| points := combine x y; label := n |}) = Ok c) wanted cs /\
    Forall2 (drawn f p s) wanted cs /\ map label cs = names).
  { clear HU PR PI PE. clearbody wanted. revert names HN. induction HC as [|q ws [col C] _ IH]; intros names HN.
    - inversion HN; subst. exists []. repeat split; constructor.
    - inversion HN as [|? n ? ns N HN']; subst. destruct (IH ns HN') as [cs [A [B D]]]. exists ({| points := combine s col; label := n |} :: cs). split; [|split].
      + constructor; [|exact A]. rewrite (has_column_ok p "s" s HS). cbn [rbind]. rewrite (has_column_ok p q col C). cbn [rbind]. now rewrite (named_ok f q n N).
      + constructor; [|exact B]. exists col. auto.
      + cbn. now rewrite D. }
  destruct CS as [cs [A [B D]]].
  assert (NA : all_of (name_of f) wanted = Ok names) by (apply all_of_ok; clear - HN; induction HN; constructor; auto; now apply named_ok).
  assert (UA : all_of (units_of f) wanted = Ok us) by (apply all_of_ok; clear - HU; induction HU; constructor; auto; now apply measured_ok).
  eexists. exists pcs. split.
  { unfold beamline_profile. rewrite (get_page_nth f k p HP HF). cbn [rbind]. rewrite (has_column_ok p "s" s HS). cbn [rbind]. unfold types at 1. rewrite HT. cbn [rbind].
    change (match qs with [] => ["Sx"; "Sy"]%string | _ :: _ => qs end) with wanted. rewrite PE. cbn [rbind].
    rewrite (has_column_ok p "s" s HS) in A. cbn [rbind] in A. rewrite (all_of_ok _ _ _ wanted cs A). cbn [rbind]. rewrite NA. cbn [rbind]. rewrite UA. cbn [rbind]. reflexivity. }
  cbn [curves x_label y_label x_limits y_limits magnets]. split; [exact B|split; [exact D|split; [reflexivity|split]]].
  - exists (joined "," names), (joined "," us). split; [apply joined_comma|split; [apply joined_comma|reflexivity]].
  - split; [reflexivity|split; [reflexivity|split; [exact PI|]]]. rewrite map_map. rewrite <- (map_id pcs) at 2. apply map_ext. intros [[a b] c]. cbn [r_x r_w r_c]. f_equal. f_equal; ring.
Qed.
Print Assumptions C98_curves_partial.

(** A quantity that is not in the file is an error, never a missing curve *)
Theorem C98_missing : forall f k p qs xlim ylim r q,
  has_page f k p -> filled f k -> beamline_profile f (Z.of_nat k) qs xlim ylim = Ok r -> In q (match qs with [] => ["Sx"; "Sy"]%string | _ => qs end) -> exists col, has_column p q col.
Proof.
  intros f k p qs xlim ylim r q HP HF E I. unfold beamline_profile in E. rewrite (get_page_nth f k p HP HF) in E. cbn [rbind] in E.
  destruct (column p "s") as [s| |] eqn:CS; try discriminate. cbn [rbind] in E. destruct (types p) as [ty| |]; try discriminate. cbn [rbind] in E.
  destruct (plot_profile _ _ _) as [[top rects]| |]; try discriminate. cbn [rbind] in E. remember (match qs with [] => ["Sx"; "Sy"]%string | _ :: _ => qs end) as ws eqn:W. clear W.
  assert (H : exists cs, all_of (fun q => do y <- column p q; do n <- name_of f q; Ok {| points := combine s y; label := n |}) ws = Ok cs).
  { destruct (all_of _ ws) as [cs| |]; try discriminate. now exists cs. }
  clear E. destruct H as [cs H]. revert cs H. induction ws as [|w ws IH]; intros cs H; [destruct I|]. cbn [all_of rbind] in H.
  destruct (column p w) as [y| |] eqn:CW; try discriminate. cbn [rbind] in H. destruct (name_of f w) as [n| |]; try discriminate. cbn [rbind] in H.
  destruct I as [->|I].
  - unfold column in CW. unfold has_column. destruct (dget string_dec (numbers p) q) as [col|]; [now exists col|discriminate].
  - destruct (all_of _ ws) as [cs'| |] eqn:Q; try discriminate. now apply (IH I cs').
Qed.
Print Assumptions C98_missing.

(** The full property is false: a column whose symbol has a code that is not known is not drawn *)
Definition one_page (sym : string) : sdds :=
  {| pages := [{| numbers := [("s", [1; 3]); ("Sx", [2; 5])]%string; element_types := Some ["DRIFT"; "KQUAD"]%string; row_count := 2; params := [] |}];
     symbol := fun _ => Ok sym; units := fun _ => Ok "m"%string; description := fun _ => Ok "rms size"%string |}.
Theorem C98_symbol_refuted : exists f k p s col qs,
  has_page f k p /\ filled f k /\ has_column p "s" s /\ element_types p = Some ["DRIFT"; "KQUAD"]%string /\ List.length s = 2%nat /\
  qs = ["Sx"%string] /\ has_column p "Sx" col /\ symbol f "Sx" = Ok "$hs$n"%string /\
  beamline_profile f (Z.of_nat k) qs None None = Err KeyError.
Proof. exists (one_page "$hs$n"), 0%nat. do 4 eexists. split; [reflexivity|split; [repeat constructor|repeat split]]. Qed.
Print Assumptions C98_symbol_refuted.

Example C98_applies : exists r, beamline_profile (one_page "") 0 ["Sx"%string] None (Some (0, 1)) = Ok r /\
  map label (curves r) = ["rms size"%string] /\ y_label r = "rms size ($m$)"%string /\ map points (curves r) = [[(1, 2); (3, 5)]].
Proof.
  destruct (C98_curves_partial (one_page "") 0 _ [1; 3] ["DRIFT"; "KQUAD"]%string ["Sx"%string] ["rms size"%string] ["$m$"%string] None (Some (0, 1)) eq_refl ltac:(repeat constructor) eq_refl eq_refl eq_refl ltac:(discriminate))
    as [r [pcs [E [D [L [_ [[ns [un [N [U Y]]]] _]]]]]]].
  - constructor; [|constructor]. now exists [2; 5].
  - constructor; [|constructor]. exists ""%string. split; [reflexivity|]. right. split; reflexivity.
  - constructor; [|constructor]. exists "m"%string. split; [reflexivity|]. left. split; [discriminate|]. exists [Letter "m"], "m"%string.
    split; [reflexivity|split; [intros [X|[]]; discriminate|split; [|reflexivity]]]. apply (l_letter Roman "m" "m" [] ""); constructor.
  - exists r. split; [exact E|split; [exact L|split]].
    + rewrite Y. cbn in N, U. now subst.
    + inversion D as [|? c ? cs [col [HC [P _]]] D']; subst. inversion D'; subst. unfold has_column in HC. cbn in HC. injection HC as <-. cbn [map]. rewrite P. reflexivity.
Qed.

(* ------------------------------------------------------------------ *)
(** ** C99 The phase space plot shows all particles.
    Its four panels show every particle of the page at its place in (x, x'), (y, y') and (x, y) in
    millimetres and milliradians, and in time and relative momentum measured from their averages.
    Partial: no page up to the one shown is without rows. *)
Definition beam_page (p : page) (n : nat) (x xp y yp t m : list R) : Prop :=
  has_column p "x" x /\ has_column p "xp" xp /\ has_column p "y" y /\ has_column p "yp" yp /\ has_column p "t" t /\ has_column p "p" m /\
  Forall (fun l => List.length l = n) [x; xp; y; yp; t; m].
Definition panel (im : image) (n : nat) (pts : list (R * R)) : Prop := shows (rows im) (left im) (right im) (bottom im) (top im) n pts.

Lemma sum_positive : forall l, l <> [] -> Forall (Rlt 0) l -> 0 < sum l.
Proof.
  intros l N F. destruct F as [|x l X F]; [contradiction|]. cbn [sum fold_right]. fold (sum l). assert (0 <= sum l); [|lra].
  clear N X. induction F as [|y l Y F IH]; cbn [sum fold_right]; [lra|]. fold (sum l). lra.
Qed.
Lemma average_positive : forall l, l <> [] -> Forall (Rlt 0) l -> 0 < average l.
Proof. intros l N F. apply Rdiv_lt_0_compat; [now apply sum_positive|]. apply lt_0_INR. destruct l; [contradiction|cbn; lia]. Qed.
Lemma combine_scaled : forall c xs ys, combine (scaled c xs) (scaled c ys) = map (fun p => (c * fst p, c * snd p)) (combine xs ys).
Proof. intros c. induction xs as [|x xs IH]; intros [|y ys]; try reflexivity. cbn. f_equal; [f_equal; ring|apply IH]. Qed.

Theorem C99_panels_partial : forall f k p n x xp y yp t m bins,
  has_page f k p -> filled f k -> beam_page p n x xp y yp t m -> (0 < n)%nat -> Forall (Rlt 0) m -> (1 <= bins)%Z ->
  exists a b c d, let b' := Z.to_nat bins in
    phase_space f (Z.of_nat k) bins = Ok [(a, "x (mm)", "x' (mrad)"); (b, "y (mm)", "y' (mrad)"); (c, "x (mm)", "y (mm)"); (d, "t (ps)", "$\delta$ ( )")]%string /\
    panel a b' (map (fun q => (1000 * fst q, 1000 * snd q)) (combine x xp)) /\ panel b b' (map (fun q => (1000 * fst q, 1000 * snd q)) (combine y yp)) /\
    panel c b' (map (fun q => (1000 * fst q, 1000 * snd q)) (combine x y)) /\
    panel d b' (combine (map (fun u => (u - average t) * 10 ^ 12) t) (map (fun u => (u - average m) / average m) m)).
Proof.
  intros f k p n x xp y yp t m bins HP HF [HX [HXP [HY [HYP [HT [HM FL]]]]]] N PM B. inversion FL as [|? ? L1 FL1]; subst. inversion FL1 as [|? ? L2 FL2]; subst. inversion FL2 as [|? ? L3 FL3]; subst.
  inversion FL3 as [|? ? L4 FL4]; subst. inversion FL4 as [|? ? L5 FL5]; subst. inversion FL5 as [|? ? L6 _]; subst.
  assert (NE : forall l : list R, List.length l = List.length x -> l <> []) by (intros l L ->; cbn in L; lia).
  pose proof (average_positive m (NE m L6) PM) as AM.
  destruct (density_ok (scaled 1000 x) (scaled 1000 xp) bins) as [a [EA SA]]; [rewrite !scaled_length; congruence|apply scaled_neq, NE; congruence|exact B|].
  destruct (density_ok (scaled 1000 y) (scaled 1000 yp) bins) as [b [EB SB]]; [rewrite !scaled_length; congruence|apply scaled_neq, NE; congruence|exact B|].
  destruct (density_ok (scaled 1000 x) (scaled 1000 y) bins) as [c [EC SC]]; [rewrite !scaled_length; congruence|apply scaled_neq, NE; congruence|exact B|].
  destruct (density_ok (scaled (10 ^ 12) (centred t)) (map (fun u => u / np_average m) (centred m)) bins) as [d [ED SD]].
  { unfold scaled, centred. rewrite !map_length. congruence. }
  { apply scaled_neq. rewrite centred_eq. unfold deviations. intros X. apply map_eq_nil in X. now apply (NE t). }
  { exact B. }
  exists a, b, c, d. cbn zeta. rewrite combine_scaled in SA, SB, SC. split.
  { unfold phase_space. rewrite (get_page_nth f k p HP HF). cbn [rbind]. rewrite (get_params_nth f k p HP). cbn [rbind]. rewrite (has_column_ok _ _ _ HX). cbn [rbind]. rewrite (has_column_ok _ _ _ HXP). cbn [rbind]. rewrite (has_column_ok _ _ _ HY). cbn [rbind].
    rewrite (has_column_ok _ _ _ HYP). cbn [rbind]. rewrite (has_column_ok _ _ _ HT). cbn [rbind]. rewrite (has_column_ok _ _ _ HM). cbn [rbind].
    unfold over. destruct (Req_EM_T (np_average m) 0) as [Z|_]; [rewrite np_average_eq in Z; lra|]. cbn [rbind]. rewrite EA. cbn [rbind]. rewrite EB. cbn [rbind]. rewrite EC. cbn [rbind]. rewrite ED. reflexivity. }
  split; [exact SA|split; [exact SB|split; [exact SC|]]]. unfold panel. unfold scaled, centred in SD. rewrite !map_map, !np_average_eq in SD. exact SD.
Qed.
Print Assumptions C99_panels_partial.
Definition beam_1 (parameters : list (string * R)) : sdds :=
  {| pages := [{| numbers := [("t", [0; 2; 1]); ("p", [10; 30; 20]); ("x", [1; 2; 3]); ("xp", [0; 1; 0]); ("y", [5; 5; 5]); ("yp", [1; 1; 2])]%string; element_types := None; row_count := 3; params := parameters |}];
     symbol := fun _ => Err KeyError; units := fun _ => Err KeyError; description := fun _ => Err KeyError |}.
(** The full property is false: after a page without rows a page is not found, *)
Definition empty_page (parameters : list (string * R)) : page := {| numbers := [("t", []); ("p", []); ("x", []); ("xp", []); ("y", []); ("yp", [])]%string; element_types := None; row_count := 0; params := parameters |}.
Definition after_empty (first second : list (string * R)) : sdds :=
  {| pages := empty_page first :: pages (beam_1 second); symbol := fun _ => Err KeyError; units := fun _ => Err KeyError; description := fun _ => Err KeyError |}.
Theorem C99_empty_page_refuted : exists f p, has_page f 1 p /\ beam_page p 3 [1; 2; 3] [0; 1; 0] [5; 5; 5] [1; 1; 2] [0; 2; 1] [10; 30; 20] /\ phase_space f 1 128 = Err IndexError.
Proof. exists (after_empty [] []). eexists. split; [reflexivity|split; [repeat split; repeat constructor|reflexivity]]. Qed.
Print Assumptions C99_empty_page_refuted.
Example C99_applies : exists p, has_page (beam_1 []) 0 p /\ filled (beam_1 []) 0 /\ beam_page p 3 [1; 2; 3] [0; 1; 0] [5; 5; 5] [1; 1; 2] [0; 2; 1] [10; 30; 20] /\ Forall (Rlt 0) [10; 30; 20].
Proof. eexists. split; [reflexivity|split; [repeat constructor|split; [repeat split; repeat constructor|repeat constructor; lra]]]. Qed.

(* ------------------------------------------------------------------ *)
(** ** C100 The longitudinal plot has the charge of the file.
    Below the density is the current: the charge of the particles of a bin over the time of the bin,
    for the given charge, or for the charge in the file if none is given.
    Partial: a charge is given or in the file, and no page up to the one shown is without rows. *)
Definition charged (p : page) (arg : charge_arg) (q : R) : Prop :=
  match arg with Given g => q = g | Auto => dget string_dec (params p) "Charge"%string = Some q /\ q <> 0 end.
Definition time_in_ps (l : list (R * R)) : list (R * R) := map (fun p => (fst p * 10 ^ 12, snd p)) l.
Lemma combine_time : forall (a b : list R), combine (scaled (10 ^ 12) a) b = time_in_ps (combine a b).
Proof. induction a as [|x a IH]; intros [|y b]; try reflexivity. cbn. f_equal. apply IH. Qed.

Lemma longitudinal_ok : forall f k p t m arg q norm, has_page f k p -> filled f k -> has_column p "t" t -> has_column p "p" m -> List.length m = List.length t -> t <> [] ->
  charge_for (params p) arg = Ok (q, norm) ->
  exists bins cur im mb mc, get_current_from_t (centred t) q 256 = Ok (bins, map Some cur) /\ current (combine bins cur) 256 (q / INR (List.length t)) (deviations t) /\
    panel im 128 (combine (map (fun u => (u - average t) * 10 ^ 12) t) m) /\ histogram (combine mb (map INR mc)) 256 m /\
    longitudinal_phase_space f (Z.of_nat k) arg = Ok {| heat := im; beside := combine (map INR mc) mb; below := time_in_ps (combine bins (if norm then map (fun c => c / largest cur) cur else cur));
      label_left := "p ($m_e c$)"; label_below_x := "t (ps)"; label_below_y := if norm then "Counts ()" else "Current (A)" |}.
Proof.
  intros f k p t m arg q norm HP HF HT HM LM NT EC. assert (NM : m <> []) by (intros ->; destruct t; [contradiction|discriminate]).
  destruct (current_ok t q NT) as [bins [cur [EU CU]]]. destruct (histogram_ok m 256 NM ltac:(lia) 256 bins_256) as [mb [mc [EM HI]]].
  destruct (density_ok (scaled (10 ^ 12) (centred t)) m 128) as [im [EI SI]]; [rewrite scaled_length, centred_eq; unfold deviations; rewrite map_length; congruence| |lia|].
  { apply scaled_neq. rewrite centred_eq. unfold deviations. intros X. now apply map_eq_nil in X. }
  exists bins, cur, im, mb, mc. split; [exact EU|split; [exact CU|split; [|split; [exact HI|]]]].
  { unfold panel. unfold scaled, centred in SI. rewrite map_map, np_average_eq in SI. exact SI. }
  unfold longitudinal_phase_space. rewrite (get_page_nth f k p HP HF). cbn [rbind]. rewrite (get_params_nth f k p HP). cbn [rbind]. rewrite (has_column_ok _ _ _ HT). cbn [rbind]. rewrite (has_column_ok _ _ _ HM). cbn [rbind]. rewrite EC. cbn [rbind].
  rewrite EU. cbn [rbind]. rewrite finite_some. cbn [rbind]. rewrite EM. cbn [rbind]. rewrite EI. cbn [rbind]. now rewrite combine_time.
Qed.

Theorem C100_current_partial : forall f k p t m arg q, has_page f k p -> filled f k -> has_column p "t" t -> has_column p "p" m -> List.length m = List.length t -> t <> [] -> charged p arg q ->
  exists r cur, longitudinal_phase_space f (Z.of_nat k) arg = Ok r /\
    below r = time_in_ps cur /\ current cur 256 (q / INR (List.length t)) (deviations t) /\ label_below_x r = "t (ps)"%string /\ label_below_y r = "Current (A)"%string /\
    panel (heat r) 128 (combine (map (fun u => (u - average t) * 10 ^ 12) t) m) /\ (exists h, histogram h 256 m /\ beside r = swapped h).
Proof.
  intros f k p t m arg q HP HF HT HM LM NT CH. assert (EC : charge_for (params p) arg = Ok (q, false)).
  { unfold charge_for. destruct arg as [|g]; cbn in CH; [|now subst]. destruct CH as [E Z]. unfold parameter. rewrite E. destruct (Req_EM_T q 0); [contradiction|reflexivity]. }
  destruct (longitudinal_ok f k p t m arg q false HP HF HT HM LM NT EC) as [bins [cur [im [mb [mc [_ [CU [PA [HI E]]]]]]]]]. eexists. exists (combine bins cur). split; [exact E|].
  cbn [below heat beside label_below_x label_below_y]. split; [reflexivity|split; [exact CU|split; [reflexivity|split; [reflexivity|split; [exact PA|]]]]]. exists (combine mb (map INR mc)). split; [exact HI|apply combine_swap].
Qed.
Print Assumptions C100_current_partial.

(** The current adds up to the charge, whatever the particles *)
Theorem C100_total : forall cur q times, times <> [] -> current cur 256 (q / INR (List.length times)) times ->
  exists w, 0 < w /\ sum (map (fun p => snd p * w) cur) = q.
Proof.
  intros cur q times N [lo [hi [ks [R [L [E [_ T]]]]]]]. destruct (data_range_in _ _ _ R) as [LT _]. set (w := (hi - lo) / INR 256) in *. assert (W : 0 < w) by (apply Rdiv_lt_0_compat; [lra|apply lt_0_INR; lia]).
  exists w. split; [exact W|]. rewrite E. rewrite <- (map_map snd (fun c => c * w)), map_snd_combine by (rewrite !map_length, seq_length; congruence). rewrite map_map.
  assert (M : INR (List.length times) <> 0) by (apply not_0_INR; destruct times; [contradiction|discriminate]).
  rewrite (map_ext _ (fun c => INR c * (q / INR (List.length times)) / w * w)) by (intros c; field; split; lra). rewrite sum_counts by lra. rewrite T. field. exact M.
Qed.
Print Assumptions C100_total.

(** With a charge of zero in the file the profile is scaled to a peak of one *)
Lemma np_max_pos : forall l x, Forall (Rle 0) (x :: l) -> (exists y, In y (x :: l) /\ 0 < y) -> 0 < np_max x l.
Proof. intros l x F [y [I Y]]. destruct (np_max_spec l x) as [_ M]. specialize (M y I). lra. Qed.
Theorem C100_zero_charge : forall f k p t m, has_page f k p -> filled f k -> has_column p "t" t -> has_column p "p" m -> List.length m = List.length t -> t <> [] ->
  dget string_dec (params p) "Charge"%string = Some 0 ->
  exists r cur peak, longitudinal_phase_space f (Z.of_nat k) Auto = Ok r /\ current cur 256 (1 / INR (List.length t)) (deviations t) /\
    0 < peak /\ In peak (map snd cur) /\ Forall (fun c => c <= peak) (map snd cur) /\
    below r = time_in_ps (map (fun p => (fst p, snd p / peak)) cur) /\ label_below_y r = "Counts ()"%string.
Proof.
  intros f k p t m HP HF HT HM LM NT CH. assert (EC : charge_for (params p) Auto = Ok (1, true)).
  { unfold charge_for, parameter. rewrite CH. destruct (Req_EM_T 0 0); [reflexivity|congruence]. }
  destruct (longitudinal_ok f k p t m Auto 1 true HP HF HT HM LM NT EC) as [bins [cur [im [mb [mc [EU [CU [_ [_ E]]]]]]]]]. eexists. exists (combine bins cur), (largest cur). split; [exact E|split; [exact CU|]].
  assert (LE : List.length bins = List.length cur).
  { destruct (C32_charge (centred t) 1 256 256) as [lo [hi [cs [cu [ks [X [_ [_ [Y [Z _]]]]]]]]]]; [destruct t; [contradiction|discriminate]|lia|apply bins_256|].
    rewrite EU in X. injection X as -> X. assert (cur = cu) by (apply (f_equal finite) in X; rewrite !finite_some in X; congruence). subst. rewrite Z, map_length, seq_length. reflexivity. }
  rewrite map_snd_combine by exact LE. cbn [below label_below_y].
  assert (NN : Forall (Rle 0) cur /\ exists y, In y cur /\ 0 < y).
  { destruct (C100_total (combine bins cur) 1 (deviations t)) as [w [W TS]]; [destruct t; [contradiction|discriminate]| |].
    { unfold deviations at 1. rewrite map_length. exact CU. }
    destruct CU as [lo [hi [ks [R [L [EQ _]]]]]]. apply (f_equal (map snd)) in EQ. rewrite map_snd_combine in EQ by exact LE. rewrite map_snd_combine in EQ by (rewrite !map_length, seq_length; congruence).
    destruct (data_range_in _ _ _ R) as [LT _].
    assert (F : Forall (Rle 0) cur).
    { rewrite EQ. apply Forall_forall. intros c I. apply in_map_iff in I. destruct I as [j [<- _]].
      assert (A1 : 0 < INR (List.length t)) by (apply lt_0_INR; destruct t; [contradiction|cbn; lia]). pose proof (pos_INR j). assert (A2 : 0 < INR 256) by (apply lt_0_INR; lia).
      assert (A3 : 0 < (hi - lo) / INR 256) by (apply Rdiv_lt_0_compat; lra). apply Rmult_le_pos; [apply Rmult_le_pos; [left; apply Rdiv_lt_0_compat; lra|lra]|left; now apply Rinv_0_lt_compat]. }
    split; [exact F|]. rewrite <- (map_map snd (fun c => c * w)), map_snd_combine in TS by exact LE.
    destruct (Exists_dec (fun y => 0 < y) cur (fun y => Rlt_dec 0 y)) as [X|X]; [apply Exists_exists in X; destruct X as [y [I Y]]; eauto|]. exfalso.
    assert (S : sum (map (fun c => c * w) cur) <= 0); [|lra]. clear - F X. induction F as [|c cur C F IH]; [cbn; lra|]. cbn [map sum fold_right]. fold (sum (map (fun c => c * w) cur)).
    assert (~ 0 < c) by (intros Z; apply X; now left). assert (sum (map (fun c => c * w) cur) <= 0) by (apply IH; intros Z; apply X; now right). assert (c = 0) by lra. subst. lra. }
  destruct NN as [NN [y [I Y]]]. destruct cur as [|c0 cur']; [destruct I|]. cbn [largest]. destruct (np_max_spec cur' c0) as [MI MX].
  split; [specialize (MX y I); lra|]. split; [exact MI|]. split; [apply Forall_forall; exact MX|]. split; [|reflexivity]. f_equal.
  generalize (np_max c0 cur') as pk. generalize (c0 :: cur') as cs. clear. intros cs. revert bins. induction cs as [|c cs IH]; intros [|b bins] pk; try reflexivity. cbn. f_equal. apply IH.
Qed.
Print Assumptions C100_zero_charge.

(** The full property is false: without a charge in the file counts are promised, but the plot fails *)
Theorem C100_missing_refuted : exists f k p t m, has_page f k p /\ filled f k /\ has_column p "t" t /\ has_column p "p" m /\ List.length m = 3%nat /\ List.length t = 3%nat /\
  dget string_dec (params p) "Charge"%string = None /\ longitudinal_phase_space f (Z.of_nat k) Auto = Err ValueError.
Proof. exists (beam_1 [("Step"%string, 1)]), 0%nat. do 3 eexists. split; [reflexivity|split; [repeat constructor|repeat split]]. Qed.
Print Assumptions C100_missing_refuted.
(** and for a page without rows the particles of the next page are shown, with the charge of the empty one *)
Theorem C100_empty_page_refuted : exists f p, has_page f 0 p /\ row_count p = 0%nat /\ dget string_dec (params p) "Charge"%string = Some 1 /\
  exists q, has_page f 1 q /\ dget string_dec (params q) "Charge"%string = Some 2 /\ longitudinal_phase_space f 0 Auto = longitudinal_phase_space {| pages := [q]; symbol := symbol f; units := units f; description := description f |} 0 (Given 1).
Proof.
  exists (after_empty [("Charge"%string, 1)] [("Charge"%string, 2)]). eexists. split; [reflexivity|]. split; [reflexivity|]. split; [reflexivity|]. eexists. split; [reflexivity|]. split; [reflexivity|].
  unfold longitudinal_phase_space. cbn [get_page get_params entry]. unfold get_page, get_params, entry. cbn -[get_current_from_t get_histogram_points density]. destruct (Req_EM_T 1 0); [lra|]. reflexivity.
Qed.
Print Assumptions C100_empty_page_refuted.
Example C100_applies : exists r, longitudinal_phase_space (beam_1 [("Charge"%string, 1 / 1000)]) 0 Auto = Ok r /\ label_below_y r = "Current (A)"%string.
Proof.
  destruct (C100_current_partial (beam_1 [("Charge"%string, 1 / 1000)]) 0 _ [0; 2; 1] [10; 30; 20] Auto (1 / 1000) eq_refl ltac:(repeat constructor) eq_refl eq_refl eq_refl ltac:(discriminate)) as [r [cur [E [_ [_ [_ [L _]]]]]]].
  - split; [reflexivity|lra].
  - now exists r.
Qed.

(* ------------------------------------------------------------------ *)
(** ** C101 Projections.
    The figure of two coordinates shows all particles, in thousandths of the units of the file, with a
    histogram of each coordinate that counts every particle.
    Partial: no page up to the one shown is without rows. *)
Theorem C101_projections_partial : forall f k p cx cy xl yl xs ys, has_page f k p -> filled f k -> has_column p cx xs -> has_column p cy ys -> List.length ys = List.length xs -> xs <> [] ->
  exists r h, phase_space_projection f cx cy xl yl (Z.of_nat k) = Ok r /\
    panel (heat r) 128 (map (fun q => (1000 * fst q, 1000 * snd q)) (combine xs ys)) /\
    histogram (below r) 256 (map (Rmult 1000) xs) /\ histogram h 256 (map (Rmult 1000) ys) /\ beside r = swapped h /\
    label_left r = yl /\ label_below_x r = xl.
Proof.
  intros f k p cx cy xl yl xs ys HP HF HX HY L N. assert (NY : ys <> []) by (intros ->; destruct xs; [contradiction|discriminate]).
  destruct (histogram_ok (scaled 1000 xs) 256 (scaled_neq _ _ N) ltac:(lia) 256 bins_256) as [xb [xc [EX HIX]]].
  destruct (histogram_ok (scaled 1000 ys) 256 (scaled_neq _ _ NY) ltac:(lia) 256 bins_256) as [yb [yc [EY HIY]]].
  destruct (density_ok (scaled 1000 xs) (scaled 1000 ys) 128) as [im [EI SI]]; [rewrite !scaled_length; congruence|now apply scaled_neq|lia|].
  assert (SC : forall l, scaled 1000 l = map (Rmult 1000) l) by (intros l; apply map_ext; intros; ring). rewrite combine_scaled in SI.
  eexists. exists (combine yb (map INR yc)). split.
  { unfold phase_space_projection. rewrite (get_page_nth f k p HP HF). cbn [rbind]. rewrite (has_column_ok _ _ _ HX). cbn [rbind]. rewrite (has_column_ok _ _ _ HY). cbn [rbind].
    rewrite EX. cbn [rbind]. rewrite EY. cbn [rbind]. rewrite EI. cbn [rbind]. reflexivity. }
  cbn [heat below beside label_left label_below_x]. rewrite <- !SC. split; [exact SI|split; [exact HIX|split; [exact HIY|split; [apply combine_swap|split; reflexivity]]]].
Qed.
Print Assumptions C101_projections_partial.
(** The horizontal and vertical figures are those of (x, x') and (y, y') *)
Theorem C101_planes_partial : forall f k p n x xp y yp t m, has_page f k p -> filled f k -> beam_page p n x xp y yp t m -> (0 < n)%nat ->
  exists rh rv, horizontal_phase_space f (Z.of_nat k) = Ok rh /\ vertical_phase_space f (Z.of_nat k) = Ok rv /\
    panel (heat rh) 128 (map (fun q => (1000 * fst q, 1000 * snd q)) (combine x xp)) /\ panel (heat rv) 128 (map (fun q => (1000 * fst q, 1000 * snd q)) (combine y yp)) /\
    label_below_x rh = "x (mm)"%string /\ label_left rh = "x' (mrad)"%string /\ label_below_x rv = "y (mm)"%string /\ label_left rv = "y' (mrad)"%string.
Proof.
  intros f k p n x xp y yp t m HP HF [HX [HXP [HY [HYP [_ [_ FL]]]]]] N. inversion FL as [|? ? L1 FL1]; subst. inversion FL1 as [|? ? L2 FL2]; subst. inversion FL2 as [|? ? L3 FL3]; subst. inversion FL3 as [|? ? L4 _]; subst.
  assert (NE : forall l : list R, List.length l = List.length x -> l <> []) by (intros l L ->; cbn in L; lia).
  destruct (C101_projections_partial f k p "x" "xp" "x (mm)" "x' (mrad)" x xp HP HF HX HXP L2 (NE x eq_refl)) as [rh [hh [E1 [P1 [_ [_ [_ [A1 B1]]]]]]]].
  destruct (C101_projections_partial f k p "y" "yp" "y (mm)" "y' (mrad)" y yp HP HF HY HYP ltac:(congruence) (NE y L3)) as [rv [hv [E2 [P2 [_ [_ [_ [A2 B2]]]]]]]].
  exists rh, rv. repeat (split; [assumption|]). assumption.
Qed.
Print Assumptions C101_planes_partial.
(** The full property is false: after a page without rows a page is not found *)
Theorem C101_empty_page_refuted : exists f p, has_page f 1 p /\ has_column p "x" [1; 2; 3] /\ has_column p "xp" [0; 1; 0] /\ horizontal_phase_space f 1 = Err IndexError.
Proof. exists (after_empty [] []). eexists. repeat split. Qed.
Print Assumptions C101_empty_page_refuted.
Example C101_applies : exists r, vertical_phase_space (beam_1 []) 0 = Ok r /\ label_left r = "y' (mrad)"%string.
Proof.
  destruct C99_applies as [p [HP [HF [BP _]]]]. destruct (C101_planes_partial _ _ _ _ _ _ _ _ _ _ HP HF BP ltac:(lia)) as [rh [rv [_ [E [_ [_ [_ [_ [_ L]]]]]]]]]. now exists rv.
Qed.

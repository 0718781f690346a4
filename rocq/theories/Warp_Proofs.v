From Coq Require Import List Reals Bool Arith String Ascii ZArith Lia Lra.
From Verif Require Import PyBase PyDict PyText Line_Model Line_Spec Line_Proofs Warp_Model Warp_Spec.
Import ListNotations.
Open Scope R_scope.

Lemma up_capital : forall c, up c = capital_of c smalls capitals.
Proof.
  intros c. assert (F : forallb (fun c => Ascii.eqb (up c) (capital_of c smalls capitals)) all_chars = true) by (vm_compute; reflexivity).
  rewrite forallb_forall in F. apply Ascii.eqb_eq. apply F. apply all_chars_in.
Qed.
Lemma upper_capitals : forall s, upper s = in_capitals s.
Proof. intros s. unfold upper, in_capitals, T. apply map_ext. apply up_capital. Qed.

Lemma params_text_ok : forall show ps l t, params_text show ps l = Ok t ->
  exists vs, Forall2 (fun p v => agn_get ps p = Some v) l vs /\
    t = List.concat (map (fun pv => T " " ++ T (fst pv) ++ T "=" ++ show (snd pv) ++ T ",") (combine l vs)).
Proof.
  intros show ps. induction l as [|p l IH]; intros t H; cbn [params_text] in H.
  - injection H as <-. exists []. split; [constructor|reflexivity].
  - destruct (agn_get ps p) as [v|] eqn:G; [|discriminate]. destruct (params_text show ps l) as [u| |]; try discriminate.
    cbn [rbind] in H. injection H as <-. destruct (IH u eq_refl) as (vs & F & ->). exists (v :: vs). split; [constructor; assumption|reflexivity].
Qed.
Lemma params_text_total : forall show ps l, (forall p, In p l -> exists v, agn_get ps p = Some v) -> exists t, params_text show ps l = Ok t.
Proof.
  intros show ps. induction l as [|p l IH]; intros H; [eexists; reflexivity|]. cbn [params_text].
  destruct (H p (or_introl eq_refl)) as [v ->]. destruct IH as [t ->]; [intros; apply H; right; assumption|]. eexists. reflexivity.
Qed.
Lemma params_text_missing : forall show ps l p, In p l -> agn_get ps p = None -> params_text show ps l = Err KeyError.
Proof.
  intros show ps. induction l as [|q l IH]; intros p I G; [destruct I|]. cbn [params_text].
  destruct (agn_get ps q) as [v|] eqn:Q; [|reflexivity]. destruct I as [->|I]; [congruence|]. rewrite (IH p I G). reflexivity.
Qed.
Lemma params_text_err : forall show ps l x, params_text show ps l = x -> (exists t, x = Ok t) \/ x = Err KeyError.
Proof.
  intros show ps. induction l as [|q l IH]; intros x <-; cbn [params_text]; [left; eexists; reflexivity|].
  destruct (agn_get ps q) as [v|]; [|right; reflexivity]. destruct (IH _ eq_refl) as [[t ->]| ->]; [left; eexists; reflexivity|right; reflexivity].
Qed.

Lemma mapped : forall (m : mapping) k, NoDup (map fst m) ->
  (exists v, dget text_dec m k = Some v /\ In (k, v) m /\ forall w, In (k, w) m -> w = v) \/
  (dget text_dec m k = None /\ forall w, ~ In (k, w) m).
Proof.
  intros m k N. destruct (dget text_dec m k) as [v|] eqn:D.
  - left. exists v. repeat split; auto; [apply dget_in in D; exact D|]. intros w I.
    assert (E : dget text_dec m k = Some w) by (apply in_dget; assumption). congruence.
  - right. split; [reflexivity|]. intros w I. apply dget_none in D. apply D. change k with (fst (k, w)). apply in_map. exact I.
Qed.

Lemma truthy_false : forall v, truthy v = false <-> v = VNum 0 \/ v = VStr "".
Proof.
  intros [r|s]; cbn.
  - destruct (Req_EM_T r 0) as [->|N]; split; intros H; auto; try discriminate. destruct H as [H|H]; [injection H as H; contradiction|discriminate].
  - split.
    + intros H. apply negb_false_iff in H. apply String.eqb_eq in H. subst. auto.
    + intros [H|H]; [discriminate|]. injection H as ->. reflexivity.
Qed.

Lemma ok_inj : forall {A} (a b : A), Ok a = Ok b -> a = b.
Proof. intros A a b H. congruence. Qed.
Lemma define_ok : forall m show e t, NoDup (map fst m) -> define m show e = Ok t -> defines m show e t.
Proof.
  intros m show e t N H. unfold define in H. rewrite !upper_capitals in H.
  destruct (mapped m (in_capitals (e_type e)) N) as [([ty ps] & D & I & U)|(D & U)]; rewrite D in H.
  - destruct (params_text show (e_params e) ps) as [u| |] eqn:P; try discriminate. cbn [rbind] in H. apply ok_inj in H. subst t.
    destruct (params_text_ok _ _ _ _ P) as (vs & F & ->). unfold head. rewrite <- !app_assoc.
    exact (def_known m show e ty ps vs I F).
  - apply ok_inj in H. subst t. unfold head, param_text.
    assert (Q : forall v, (in_capitals (e_name e) ++ T " = wp." ++ T "Drft" ++ T "(") ++ (T " " ++ T "l" ++ T "=" ++ show v ++ T ",") ++ T ")" ++ [newline] =
       uname e ++ T " = wp.Drft( l=" ++ show v ++ T ",)" ++ [newline]) by (intros v; unfold uname; rewrite <- !app_assoc; reflexivity).
    rewrite Q. destruct (agn_get (e_params e) "l") as [v|] eqn:L.
    + destruct (truthy v) eqn:V.
      * apply def_drift; auto; intros ->; assert (X : truthy (VNum 0) = false /\ truthy (VStr "") = false) by (split; apply truthy_false; auto); destruct X; congruence.
      * apply def_nothing; auto. right. apply truthy_false in V. destruct V as [->| ->]; auto.
    + apply def_nothing; auto.
Qed.
Lemma define_total : forall m show e, NoDup (map fst m) -> complete m e -> exists t, define m show e = Ok t.
Proof.
  intros m show e N C. unfold define. rewrite !upper_capitals.
  destruct (mapped m (in_capitals (e_type e)) N) as [([ty ps] & D & I & U)|(D & U)]; rewrite D; [|eexists; reflexivity].
  destruct (params_text_total show (e_params e) ps) as [u ->]; [intros p Ip; apply (C ty ps p I Ip)|]. eexists. reflexivity.
Qed.
Lemma define_missing : forall m show e ty ps p, NoDup (map fst m) -> In (in_capitals (e_type e), (ty, ps)) m -> In p ps -> agn_get (e_params e) p = None ->
  define m show e = Err KeyError.
Proof.
  intros m show e ty ps p N I Ip G. unfold define. rewrite !upper_capitals.
  destruct (mapped m (in_capitals (e_type e)) N) as [(v & D & _ & U)|(D & U)]; [|exfalso; exact (U _ I)]. rewrite D, <- (U _ I).
  rewrite (params_text_missing _ _ _ _ Ip G). reflexivity.
Qed.
Lemma define_err : forall m show e, (exists t, define m show e = Ok t) \/ define m show e = Err KeyError.
Proof.
  intros m show e. unfold define. destruct (dget text_dec m (upper (e_type e))) as [[ty ps]|]; [|left; eexists; reflexivity].
  destruct (params_text_err show (e_params e) ps _ eq_refl) as [[t ->]| ->]; [left; eexists; reflexivity|right; reflexivity].
Qed.

Lemma seen_dec : forall n ns, existsb (teqb n) ns = true <-> In n ns.
Proof.
  intros n ns. rewrite existsb_exists. split.
  - intros (x & I & E). apply teqb_eq in E. subst. exact I.
  - intros I. exists n. split; [exact I|apply teqb_eq; reflexivity].
Qed.

Lemma write_ok : forall m show els ns, NoDup (map fst m) -> (forall e, first_of_name els e -> ~ In (uname e) ns -> complete m e) ->
  exists ds ts, write_elements m show ns els = (ns ++ map uname ds, Ok (List.concat ts, List.concat (map (fun e => uname e ++ T " + ") els))) /\
    Forall2 (defines m show) ds ts /\ NoDup (map uname ds) /\
    (forall d, In d ds -> first_of_name els d /\ ~ In (uname d) ns) /\
    (forall e, In e els -> In (uname e) ns \/ exists d, In d ds /\ uname d = uname e).
Proof.
  intros m show. induction els as [|e els IH]; intros ns N C.
  - exists [], []. cbn. rewrite app_nil_r. refine (conj eq_refl (conj (Forall2_nil _) (conj (NoDup_nil _) (conj _ _)))); intros ? [].
  - cbn [write_elements]. rewrite upper_capitals. fold (uname e). destruct (existsb (teqb (uname e)) ns) eqn:S1.
    + apply seen_dec in S1. destruct (IH ns N) as (ds & ts & E & F & Nd & A & B).
      { intros x (p & q & -> & Hx) Nx. apply C; [|exact Nx]. exists (e :: p), q. split; [reflexivity|]. intros y [<-|Iy]; [congruence|auto]. }
      exists ds, ts. rewrite E. repeat split; auto.
      * cbn [map List.concat]. rewrite <- app_assoc. reflexivity.
      * destruct (A d H) as [(p & q & -> & Hx) Nx]. exists (e :: p), q. split; [reflexivity|]. intros y [<-|Iy]; [congruence|auto].
      * apply (A d H).
      * intros x [<-|I]; [left; exact S1|auto].
    + assert (Ne : ~ In (uname e) ns) by (intros I; apply seen_dec in I; congruence).
      destruct (define_total m show e N) as [t Et]. { apply C; [exists [], els; split; [reflexivity|intros ? []]|exact Ne]. }
      rewrite Et. destruct (IH (ns ++ [uname e]) N) as (ds & ts & E & F & Nd & A & B).
      { intros x (p & q & -> & Hx) Nx. rewrite in_app_iff in Nx. apply C; [|tauto]. exists (e :: p), q. split; [reflexivity|].
        intros y [<-|Iy]; [intros Q; apply Nx; right; left; exact Q|auto]. }
      exists (e :: ds), (t :: ts). rewrite E. split; [|split; [|split; [|split]]].
      * cbn [map List.concat]. rewrite <- !app_assoc. reflexivity.
      * constructor; [apply define_ok; assumption|exact F].
      * cbn [map]. constructor; [|exact Nd]. intros I. apply in_map_iff in I. destruct I as (d & Q & I). destruct (A d I) as [_ Nx]. apply Nx. apply in_app_iff. right. left. symmetry. exact Q.
      * intros d [<-|I]; [split; [exists [], els; split; [reflexivity|intros ? []]|exact Ne]|].
        destruct (A d I) as [(p & q & -> & Hx) Nx]. rewrite in_app_iff in Nx. split; [|tauto].
        exists (e :: p), q. split; [reflexivity|]. intros y [<-|Iy]; [intros Q; apply Nx; right; left; exact Q|auto].
      * intros x [<-|I]; [right; exists e; split; [left; reflexivity|reflexivity]|]. destruct (B x I) as [J|(d & J & Q)].
        -- apply in_app_iff in J. destruct J as [J|[J|[]]]; [left; exact J|right; exists e; split; [left; reflexivity|exact J]].
        -- right. exists d. split; [right; exact J|exact Q].
Qed.

Lemma write_missing : forall m show els ns e ty ps p, NoDup (map fst m) -> first_of_name els e -> ~ In (uname e) ns ->
  In (in_capitals (e_type e), (ty, ps)) m -> In p ps -> agn_get (e_params e) p = None ->
  snd (write_elements m show ns els) = Err KeyError.
Proof.
  intros m show. induction els as [|x els IH]; intros ns e ty ps p N (a & b & E & Hf) Ne Im Ip G; [destruct a; discriminate|].
  cbn [write_elements]. rewrite upper_capitals. fold (uname x). destruct a as [|y a]; cbn in E; injection E as -> E.
  - destruct (existsb (teqb (uname e)) ns) eqn:S1; [apply seen_dec in S1; contradiction|]. rewrite (define_missing m show e ty ps p N Im Ip G). reflexivity.
  - assert (Ny : uname y <> uname e) by (apply Hf; left; reflexivity).
    assert (Fe : first_of_name els e) by (exists a, b; split; [exact E|intros z Iz; apply Hf; right; exact Iz]).
    destruct (existsb (teqb (uname y)) ns).
    + specialize (IH ns e ty ps p N Fe Ne Im Ip G). destruct (write_elements m show ns els) as [ns' [[c l]|z|]]; cbn in IH; try discriminate. injection IH as ->. reflexivity.
    + destruct (define_err m show y) as [[t ->]| ->]; [|reflexivity].
      specialize (IH (ns ++ [uname y]) e ty ps p N Fe). rewrite in_app_iff in IH. cbn [In] in IH.
      specialize (IH ltac:(intuition congruence) Im Ip G). destruct (write_elements m show (ns ++ [uname y]) els) as [ns' [[c l]|z|]]; cbn in IH; try discriminate. injection IH as ->. reflexivity.
Qed.

Lemma cut_plus : forall l, l <> [] -> cut_two (List.concat (map (fun n : text => n ++ T " + ") l)) = join (T " + ") l ++ T " ".
Proof.
  assert (G : forall l n, List.concat (map (fun n : text => n ++ T " + ") (n :: l)) = join (T " + ") (n :: l) ++ T " + ").
  { induction l as [|k l IH]; intros n; [cbn [map List.concat join]; rewrite app_nil_r; reflexivity|].
    change (List.concat (map (fun n0 : text => n0 ++ T " + ") (n :: k :: l))) with ((n ++ T " + ") ++ List.concat (map (fun n0 : text => n0 ++ T " + ") (k :: l))).
    rewrite IH. change (join (T " + ") (n :: k :: l)) with (n ++ T " + " ++ join (T " + ") (k :: l)). rewrite <- !app_assoc. reflexivity. }
  intros [|n l] H; [contradiction|]. rewrite G. generalize (join (T " + ") (n :: l)). intros t. unfold cut_two. rewrite rev_app_distr.
  change (skipn 2 (rev (T " + ") ++ rev t)) with (rev (T " ") ++ rev t). rewrite <- rev_app_distr, rev_involutive. reflexivity.
Qed.
Lemma cut_app : forall a b, (2 <= List.length b)%nat -> cut_two (a ++ b) = a ++ cut_two b.
Proof.
  intros a b H. unfold cut_two. rewrite rev_app_distr. rewrite skipn_app, rev_length. replace (2 - List.length b)%nat with 0%nat by lia.
  cbn [skipn]. rewrite rev_app_distr, rev_involutive. reflexivity.
Qed.

(* ---------------- strengths ---------------- *)
Lemma gradient_value : forall k E m n, 0 < m -> m <= E -> get_gradient k E m n = Ok (Some (k * (rigidity (momentum_at E m)) ^ n)).
Proof.
  intros k E m n Hm HE. unfold get_gradient, pdiv. destruct (Req_EM_T m 0) as [Z|_]; [lra|]. cbn [rbind].
  assert (G : 1 <= E / m) by (apply Rmult_le_reg_r with m; [lra|]; unfold Rdiv; rewrite Rmult_assoc, Rinv_l by lra; lra).
  assert (G2 : 1 <= (E / m) ^ 2) by nra. destruct (Req_EM_T ((E / m) ^ 2) 0) as [Z|_]; [lra|]. cbn [rbind].
  assert (I1 : 0 <= 1 - 1 / (E / m) ^ 2).
  { assert (1 / (E / m) ^ 2 <= 1); [|lra]. apply Rmult_le_reg_r with ((E / m) ^ 2); [lra|]. unfold Rdiv at 1. rewrite Rmult_assoc, Rinv_l by lra. lra. }
  unfold nsqrt. destruct (Rlt_dec (1 - 1 / (E / m) ^ 2) 0) as [Z|_]; [lra|]. cbn [fmap1]. do 4 f_equal.
  assert (Lp : light <> 0) by (unfold light; lra). assert (Cp : charge <> 0) by (unfold charge; apply Rgt_not_eq; apply Rdiv_lt_0_compat; [lra|apply pow_lt; lra]).
  unfold rigidity, momentum_at.
  assert (Q : sqrt (1 - 1 / (E / m) ^ 2) * E = sqrt (E ^ 2 - m ^ 2)).
  { rewrite <- (sqrt_pow2 E) at 2 by lra. rewrite <- sqrt_mult by (try exact I1; nra). f_equal. field. lra. }
  rewrite <- Q. field. repeat split; lra.
Qed.
Lemma gradient_zero : forall k m n, m <> 0 -> get_gradient k 0 m n = Err ZeroDivisionError.
Proof.
  intros. unfold get_gradient, pdiv. destruct (Req_EM_T m 0); [contradiction|]. cbn [rbind]. destruct (Req_EM_T ((0 / m) ^ 2) 0) as [_|N]; [reflexivity|].
  exfalso. apply N. unfold Rdiv. rewrite Rmult_0_l. cbn. lra.
Qed.
Lemma gradient_nan : forall k E m n, 0 < m -> 0 < E < m -> get_gradient k E m n = Ok None.
Proof.
  intros k E m n Hm HE. unfold get_gradient, pdiv. destruct (Req_EM_T m 0) as [Z|_]; [lra|]. cbn [rbind].
  assert (P : 0 < E / m) by (apply Rdiv_lt_0_compat; lra).
  assert (G : E / m < 1) by (apply Rmult_lt_reg_r with m; [lra|]; unfold Rdiv; rewrite Rmult_assoc, Rinv_l by lra; lra).
  assert (G2 : 0 < (E / m) ^ 2 < 1) by nra. destruct (Req_EM_T ((E / m) ^ 2) 0) as [Z|_]; [lra|]. cbn [rbind].
  unfold nsqrt. destruct (Rlt_dec (1 - 1 / (E / m) ^ 2) 0) as [_|Z]; [reflexivity|]. exfalso. apply Z.
  assert (1 < 1 / (E / m) ^ 2); [|lra]. apply Rmult_lt_reg_r with ((E / m) ^ 2); [lra|]. unfold Rdiv at 2. rewrite Rmult_assoc, Rinv_l by lra. lra.
Qed.

(** Nothing but parameters changes. *)
Lemma convert_other : forall E m f e ps k, convert E m f e = Ok ps -> ~ same_name k "db" -> ~ same_name k "rc" -> agn_get ps k = agn_get (e_params e) k.
Proof.
  intros E m f e ps k H N1 N2.
  assert (A : forall k0 v, ~ same_name k k0 -> agn_get (agn_set (e_params e) k0 v) k = agn_get (e_params e) k).
  { intros k0 v N. rewrite agn_get_set. destruct (string_dec (lower k) (lower k0)) as [Q|_]; [|reflexivity]. exfalso. apply N. apply same_name_lower. exact Q. }
  unfold convert in H.
  destruct (_ || _)%bool; [|destruct (_ || _)%bool; [|destruct (String.eqb _ _)]]; repeat match type of H with rbind ?x _ = Ok _ => destruct x; try discriminate; cbn [rbind] in H end; injection H as <-; auto.
Qed.
Lemma convert_again : forall E m f e ps, convert E m f e = Ok ps -> convert E m f (with_params e ps) = Ok (match convert E m f (with_params e ps) with Ok p => p | _ => ps end) /\
  forall k, agn_get (match convert E m f (with_params e ps) with Ok p => p | _ => ps end) k = agn_get ps k.
Proof.
  intros E m f e ps H.
  assert (P : forall k, ~ same_name k "db" -> ~ same_name k "rc" -> float_param ps k = float_param (e_params e) k).
  { intros k N1 N2. unfold float_param. rewrite (convert_other E m f e ps k H N1 N2). reflexivity. }
  assert (NS : forall k, In k ["k1"; "k2"; "l"; "angle"]%string -> ~ same_name k "db" /\ ~ same_name k "rc").
  { intros k I. split; intros Q; apply same_name_lower in Q; cbn in I; repeat (destruct I as [<-|I]; [vm_compute in Q; discriminate|]); destruct I. }
  unfold convert in *. cbn [e_type e_params with_params].
  assert (A : forall d k0 v k, agn_get (agn_set (agn_set d k0 v) k0 v) k = agn_get (agn_set d k0 v) k).
  { intros d k0 v k. rewrite !agn_get_set. destruct (string_dec (lower k) (lower k0)); reflexivity. }
  destruct (_ || _)%bool; [|destruct (_ || _)%bool; [|destruct (String.eqb _ _)]].
  - rewrite (P "k1"%string) by (apply NS; cbn; tauto). repeat match type of H with rbind ?x _ = Ok _ => destruct x; try discriminate; cbn [rbind] in * end.
    injection H as <-. cbn [rbind]. split; [reflexivity|]. intros k. apply A.
  - rewrite (P "l"%string), (P "angle"%string) by (apply NS; cbn; tauto). repeat match type of H with rbind ?x _ = Ok _ => destruct x; try discriminate; cbn [rbind] in * end.
    injection H as <-. cbn [rbind]. split; [reflexivity|]. intros k. apply A.
  - rewrite (P "k2"%string) by (apply NS; cbn; tauto). repeat match type of H with rbind ?x _ = Ok _ => destruct x; try discriminate; cbn [rbind] in * end.
    injection H as <-. cbn [rbind]. split; [reflexivity|]. intros k. apply A.
  - injection H as <-. split; reflexivity.
Qed.

Lemma convert_all_ok : forall E m f addrs h h', convert_all E m f h addrs = (h', Ok tt) ->
  lines h' = lines h /\ List.length (elems h') = List.length (elems h) /\
  forall e el, nth_error (elems h) e = Some el -> exists el', nth_error (elems h') e = Some el' /\
    e_name el' = e_name el /\ e_type el' = e_type el /\ e_line el' = e_line el /\
    (~ In e addrs -> el' = el) /\
    (In e addrs -> exists ps, convert E m f el = Ok ps /\ forall k, agn_get (e_params el') k = agn_get ps k).
Proof.
  intros E m f. induction addrs as [|a r IH]; intros h h' H; cbn [convert_all] in H.
  - injection H as <-. repeat split; auto. intros e el He. exists el. repeat split; auto. intros [].
  - destruct (nth_error (elems h) a) as [ea|] eqn:Ha; [|discriminate]. destruct (convert E m f ea) as [ps| |] eqn:C; try discriminate.
    destruct (IH _ _ H) as (L & Ln & F). split; [exact L|]. split; [rewrite Ln; unfold upd_elem; cbn [elems]; apply upd_length|].
    intros e el He. destruct (Nat.eq_dec a e) as [->|Nae].
    + rewrite Ha in He. injection He as ->.
      destruct (F e (with_params el ps)) as (el' & He' & N & Ty & Li & O1 & O2).
      { unfold upd_elem. cbn [elems]. exact (upd_same _ _ _ _ Ha). }
      exists el'. repeat split; auto.
      * intros X. exfalso. apply X. left. reflexivity.
      * intros _. exists ps. split; [exact C|]. intros k. destruct (in_dec Nat.eq_dec e r) as [I|I].
        -- destruct (O2 I) as (ps' & C' & G). destruct (convert_again E m f el ps C) as [_ A]. rewrite G. rewrite C' in A. apply A.
        -- rewrite (O1 I). reflexivity.
    + destruct (F e el) as (el' & He' & N & Ty & Li & O1 & O2).
      { unfold upd_elem. cbn [elems]. rewrite upd_other by exact Nae. exact He. }
      exists el'. repeat split; auto.
      * intros X. apply O1. intros I. apply X. right. exact I.
      * intros [X|I]; [congruence|auto].
Qed.

Lemma holds_float : forall ps k x, holds ps k x -> float_param ps k = Ok x.
Proof.
  intros ps k x [H|(s & H & P)]; unfold float_param; rewrite H; cbn; [reflexivity|]. rewrite P. reflexivity.
Qed.
Lemma agn_same : forall d k v, agn_get (agn_set d k v) k = Some v.
Proof. intros. rewrite agn_get_set. destruct (string_dec (lower k) (lower k)); [reflexivity|contradiction]. Qed.
Lemma convert_quad : forall E m f el k, 0 < m -> m <= E -> e_type el = "quad"%string -> agn_get (e_params el) "k1" = Some (VNum k) ->
  convert E m f el = Ok (agn_set (e_params el) "db" (VNum ((1 - 2 * (if f then 1 else 0)) * (k * rigidity (momentum_at E m) ^ 1)))).
Proof.
  intros E m f el k Hm HE Ty Hk. unfold convert. rewrite Ty. change (String.eqb "quad" "kquad" || String.eqb "quad" "quad")%bool with true.
  unfold float_param. rewrite Hk. cbn [float_of rbind]. rewrite (gradient_value k E m 1 Hm HE). reflexivity.
Qed.
Lemma convert_sext : forall E m f el k, 0 < m -> m <= E -> e_type el = "sext"%string -> agn_get (e_params el) "k2" = Some (VNum k) ->
  convert E m f el = Ok (agn_set (e_params el) "db" (VNum ((1 - 2 * (if f then 1 else 0)) * (k * rigidity (momentum_at E m) ^ 2)))).
Proof.
  intros E m f el k Hm HE Ty Hk. unfold convert. rewrite Ty. change (String.eqb "sext" "kquad" || String.eqb "sext" "quad")%bool with false.
  change (String.eqb "sext" "csbend" || String.eqb "sext" "rben")%bool with false. change (String.eqb "sext" "sext") with true.
  unfold float_param. rewrite Hk. cbn [float_of rbind]. rewrite (gradient_value k E m 2 Hm HE). reflexivity.
Qed.
Lemma write_single : forall m show n el t, define m show el = Ok t -> snd (write_file m show [] n [el]) = Ok (program [t] n [uname el]).
Proof.
  intros m show n el t H. unfold write_file. cbn [write_elements existsb]. rewrite H. cbn [snd]. f_equal. unfold program. do 2 f_equal.
  cbn [List.concat join]. rewrite app_nil_r. f_equal. rewrite upper_capitals. fold (uname el). rewrite app_nil_r.
  change (uname el ++ T " + ") with (uname el ++ T " " ++ T "+ "). rewrite !app_assoc. rewrite cut_app by (cbn; lia). cbn. rewrite app_nil_r. reflexivity.
Qed.

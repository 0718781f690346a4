(** C121: transfer matrices of beamlines put together, and of equal elements in a row
    (rsbeams/rslattice/Beamline.py generate_matrix). *)
From Coq Require Import List Reals Lra Lia Psatz String Arith.
From Verif Require Import PyBase Line_Model Line_Spec Line_Proofs Line_Props.
Import ListNotations.
Open Scope R_scope.

Lemma product_app : forall r s i j, (i < 4)%nat -> (j < 4)%nat -> product (r ++ s) i j = sum4 (fun k => product s i k * product r k j).
Proof.
  induction r as [|m r IH]; intros s i j Hi Hj; cbn [app product].
  - unfold sum4. do 4 (destruct j as [|j]; [cbn; ring|]). lia.
  - unfold sum4. rewrite !IH by (assumption || lia). unfold sum4. ring.
Qed.

(** The types of the elements of a sequence *)
Definition types (h : heap) (s : list ref) (ts : list string) : Prop :=
  Forall2 (fun r ty => exists e el, r = RE e /\ element_at h e = Some el /\ e_type el = ty) s ts.
Definition of_type (v : env) (ty : string) : mat := if String.eqb ty "quadrupole" then quad_matrix v else drift_matrix v.
Lemma by_types : forall ops a s ts M v i j, sequence (history ops) a = Some s -> types (history ops) s ts -> generate_matrix (history ops) a = Ok M -> (i < 4)%nat -> (j < 4)%nat ->
  M v i j = product (map (of_type v) ts) i j.
Proof.
  intros ops a s ts M v i j S T G Hi Hj. destruct (C40_product_partial ops a s M S G) as (ms & F & P). rewrite P by assumption. f_equal.
  clear - F T. revert ms F. induction T as [|r ty s ts X T IH]; intros ms F; inversion F as [|r' m s' ms' Y F']; subst; [reflexivity|]. cbn [map]. rewrite (IH ms' F'). f_equal.
  destruct X as (e & el & -> & Ee & <-). destruct Y as (e' & el' & Er & Ee' & Y). injection Er as <-. rewrite Ee in Ee'. injection Ee' as <-. unfold of_type.
  destruct Y as [[-> Y]|[-> Y]]; rewrite Y; reflexivity.
Qed.
(** Two beamlines one behind the other: the matrix of the second times that of the first. *)
Theorem C121_joined : forall ops a b c s t u ts tt A B C v i j,
  sequence (history ops) a = Some s -> sequence (history ops) b = Some t -> sequence (history ops) c = Some u ->
  types (history ops) s ts -> types (history ops) t tt -> types (history ops) u (ts ++ tt) ->
  generate_matrix (history ops) a = Ok A -> generate_matrix (history ops) b = Ok B -> generate_matrix (history ops) c = Ok C ->
  v "K1"%string <> 0 -> (i < 4)%nat -> (j < 4)%nat -> C v i j = sum4 (fun k => B v i k * A v k j).
Proof.
  intros ops a b c s t u ts tt A B C v i j Sa Sb Sc Ts Tt Tu Ga Gb Gc _ Hi Hj. rewrite (by_types ops c u _ C v i j Sc Tu Gc Hi Hj), map_app, product_app by assumption.
  unfold sum4. rewrite !(by_types ops a s ts A v _ _ Sa Ts Ga), !(by_types ops b t tt B v _ _ Sb Tt Gb) by (assumption || lia). reflexivity.
Qed.
Print Assumptions C121_joined.

Lemma cc_add : forall k a b, cc k (a + b) = cc k a * cc k b - k * (ss k a * ss k b).
Proof.
  intros k a b. unfold cc, ss. destruct (Rlt_dec k 0) as [N|N].
  - assert (Q : sqrt (- k) * sqrt (- k) = - k) by (apply sqrt_sqrt; lra). assert (P : 0 < sqrt (- k)) by (apply sqrt_lt_R0; lra). set (q := sqrt (- k)) in *. clearbody q. replace k with (- (q * q)) by lra.
    replace (q * (a + b)) with (q * a + q * b) by ring. replace (- (q * a + q * b)) with (- (q * a) + - (q * b)) by ring. rewrite !exp_plus. field. lra.
  - destruct (Req_EM_T k 0) as [->|Z].
    + rewrite sqrt_0, !Rmult_0_l, cos_0. ring.
    + assert (P : 0 < sqrt k) by (apply sqrt_lt_R0; lra). assert (Q : sqrt k * sqrt k = k) by (apply sqrt_sqrt; lra). rewrite Rmult_plus_distr_l, cos_plus.
      replace (k * (sin (sqrt k * a) / sqrt k * (sin (sqrt k * b) / sqrt k))) with (k / (sqrt k * sqrt k) * (sin (sqrt k * a) * sin (sqrt k * b))) by (field; lra). rewrite Q. field. lra.
Qed.
Lemma ss_add : forall k a b, ss k (a + b) = ss k a * cc k b + cc k a * ss k b.
Proof.
  intros k a b. unfold cc, ss. destruct (Rlt_dec k 0) as [N|N].
  - assert (P : 0 < sqrt (- k)) by (apply sqrt_lt_R0; lra). set (q := sqrt (- k)) in *. clearbody q.
    replace (q * (a + b)) with (q * a + q * b) by ring. replace (- (q * a + q * b)) with (- (q * a) + - (q * b)) by ring. rewrite !exp_plus. field. lra.
  - destruct (Req_EM_T k 0) as [->|Z].
    + rewrite sqrt_0, !Rmult_0_l, cos_0. ring.
    + assert (P : 0 < sqrt k) by (apply sqrt_lt_R0; lra). rewrite Rmult_plus_distr_l, sin_plus. field. lra.
Qed.
Lemma cc_0 : forall k, cc k 0 = 1.
Proof. intros k. unfold cc. destruct (Rlt_dec k 0); rewrite !Rmult_0_r, ?Ropp_0, ?exp_0, ?cos_0; lra. Qed.
Lemma ss_0 : forall k, ss k 0 = 0.
Proof. intros k. unfold ss. destruct (Rlt_dec k 0); [|destruct (Req_EM_T k 0)]; rewrite ?Rmult_0_r, ?Ropp_0, ?exp_0, ?sin_0; try lra; unfold Rdiv; ring. Qed.
(** the same symbols with another length *)
Definition longer (n : nat) (v w : env) : Prop := w "K1"%string = v "K1"%string /\ w "L"%string = INR n * v "L"%string.
Lemma quads : forall n v w i j, (i < 4)%nat -> (j < 4)%nat -> longer n v w -> product (repeat (quad_matrix v) n) i j = quad_matrix w i j.
Proof.
  intros n v w i j Hi Hj [K L]. revert w K L i j Hi Hj. induction n as [|n IH]; intros w K L i j Hi Hj.
  - cbn [INR] in L. rewrite Rmult_0_l in L. unfold quad_matrix. rewrite K, L. cbn [repeat product].
    do 4 (destruct i as [|i]; [do 4 (destruct j as [|j]; [cbn; rewrite ?cc_0, ?ss_0; ring|]); lia|]). lia.
  - cbn [repeat product]. set (w' := fun x => if String.eqb x "L" then INR n * v "L"%string else w x).
    assert (K' : w' "K1"%string = v "K1"%string) by exact K. assert (L' : w' "L"%string = INR n * v "L"%string) by reflexivity.
    unfold sum4. rewrite !(IH w' K' L') by (assumption || lia). unfold quad_matrix. rewrite K, L, K', L', S_INR. set (k := v "K1"%string). set (l := v "L"%string). replace ((INR n + 1) * l) with (INR n * l + l) by ring.
    do 4 (destruct i as [|i]; [do 4 (destruct j as [|j]; [cbn; rewrite ?cc_add, ?ss_add; ring|]); lia|]). lia.
Qed.
Lemma drifts : forall n v w i j, (i < 4)%nat -> (j < 4)%nat -> longer n v w -> product (repeat (drift_matrix v) n) i j = drift_matrix w i j.
Proof.
  intros n v w i j Hi Hj [K L]. revert w K L i j Hi Hj. induction n as [|n IH]; intros w K L i j Hi Hj.
  - cbn [INR] in L. rewrite Rmult_0_l in L. unfold drift_matrix. rewrite L. cbn [repeat product].
    do 4 (destruct i as [|i]; [do 4 (destruct j as [|j]; [cbn; ring|]); lia|]). lia.
  - cbn [repeat product]. set (w' := fun x => if String.eqb x "L" then INR n * v "L"%string else w x).
    assert (K' : w' "K1"%string = v "K1"%string) by exact K. assert (L' : w' "L"%string = INR n * v "L"%string) by reflexivity.
    unfold sum4. rewrite !(IH w' K' L') by (assumption || lia). unfold drift_matrix. rewrite L, L', S_INR. 
    do 4 (destruct i as [|i]; [do 4 (destruct j as [|j]; [cbn -[INR]; ring|]); lia|]). lia.
Qed.
(** A beamline that holds only quadrupoles, or only drifts: its matrix is that of one such element, n times as long. *)
Theorem C121_row : forall ops a b s t ty n A B v w i j, sequence (history ops) a = Some s -> sequence (history ops) b = Some t ->
  types (history ops) s (repeat ty n) -> types (history ops) t [ty] ->
  generate_matrix (history ops) a = Ok A -> generate_matrix (history ops) b = Ok B -> longer n v w -> v "K1"%string <> 0 ->
  (i < 4)%nat -> (j < 4)%nat -> A v i j = B w i j.
Proof.
  intros ops a b s t ty n A B v w i j Sa Sb Ta Tb Ga Gb Lw _ Hi Hj. rewrite (by_types ops a s _ A v i j Sa Ta Ga Hi Hj), (by_types ops b t _ B w i j Sb Tb Gb Hi Hj).
  assert (One : forall m : mat, product [m] i j = m i j) by (clear - Hi; intros q; cbn [product]; unfold sum4; do 4 (destruct i as [|i]; [cbn; ring|]); lia).
  assert (Rep : map (of_type v) (repeat ty n) = repeat (of_type v ty) n) by (clear; induction n; [reflexivity|cbn; f_equal; assumption]).
  cbn [map]. rewrite One, Rep. unfold of_type. destruct (String.eqb ty "quadrupole"); [apply quads|apply drifts]; assumption.
Qed.
Print Assumptions C121_row.

(** Three beamlines: q q, d, and q q d; and one quadrupole alone. *)
Definition calls : list op := [NewLine (Some "two"%string); AddElement 0 "q"%string "quadrupole"%string [] false; AddElement 0 "q"%string "quadrupole"%string [] false;
  NewLine (Some "free"%string); AddElement 1 "d"%string "drift"%string [] false;
  NewLine (Some "all"%string); AddElement 2 "q"%string "quadrupole"%string [] false; AddElement 2 "q"%string "quadrupole"%string [] false; AddElement 2 "d"%string "drift"%string [] false;
  NewLine (Some "one"%string); AddElement 3 "p"%string "quadrupole"%string [] false].
Lemma has_matrix : forall ops a s ts, sequence (history ops) a = Some s -> types (history ops) s ts -> ts <> [] -> (forall ty, In ty ts -> ty = "quadrupole"%string \/ ty = "drift"%string) ->
  exists M, generate_matrix (history ops) a = Ok M.
Proof.
  intros ops a s ts S T N Q. apply (proj1 (proj2 (C40_defined ops a s S))).
  - intros ->. inversion T; subst. contradiction.
  - clear S N. revert Q. induction T as [|r ty s ts (e & el & -> & E & <-) T IH]; intros Q q I; [destruct I|]. destruct I as [<-|I]; [exists e, el; split; [reflexivity|]; split; [exact E|]; apply Q; left; reflexivity|].
    apply IH; [intros t It; apply Q; right; exact It|exact I].
Qed.
Example C121_applies : exists s t u r A B C D, sequence (history calls) 0 = Some s /\ sequence (history calls) 1 = Some t /\ sequence (history calls) 2 = Some u /\ sequence (history calls) 3 = Some r /\
  types (history calls) s (repeat "quadrupole"%string 2) /\ types (history calls) t ["drift"%string] /\ types (history calls) u (repeat "quadrupole"%string 2 ++ ["drift"%string]) /\ types (history calls) r ["quadrupole"%string] /\
  generate_matrix (history calls) 0 = Ok A /\ generate_matrix (history calls) 1 = Ok B /\ generate_matrix (history calls) 2 = Ok C /\ generate_matrix (history calls) 3 = Ok D /\
  exists v w, longer 2 v w /\ v "K1"%string <> 0 /\ v "L"%string = 3.
Proof.
  assert (S0 : exists s, sequence (history calls) 0 = Some s /\ types (history calls) s (repeat "quadrupole"%string 2)) by (eexists; split; [vm_compute; reflexivity|]; repeat (constructor; [do 2 eexists; split; [reflexivity|split; [vm_compute; reflexivity|reflexivity]]|]); constructor).
  assert (S1 : exists s, sequence (history calls) 1 = Some s /\ types (history calls) s ["drift"%string]) by (eexists; split; [vm_compute; reflexivity|]; repeat (constructor; [do 2 eexists; split; [reflexivity|split; [vm_compute; reflexivity|reflexivity]]|]); constructor).
  assert (S2 : exists s, sequence (history calls) 2 = Some s /\ types (history calls) s (repeat "quadrupole"%string 2 ++ ["drift"%string])) by (eexists; split; [vm_compute; reflexivity|]; repeat (constructor; [do 2 eexists; split; [reflexivity|split; [vm_compute; reflexivity|reflexivity]]|]); constructor).
  assert (S3 : exists s, sequence (history calls) 3 = Some s /\ types (history calls) s ["quadrupole"%string]) by (eexists; split; [vm_compute; reflexivity|]; repeat (constructor; [do 2 eexists; split; [reflexivity|split; [vm_compute; reflexivity|reflexivity]]|]); constructor).
  destruct S0 as (s & S0 & T0). destruct S1 as (t & S1 & T1). destruct S2 as (u & S2 & T2). destruct S3 as (r & S3 & T3).
  destruct (has_matrix _ _ _ _ S0 T0) as [A G0]; [discriminate|cbn; intuition|]. destruct (has_matrix _ _ _ _ S1 T1) as [B G1]; [discriminate|cbn; intuition|].
  destruct (has_matrix _ _ _ _ S2 T2) as [C G2]; [discriminate|cbn; intuition|]. destruct (has_matrix _ _ _ _ S3 T3) as [D G3]; [discriminate|cbn; intuition|].
  exists s, t, u, r, A, B, C, D. do 12 (split; [assumption|]).
  exists (fun _ => 3), (fun x => if String.eqb x "K1" then 3 else 6). split; [split; cbn; lra|]. split; [lra|reflexivity].
Qed.

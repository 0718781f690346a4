(** The transfer matrices solve the equations of motion. *)
From Coq Require Import List Reals Arith String Lia Lra.
From Coquelicot Require Import Coquelicot.
From Verif Require Import PyBase PyDict Line_Model Line_Spec.
Import ListNotations.
Open Scope R_scope.

Lemma cc_zero : forall k, cc k 0 = 1.
Proof. intros k. unfold cc. destruct (Rlt_dec k 0); rewrite ?Rmult_0_r, ?Ropp_0, ?exp_0, ?cos_0; lra. Qed.
Lemma ss_zero : forall k, ss k 0 = 0.
Proof.
  intros k. unfold ss. destruct (Rlt_dec k 0); [|destruct (Req_EM_T k 0)]; rewrite ?Rmult_0_r, ?Ropp_0, ?exp_0, ?sin_0; try reflexivity; unfold Rdiv; ring.
Qed.
Lemma cc_derive : forall k l, k <> 0 -> derivable_pt_lim (cc k) l (- k * ss k l).
Proof.
  intros k l K. apply is_derive_Reals. unfold cc, ss. destruct (Rlt_dec k 0) as [N|N].
  - assert (Q : sqrt (- k) * sqrt (- k) = - k) by (apply sqrt_sqrt; lra). assert (Q0 : sqrt (- k) <> 0) by (intros E; rewrite E in Q; lra).
    set (q := sqrt (- k)) in *. clearbody q. auto_derive; [trivial|]. rewrite <- Q. field. exact Q0.
  - destruct (Req_EM_T k 0); [contradiction|]. assert (Q : sqrt k * sqrt k = k) by (apply sqrt_sqrt; lra). assert (Q0 : sqrt k <> 0) by (intros E; rewrite E in Q; lra).
    set (q := sqrt k) in *. clearbody q. auto_derive; [trivial|]. rewrite <- Q. field. exact Q0.
Qed.
Lemma ss_derive : forall k l, k <> 0 -> derivable_pt_lim (ss k) l (cc k l).
Proof.
  intros k l K. apply is_derive_Reals. unfold cc, ss. destruct (Rlt_dec k 0) as [N|N].
  - assert (Q : sqrt (- k) * sqrt (- k) = - k) by (apply sqrt_sqrt; lra). assert (Q0 : sqrt (- k) <> 0) by (intros E; rewrite E in Q; lra).
    auto_derive; [trivial|]. field. exact Q0.
  - destruct (Req_EM_T k 0); [contradiction|]. assert (Q : sqrt k * sqrt k = k) by (apply sqrt_sqrt; lra). assert (Q0 : sqrt k <> 0) by (intros E; rewrite E in Q; lra).
    auto_derive; [trivial|]. field. exact Q0.
Qed.
Lemma derive_eq : forall f s a b, derivable_pt_lim f s a -> a = b -> derivable_pt_lim f s b.
Proof. intros f s a b H <-. exact H. Qed.
Lemma derive_scale : forall f s a c, derivable_pt_lim f s a -> derivable_pt_lim (fun s => c * f s) s (c * a).
Proof. intros f s a c H. apply (derivable_pt_lim_scal f c s a H). Qed.

Lemma quad_transports : forall v, v "K1"%string <> 0 -> transports (v "K1"%string) (v "L"%string) (quad_matrix v).
Proof.
  intros v K. set (k := v "K1"%string) in *. assert (K' : - k <> 0) by lra.
  exists (fun s => quad_matrix (fun n => if String.eqb n "K1" then k else s)).
  assert (E1 : forall s, (if String.eqb "K1" "K1" then k else s) = k) by reflexivity. assert (E2 : forall s, (if String.eqb "L" "K1" then k else s) = s) by reflexivity.
  refine (conj _ (conj _ _)).
  - intros i j Hi Hj. do 4 (destruct i as [|i]; [do 4 (destruct j as [|j]; [cbn -[cc ss]; rewrite ?cc_zero, ?ss_zero; lra|]); lia|]). lia.
  - intros i j Hi Hj. do 4 (destruct i as [|i]; [do 4 (destruct j as [|j]; [reflexivity|]); lia|]). lia.
  - intros i j s Hi Hj. do 4 (destruct i as [|i]; [do 4 (destruct j as [|j]; [cbn -[cc ss]; unfold sum4; cbn -[cc ss];
      (eapply derive_eq; [first [apply derivable_pt_lim_const | apply cc_derive; assumption | apply ss_derive; assumption | apply derive_scale; apply ss_derive; assumption]|]); ring|]); lia|]). lia.
Qed.
Lemma drift_transports : forall v, transports 0 (v "L"%string) (drift_matrix v).
Proof.
  intros v. exists (fun s => drift_matrix (fun _ => s)). refine (conj _ (conj _ _)).
  - intros i j Hi Hj. do 4 (destruct i as [|i]; [do 4 (destruct j as [|j]; [reflexivity|]); lia|]). lia.
  - intros i j Hi Hj. do 4 (destruct i as [|i]; [do 4 (destruct j as [|j]; [reflexivity|]); lia|]). lia.
  - intros i j s Hi Hj. do 4 (destruct i as [|i]; [do 4 (destruct j as [|j]; [cbn; unfold sum4; cbn;
      (eapply derive_eq; [first [apply derivable_pt_lim_const | apply derivable_pt_lim_id]|]); ring|]); lia|]). lia.
Qed.

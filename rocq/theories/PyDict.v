(** Python's built-in dict: an association list in insertion order.  Assigning an existing
    key keeps its place, assigning a new key appends. *)
From Coq Require Import List Bool.
Import ListNotations.

Section Dict.
Context {K V : Type} (eqd : forall a b : K, {a = b} + {a <> b}).

Definition dict := list (K * V).

(** d[k], None for KeyError *)
Fixpoint dget (d : dict) (k : K) : option V :=
  match d with
  | [] => None
  | (k', v) :: r => if eqd k k' then Some v else dget r k
  end.

(** d[k] = v *)
Fixpoint dset (d : dict) (k : K) (v : V) : dict :=
  match d with
  | [] => [(k, v)]
  | (k', v') :: r => if eqd k k' then (k', v) :: r else (k', v') :: dset r k v
  end.

(** k in d *)
Definition dmem (d : dict) (k : K) : bool := match dget d k with Some _ => true | None => false end.

Definition dkeys (d : dict) : list K := map fst d.

Lemma dget_dset_same : forall d k v, dget (dset d k v) k = Some v.
Proof.
  induction d as [|[k' v'] r IH]; intros k v; cbn.
  - destruct (eqd k k); congruence.
  - destruct (eqd k k') as [->|H]; cbn.
    + destruct (eqd k' k'); congruence.
    + destruct (eqd k k'); [congruence|apply IH].
Qed.

Lemma dget_dset_other : forall d k k' v, k' <> k -> dget (dset d k v) k' = dget d k'.
Proof.
  induction d as [|[k0 v0] r IH]; intros k k' v H; cbn.
  - destruct (eqd k' k); congruence.
  - destruct (eqd k k0) as [->|H0]; cbn.
    + destruct (eqd k' k0); congruence.
    + destruct (eqd k' k0); [reflexivity|apply IH; exact H].
Qed.

Lemma dget_in : forall d k v, dget d k = Some v -> In (k, v) d.
Proof.
  induction d as [|[k0 v0] r IH]; intros k v; cbn; [discriminate|].
  destruct (eqd k k0) as [->|H]; intros E; [injection E as ->; left; reflexivity|right; apply IH; exact E].
Qed.

Lemma dget_none : forall d k, dget d k = None <-> ~ In k (dkeys d).
Proof.
  induction d as [|[k0 v0] r IH]; intros k; cbn; [tauto|].
  destruct (eqd k k0) as [->|H]; split; intros E.
  - discriminate.
  - exfalso; apply E; left; reflexivity.
  - intros [->|I]; [congruence|apply IH in E; tauto].
  - apply IH; tauto.
Qed.

Lemma in_dget : forall d k v, NoDup (dkeys d) -> In (k, v) d -> dget d k = Some v.
Proof.
  induction d as [|[k0 v0] r IH]; intros k v N; cbn; [tauto|].
  inversion N as [|? ? Hni Hnd]; subst.
  intros [E|I].
  - injection E as -> ->. destruct (eqd k k); congruence.
  - destruct (eqd k k0) as [->|H]; [exfalso; apply Hni; change k0 with (fst (k0, v)); apply in_map; exact I|apply IH; assumption].
Qed.

Lemma dkeys_dset : forall d k v, dkeys (dset d k v) = if dmem d k then dkeys d else dkeys d ++ [k].
Proof.
  unfold dmem.
  induction d as [|[k0 v0] r IH]; intros k v; cbn; [reflexivity|].
  destruct (eqd k k0) as [->|H]; cbn; [reflexivity|].
  rewrite IH. destruct (dget r k); reflexivity.
Qed.

Lemma dset_nodup : forall d k v, NoDup (dkeys d) -> NoDup (dkeys (dset d k v)).
Proof.
  intros d k v N. rewrite dkeys_dset. unfold dmem. destruct (dget d k) eqn:E; [exact N|].
  apply dget_none in E.
  clear v. induction (dkeys d) as [|a l IH]; cbn.
  - constructor; [intros []|constructor].
  - inversion N; subst. constructor.
    + rewrite in_app_iff. cbn. intros [I|[->|[]]]; [tauto|]. apply E; left; reflexivity.
    + apply IH; [assumption|]. intros I; apply E; right; exact I.
Qed.

Lemma dset_new : forall d k v, dget d k = None -> dset d k v = d ++ [(k, v)].
Proof.
  induction d as [|[k0 v0] r IH]; intros k v; cbn; [reflexivity|].
  destruct (eqd k k0) as [->|H]; [discriminate|]. intros E. rewrite IH; [reflexivity|exact E].
Qed.

Lemma dget_app : forall d e k, dget (d ++ e) k = match dget d k with Some v => Some v | None => dget e k end.
Proof.
  induction d as [|[k0 v0] r IH]; intros e k; cbn; [reflexivity|].
  destruct (eqd k k0); [reflexivity|apply IH].
Qed.

Lemma dmem_iff : forall d k, dmem d k = true <-> In k (dkeys d).
Proof.
  intros d k. unfold dmem. destruct (dget d k) eqn:E.
  - split; [intros _|reflexivity]. apply dget_in in E. change k with (fst (k, v)). apply in_map; exact E.
  - apply dget_none in E. split; [discriminate|tauto].
Qed.
End Dict.
Arguments dict : clear implicits.

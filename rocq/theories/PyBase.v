(** Common vocabulary of the model: Python exceptions as values, results,
    and floating-point results idealised as reals. *)
From Coq Require Import List Reals Bool Ascii String ZArith.
Import ListNotations.

(** Python exception classes that the modelled code can raise. *)
Inductive exn :=
| AssertionError | AttributeError | IndexError | KeyError | LookupError
| NameError | TypeError | ValueError | ZeroDivisionError | NotImplementedError
| StructError | RuntimeError | RecursionError | UnboundLocalError
| GenericException.

(** Outcome of running a piece of Python: a value, an exception, or a loop that
    never ends. *)
Inductive res (A : Type) :=
| Ok (a : A)
| Err (e : exn)
| Diverges.
Arguments Ok {A} a.
Arguments Err {A} e.
Arguments Diverges {A}.

Definition rbind {A B} (r : res A) (f : A -> res B) : res B :=
  match r with
  | Ok a => f a
  | Err e => Err e
  | Diverges => Diverges
  end.

Definition rmap {A B} (f : A -> B) (r : res A) : res B :=
  rbind r (fun a => Ok (f a)).

Notation "'do' x <- m ; k" := (rbind m (fun x => k))
  (at level 200, x name, m at level 100, k at level 200, right associativity).
Notation "'do2' p <- m ; k" := (rbind m (fun x => let p := x in k))
  (at level 200, p strict pattern, m at level 100, k at level 200, right associativity).

(** A floating-point value idealised as a real number; [None] stands for a
    non-finite IEEE value (nan or an infinity). *)
Definition fl := option R.

Open Scope R_scope.

(** numpy division: a zero denominator gives a non-finite value, not an exception. *)
Definition ndiv (x y : fl) : fl :=
  match x, y with
  | Some a, Some b => if Req_EM_T b 0 then None else Some (a / b)
  | _, _ => None
  end.

(** Division of two Python floats: a zero denominator raises. *)
Definition pdiv (x y : R) : res R :=
  if Req_EM_T y 0 then Err ZeroDivisionError else Ok (x / y).

(** numpy square root: a negative argument gives nan. *)
Definition nsqrt (x : R) : fl :=
  if Rlt_dec x 0 then None else Some (sqrt x).

Definition fmap1 (f : R -> R) (x : fl) : fl :=
  match x with Some a => Some (f a) | None => None end.
Definition fmap2 (f : R -> R -> R) (x y : fl) : fl :=
  match x, y with Some a, Some b => Some (f a b) | _, _ => None end.

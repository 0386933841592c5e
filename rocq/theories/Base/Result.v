(** Python exceptions as values.  (Model of CPython; no file in /repo.) *)
From Verif.Base Require Import Str.

(** The exception classes the modelled code raises. *)
Inductive exc :=
| ValueError | KeyError | TypeError | IndexError | AttributeError
| FileNotFoundError | RecursionError | UnicodeError
| LabelError | DuplicateLabel | LabelNotFound | TagError | ParseError
| BuildError | DuplicateSignal | AssertionError | OtherError.

Inductive result (A : Type) :=
| Ok (a : A)
| Raise (e : exc).
Arguments Ok {A} a.
Arguments Raise {A} e.

Definition bind {A B} (r : result A) (f : A -> result B) : result B :=
  match r with Ok a => f a | Raise e => Raise e end.
Notation "'do' x <- e ; f" := (bind e (fun x => f))
  (at level 200, x name, e at level 100, f at level 200, right associativity).

Definition is_ok {A} (r : result A) : bool :=
  match r with Ok _ => true | Raise _ => false end.

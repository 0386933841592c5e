(** What a signal should do. *)
From Coq Require Import List Bool ZArith.
From Verif.Base Require Import Str Dict.
From Verif.Model Require Import Signals.
Import ListNotations.

Section S.
Context {R V St : Type}.

(** What can happen to a signal. *)
Inductive op := Connect (order : Z) (r : R) (weak : bool) | Reset.

Definition as_stored (r : R) (weak : bool) : stored R := if weak then Weak r else Strong r.

(** [connected h order x]: after the history [h], newest first, [x] is the
    receiver at [order].  The first one to ask for an order gets it, until the
    next reset. *)
Fixpoint connected (h : list op) (order : Z) (x : stored R) : Prop :=
  match h with
  | [] => False
  | Reset :: _ => False
  | Connect o r weak :: h' =>
      connected h' order x \/ (o = order /\ x = as_stored r weak /\ forall y, ~ connected h' order y)
  end.

(** Running receivers one after the other, each once.  A receiver that no longer
    exists or that is switched off is not run and gives None. *)
Section Run.
Variables (call : R -> St -> V * St) (alive : R -> bool) (enabled : R -> St -> bool).
Definition exists_now (x : stored R) (r : R) : Prop := x = Strong r \/ (x = Weak r /\ alive r = true).
Inductive runs : list (stored R) -> St -> list (option V) -> St -> Prop :=
| runs_nil st : runs [] st [] st
| runs_call x r l st v st1 vs st2 :
    exists_now x r -> enabled r st = true -> call r st = (v, st1) ->
    runs l st1 vs st2 -> runs (x :: l) st (Some v :: vs) st2
| runs_gone r l st vs st2 :
    alive r = false -> runs l st vs st2 -> runs (Weak r :: l) st (None :: vs) st2
| runs_off x r l st vs st2 :
    exists_now x r -> enabled r st = false -> runs l st vs st2 -> runs (x :: l) st (None :: vs) st2.
End Run.

(** The signal of the program after a history. *)
Fixpoint after (h : list op) : signal R :=
  match h with
  | [] => new_signal
  | Connect o r weak :: h' => fst (connect (after h') r o weak)
  | Reset :: h' => reset (after h')
  end.
End S.
Arguments op : clear implicits.

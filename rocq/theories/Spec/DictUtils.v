(** What [find_entry] should find, stated without the model. *)
From Coq Require Import List Arith.
From Verif.Base Require Import Str Dict.
Import ListNotations.

Section FE.
Context {V : Type}.
Variables (ks : list str) (suffix : option str) (sep : str).

(** The key made of the first [n] parts. *)
Definition prefix_key (n : nat) : str := join sep (firstn n ks).

(** The keys to try for the first [n] parts, the preferred one first. *)
Definition keys_for (n : nat) : list str :=
  match suffix with
  | Some x => [prefix_key n ++ sep ++ x; prefix_key n]
  | None => [prefix_key n]
  end.

(** [v] is the entry under the first present key of a list. *)
Inductive first_hit (d : dict str V) : list str -> V -> Prop :=
| hit_here k ks v : lookup k d = Some v -> first_hit d (k :: ks) v
| hit_later k ks v : lookup k d = None -> first_hit d ks v -> first_hit d (k :: ks) v.

(** Nothing can be found for [n] parts. *)
Definition no_hit (d : dict str V) (n : nat) : Prop :=
  forall k, In k (keys_for n) -> lookup k d = None.

(** [v] is the entry for the longest present prefix. *)
Definition best (d : dict str V) (v : V) : Prop :=
  exists n, 1 <= n <= length ks /\ first_hit d (keys_for n) v /\
            forall m, n < m <= length ks -> no_hit d m.

(** The dictionary has nothing for any prefix. *)
Definition hopeless (d : dict str V) : Prop :=
  forall n, 1 <= n <= length ks -> no_hit d n.
End FE.

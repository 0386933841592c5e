(** Model of /repo/src/disseminate/utils/dict.py *)
From Coq Require Import List Bool Arith.
From Verif.Base Require Import Str Dict Result.
Import ListNotations.

Section FindEntry.
Context {V : Type}.
Variables (keys : list str) (suffix : option str) (sep : str).

(** utils/dict.py:61-71: the [while num_keys > 0] loop for one dictionary *)
Fixpoint find_in_dict (num_keys : nat) (d : dict str V) : option V :=
  match num_keys with
  | O => None
  | S n =>
      let trial := join sep (firstn num_keys keys) in
      let trial_suffix := match suffix with
                          | Some x => join sep [trial; x]
                          | None => trial
                          end in
      match lookup trial_suffix d with
      | Some v => Some v
      | None =>
          match lookup trial d with
          | Some v => Some v
          | None => find_in_dict n d
          end
      end
  end.

(** utils/dict.py:57-74 [find_entry]; a single dictionary is the one-element
    list *)
Fixpoint find_entry (dicts : list (dict str V)) : result V :=
  match dicts with
  | nil => Raise KeyError
  | d :: r =>
      match find_in_dict (length keys) d with
      | Some v => Ok v
      | None => find_entry r
      end
  end.
End FindEntry.

(** Model of /repo/src/disseminate/utils/classes.py and of the settings of classes of
    contexts in /repo/src/disseminate/context/context.py *)
From Coq Require Import List Bool NArith.
From Verif.Base Require Import Str Dict Result.
Import ListNotations.

(** The values of attributes of classes: sets of texts, descriptors
    (classes.py:128-159, with a number for the identity) and others *)
Inductive value := VSet (l : list str) | VWeak (d : nat) | VOther (n : nat).
(** A class of Python: its identity, [__bases__] and [__dict__].  The number 0
    is [object]. *)
Inductive pyclass := Class (c_id : nat) (c_bases : list pyclass) (c_dict : dict str value).
Definition c_id (c : pyclass) : nat := match c with Class i _ _ => i end.
Definition c_bases (c : pyclass) : list pyclass := match c with Class _ b _ => b end.
Definition c_dict (c : pyclass) : dict str value := match c with Class _ _ d => d end.
Definition is_object (c : pyclass) : bool := eqb (c_id c) 0.

(** classes.py:34-58 [all_parent_classes] *)
Fixpoint all_parents (c : pyclass) : list pyclass :=
  match c with
  | Class _ bs _ => bs ++ flat_map (fun s => filter (fun g => negb (is_object g)) (all_parents s)) bs
  end.

(** [getattr] of a class: the first class in the order of resolution [mro] that
    has the attribute *)
Fixpoint first_attr (a : str) (l : list pyclass) : option value :=
  match l with
  | nil => None
  | c :: r => match lookup a (c_dict c) with Some v => Some v | None => first_attr a r end
  end.

(** Elements of a set; other values are not used for these attributes *)
Definition elements (v : option value) : list str := match v with Some (VSet l) => l | _ => nil end.

(** classes.py:61-94 [all_attributes_values] for attributes that are sets; the
    order of the set and repetitions in it do not matter *)
Definition all_values (mro : pyclass -> list pyclass) (c : pyclass) (a : str) : list str :=
  flat_map (fun b => elements (first_attr a (mro b))) (c :: all_parents c).

(** context.py:142-157 [find_do_not_inherit].  [cache] has the values of
    [_do_not_inherit] in the dicts of classes. *)
Definition find_do_not_inherit (mro : pyclass -> list pyclass) (c : pyclass) (cache : dict nat (list str)) : list str * dict nat (list str) :=
  match lookup (c_id c) cache with
  | Some s => (s, cache)
  | None => let s := all_values mro c (lit "do_not_inherit") in (s, set (c_id c) s cache)
  end.
(** A sequence of calls *)
Fixpoint find_each (mro : pyclass -> list pyclass) (cs : list pyclass) (cache : dict nat (list str)) : list (list str) :=
  match cs with
  | nil => nil
  | c :: r => let '(s, cache) := find_do_not_inherit mro c cache in s :: find_each mro r cache
  end.

(** classes.py:97-125 [all_dicts] *)
Definition all_dicts (c : pyclass) : dict str value :=
  fold_left (fun d b => update d (c_dict b)) (rev (all_parents c) ++ [c]) nil.

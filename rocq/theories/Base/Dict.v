(** Insertion-ordered Python dictionaries as association lists.
    (Model of CPython's [dict]; no file in /repo.) *)
From Coq Require Import List Bool.
From Verif.Base Require Import Str.
Import ListNotations.

Section Dict.
Context {K : Type} `{EqDec K} {V : Type}.

Definition dict := list (K * V).

(** [d.get(k)] / [d[k]] *)
Fixpoint lookup (k : K) (d : dict) : option V :=
  match d with
  | nil => None
  | (k', v) :: r => if eqb k k' then Some v else lookup k r
  end.

(** [k in d] *)
Definition has (k : K) (d : dict) : bool :=
  match lookup k d with Some _ => true | None => false end.

(** [d[k] = v]: replaces in place, or appends a new entry *)
Fixpoint set (k : K) (v : V) (d : dict) : dict :=
  match d with
  | nil => [(k, v)]
  | (k', v') :: r => if eqb k k' then (k', v) :: r else (k', v') :: set k v r
  end.

(** [del d[k]] / [d.pop(k)] *)
Fixpoint remove (k : K) (d : dict) : dict :=
  match d with
  | nil => nil
  | (k', v') :: r => if eqb k k' then r else (k', v') :: remove k r
  end.

(** [d.keys()] *)
Definition keys (d : dict) : list K := map fst d.

(** [d.update(pairs)] / [dict(pairs)] *)
Definition update (d : dict) (l : list (K * V)) : dict :=
  fold_left (fun acc kv => set (fst kv) (snd kv) acc) l d.

(** A dictionary has one entry per key. *)
Definition wf (d : dict) : Prop := NoDup (keys d).
End Dict.
Arguments dict : clear implicits.

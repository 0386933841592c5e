(** Model of the attributes with weak references in
    /repo/src/disseminate/utils/classes.py *)
From Coq Require Import List Bool NArith.
From Verif.Base Require Import Str Dict Result.
From Verif.Model Require Import Classes.
Import ListNotations.

(** The names that descriptors have stored (classes.py:149-159), the dicts
    '__weakrefattrs__' of objects and the objects that are gone.  Objects and
    descriptors are numbers. *)
Record weak := { w_names : dict nat str; w_refs : dict nat (dict str nat); w_dead : list nat }.
Definition no_weak : weak := {| w_names := nil; w_refs := nil; w_dead := nil |}.

(** classes.py:152-154: the last name whose value is the descriptor *)
Definition is_descr (d : nat) (v : value) : bool := match v with VWeak e => eqb d e | _ => false end.
Definition find_name (d : nat) (l : dict str value) : option str :=
  fold_left (fun acc nv => if is_descr d (snd nv) then Some (fst nv) else acc) l None.
(** classes.py:149-159 [attrname] *)
Definition attrname (class_of : nat -> pyclass) (d o : nat) (w : weak) : result (str * weak) :=
  match lookup d (w_names w) with
  | Some n => Ok (n, w)
  | None =>
      match find_name d (all_dicts (class_of o)) with
      | Some n => Ok (n, {| w_names := set d n (w_names w); w_refs := w_refs w; w_dead := w_dead w |})
      | None => Raise AttributeError
      end
  end.
(** classes.py:132, 140 and 145: [setdefault]; an empty dict is the same as none *)
Definition refs_of (o : nat) (w : weak) : dict str nat := match lookup o (w_refs w) with Some r => r | None => nil end.
Definition put_refs (o : nat) (r : dict str nat) (w : weak) : weak :=
  {| w_names := w_names w; w_refs := set o r (w_refs w); w_dead := w_dead w |}.

(** classes.py:131-135 [__get__] for an object; the weak reference to an object that
    is gone gives None *)
Definition weak_get (class_of : nat -> pyclass) (d o : nat) (w : weak) : result (option nat) * weak :=
  match attrname class_of d o w with
  | Raise e => (Raise e, w)
  | Ok (n, w) => (Ok (match lookup n (refs_of o w) with Some v => if mem v (w_dead w) then None else Some v | None => None end), w)
  end.
(** classes.py:137-142 [__set__], for values that can have weak references *)
Definition weak_set (class_of : nat -> pyclass) (d o : nat) (v : option nat) (w : weak) : result unit * weak :=
  match v with
  | None => (Ok tt, w)
  | Some v =>
      match attrname class_of d o w with
      | Raise e => (Raise e, w)
      | Ok (n, w) => (Ok tt, put_refs o (set n v (refs_of o w)) w)
      end
  end.
(** classes.py:144-147 [__delete__] *)
Definition weak_del (class_of : nat -> pyclass) (d o : nat) (w : weak) : result unit * weak :=
  match attrname class_of d o w with
  | Raise e => (Raise e, w)
  | Ok (n, w) => if has n (refs_of o w) then (Ok tt, put_refs o (remove n (refs_of o w)) w) else (Raise KeyError, w)
  end.

(** What happens in a program: attributes are read, set and deleted, and objects
    go *)
Inductive event := EGet (d o : nat) | ESet (d o : nat) (v : option nat) | EDel (d o : nat) | EDie (v : nat).
Definition step (class_of : nat -> pyclass) (w : weak) (e : event) : weak :=
  match e with
  | EGet d o => snd (weak_get class_of d o w)
  | ESet d o v => snd (weak_set class_of d o v w)
  | EDel d o => snd (weak_del class_of d o w)
  | EDie v => {| w_names := w_names w; w_refs := w_refs w; w_dead := v :: w_dead w |}
  end.
Definition after (class_of : nat -> pyclass) (es : list event) : weak := fold_left (step class_of) es no_weak.

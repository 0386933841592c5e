(** Model of /repo/src/disseminate/signals/signals.py and of the emitter in
    /repo/src/disseminate/tags/signals.py *)
From Coq Require Import List Bool ZArith.
From Verif.Base Require Import Str Dict Sort Result.
Import ListNotations.

(** Python integers as dictionary keys *)
#[global] Instance EqDec_Z : EqDec Z := {| eqb := Z.eqb; eqb_spec := Z.eqb_spec |}.

Section Signals.
(** [R]: receiver functions, [V]: what they return, [St]: the state of the
    program that they may change. *)
Context {R V St : Type}.

(** What [receivers] holds: signals/signals.py:45 *)
Inductive stored := Weak (r : R) | Strong (r : R).

(** signals/signals.py:18-27: a signal is its dictionary of receivers *)
Definition signal := dict Z stored.
Definition new_signal : signal := [].

(** signals/signals.py:29-45 [Signal.connect]: the new signal and the exception
    that is raised, if any *)
Definition connect (s : signal) (r : R) (order : Z) (weak : bool) : signal * option exc :=
  if has order s then (s, Some DuplicateSignal)
  else (set order (if weak then Weak r else Strong r) s, None).

(** signals/signals.py:78-80 [Signal.reset] *)
Definition reset (s : signal) : signal := [].

(** signals/signals.py:59-60: a weak reference gives None when its object is
    gone ([alive] says which are not) *)
Definition deref (alive : R -> bool) (x : stored) : option R :=
  match x with
  | Weak r => if alive r then Some r else None
  | Strong r => Some r
  end.

(** sorted(self.receivers.items()); orders are different, so the receivers are
    never compared *)
Definition in_order (s : signal) : list (Z * stored) :=
  isort (fun x y => Z.leb (fst x) (fst y)) s.

(** signals/signals.py:54-66 [Signal.emit].  [call] runs a receiver; exceptions
    of receivers are not modelled. *)
Fixpoint emit_loop (call : R -> St -> V * St) (alive : R -> bool) (l : list (Z * stored)) (st : St)
  : list (option V) * St :=
  match l with
  | [] => ([], st)
  | (_, x) :: l' =>
      match deref alive x with
      | Some r =>
          let '(v, st1) := call r st in
          let '(vs, st2) := emit_loop call alive l' st1 in (Some v :: vs, st2)
      | None => let '(vs, st2) := emit_loop call alive l' st in (None :: vs, st2)
      end
  end.
Definition emit call alive (s : signal) (st : St) : list (option V) * St :=
  emit_loop call alive (in_order s) st.

(** tags/signals.py:14-34 [emit] of tag_created; [enabled] is
    getattr(tag, receiver.__name__, True), read when the receiver's turn comes,
    in the state of that time *)
Fixpoint tag_emit_loop (call : R -> St -> V * St) (alive : R -> bool) (enabled : R -> St -> bool)
    (l : list (Z * stored)) (st : St) : list (option V) * St :=
  match l with
  | [] => ([], st)
  | (_, x) :: l' =>
      match deref alive x with
      | Some r =>
          if enabled r st then
            let '(v, st1) := call r st in
            let '(vs, st2) := tag_emit_loop call alive enabled l' st1 in (Some v :: vs, st2)
          else let '(vs, st2) := tag_emit_loop call alive enabled l' st in (None :: vs, st2)
      | None => let '(vs, st2) := tag_emit_loop call alive enabled l' st in (None :: vs, st2)
      end
  end.
Definition tag_emit call alive enabled (s : signal) (st : St) : list (option V) * St :=
  tag_emit_loop call alive enabled (in_order s) st.

(** signals/signals.py:68-72 [receivers_dict] *)
Definition receivers_dict (alive : R -> bool) (s : signal) : dict Z R :=
  flat_map (fun kv => match deref alive (snd kv) with Some r => [(fst kv, r)] | None => [] end) s.
End Signals.
Arguments stored : clear implicits.
Arguments signal : clear implicits.

(** signals/signals.py:83-102 [Namespace.signal]: signals are known by the
    number of the object; [next] is the next free number *)
Definition get_signal (ns : dict str nat * nat) (name : str) : nat * (dict str nat * nat) :=
  match lookup name (fst ns) with
  | Some n => (n, ns)
  | None => (snd ns, (set name (snd ns) (fst ns), S (snd ns)))
  end.

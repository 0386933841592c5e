(** What the preview server and the list of dependencies should show *)
From Coq Require Import List Bool Arith NArith.
From Verif.Base Require Import Str Dict Result.
From Verif.Model Require Import Starters Checkers Server.
Import ListNotations.

(** A path below a directory *)
Definition inside (root p : fpath) : Prop := exists r, r <> nil /\ p = root ++ r.
(** A name of a file or directory *)
Definition plain_name (x : str) : Prop := x <> nil /\ x <> lit "." /\ x <> lit ".." /\ ~ In 47%N x.
(** The address of a file *)
Definition address (r : fpath) : str := lit "/" ++ join (lit "/") r.

(** The documents of a tree: each before its sub-documents *)
Fixpoint documents (d : document) : list (str * str * dict str str) :=
  match d with Doc t s ts subs => (t, s, ts) :: flat_map documents subs end.
Fixpoint shown (i : item) : list (str * str * dict str str) :=
  match i with Item _ _ t s ts subs => (t, s, ts) :: flat_map shown subs end.
Definition number (i : item) : nat := match i with Item n _ _ _ _ _ => n end.
Definition level (i : item) : nat := match i with Item _ l _ _ _ _ => l end.
(** Sub-documents are one level below and numbered from 1 *)
Inductive numbered : item -> Prop :=
| numbered_item n l t s ts subs : map number subs = seq 1 (length subs) -> Forall (fun i => level i = S l) subs ->
    Forall numbered subs -> numbered (Item n l t s ts subs).

(** Rows of dependencies *)
Definition row_status (r : row) : status := match r with Row _ s _ _ => s end.
(** What a row says about a dependency: a dependency is ok if it was found, a list of required ones if all are ok,
    a list of alternatives if one is ok, and an optional list always *)
Inductive tells : dep -> row -> Prop :=
| tells_dep n a l s : (s = SOk <-> a = Some true) -> (s = SUnknown <-> a = None) -> tells (Dep n a) (Row l s (Some n) nil)
| tells_group k c ds l s rs :
    k <> KPlain ->
    (s = SOk <-> match k with
                 | KAll => forall r, In r rs -> row_status r = SOk
                 | KAny => exists r, In r rs /\ row_status r = SOk
                 | _ => True
                 end) ->
    s <> SUnknown ->
    (k <> KAll -> forall r, In r rs -> row_status r <> SFail) -> (k = KAll -> forall r, In r rs -> row_status r <> SMissing) ->
    Forall (fun r => match r with Row l' _ _ _ => l' = S l end) rs ->
    Forall2 tells ds rs -> tells (Group k c ds) (Row l s (Some c) rs).
(** Dependencies without lists of the base class *)
Inductive proper : dep -> Prop :=
| proper_dep n a : proper (Dep n a)
| proper_group k c l : k <> KPlain -> Forall proper l -> proper (Group k c l).
(** The rows of a page from the top *)
Fixpoint rows (r : row) : list (nat * status * option str) :=
  match r with Row l s n subs => (l, s, n) :: flat_map rows subs end.
(** A line for a row: indented by the level, with the name in quotes and the status in brackets at the end *)
Definition line_for (r : nat * status * option str) (line : str) : Prop :=
  let '(l, s, n) := r in
  exists name msg fill box, n = Some name /\ line = repeat 32%N (2 * l) ++ msg ++ lit "'" ++ name ++ lit "'" ++ fill ++ lit "[" ++ box ++ lit "]  " /\
    strip box = match s with SOk => lit "PASS" | SFail => lit "FAIL" | SMissing => lit "MISSING" | SUnknown => lit "UNKNOWN" end /\
    length box = 8 /\ (length line = 80 \/ (80 <= length line /\ fill = nil)).

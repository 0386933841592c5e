(** What is said about builders *)
From Coq Require Import List Bool Arith NArith.
From Verif.Base Require Import Str Dict Result PurePath.
From Verif.Model Require Import Hash Decider Builders.
Import ListNotations.

(** The builders of a tree that are not composite, from left to right *)
Fixpoint leaves (b : builder) : list leaf :=
  match b with Leaf l => [l] | Comp _ subs => flat_map leaves subs end.
Definition ids (b : builder) : list nat := map lid (leaves b).

(** [x] comes before [y]: some sequential builder has [x] in one of its parts and
    [y] in a later part *)
Inductive before : builder -> nat -> nat -> Prop :=
| before_here : forall c l1 b1 l2 b2 l3 x y, parallel c = false -> In x (ids b1) -> In y (ids b2) ->
    before (Comp c (l1 ++ b1 :: l2 ++ b2 :: l3)) x y
| before_in : forall c l b x y, In b l -> before b x y -> before (Comp c l) x y.

(** The last status of a builder that was read *)
Fixpoint last_seen (id : nat) (t : list entry) : option status :=
  match t with
  | nil => None
  | e :: r =>
      match last_seen id r with
      | Some st => Some st
      | None => match e with Seen i st => if Nat.eqb i id then Some st else None | Started _ => None end
      end
  end.

Section Spec.
Variables (digest hexdigest encode bytes_str : str -> str).
Notation status_leaf := (status_leaf digest hexdigest encode bytes_str).
Notation status_of := (status_of digest hexdigest encode bytes_str).
Notation build := (build digest hexdigest encode bytes_str).
Notation build_complete := (build_complete digest hexdigest encode bytes_str).

(** The statuses of builders, read one after the other *)
Inductive reads : list leaf -> sys -> list status -> sys -> Prop :=
| reads_nil : forall s, reads nil s nil s
| reads_cons : forall l ls s st s1 sts s2, status_leaf l s = Ok (st, s1) -> reads ls s1 sts s2 ->
    reads (l :: ls) s (st :: sts) s2.

(** The history of a builder: its status is read and it is built, again and
    again *)
Inductive polled : builder -> sys -> builder -> sys -> Prop :=
| polled_none : forall b s, polled b s b s
| polled_status : forall b s b1 s1 st s2, polled b s b1 s1 -> status_of b1 s1 = Ok (st, s2) -> polled b s b1 s2
| polled_build : forall b s b1 s1 st b2 s2, polled b s b1 s1 -> build b1 s1 = Ok (st, b2, s2) -> polled b s b2 s2
| polled_complete : forall b s c subs s1 n st b2 s2, polled b s (Comp c subs) s1 ->
    build_complete n c subs s1 = Ok (st, b2, s2) -> polled b s b2 s2.
End Spec.

(** Some builder of [t] was started *)
Definition starts (t : list entry) : Prop := exists id, In (Started id) t.

(** Nothing happens by itself, and to read the status of the parts of [b] does not
    register a build that has finished meanwhile *)
Definition settled (digest hexdigest encode bytes_str : str -> str) (b : builder) (s : sys) : Prop :=
  sched s = nil /\ forall l, In l (leaves b) -> forall st s1,
    status_leaf digest hexdigest encode bytes_str l s = Ok (st, s1) -> wd s1 = wd s.

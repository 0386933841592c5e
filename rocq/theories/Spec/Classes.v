(** Classes and what they have from their parents *)
From Coq Require Import List Bool NArith.
From Verif.Base Require Import Str Dict.
From Verif.Model Require Import Classes.
Import ListNotations.

(** [above c b]: [b] is a base of [c], a base of a base, and so on *)
Inductive above (c : pyclass) : pyclass -> Prop :=
| above_base b : In b (c_bases c) -> above c b
| above_more b g : In b (c_bases c) -> above b g -> above c g.
(** the class itself or one above *)
Definition from (c b : pyclass) : Prop := b = c \/ above c b.

(** [object] has no bases, and does not have the attribute [a] *)
Definition plain_object (a : str) (c : pyclass) : Prop :=
  forall b, from c b -> c_id b = 0 -> lookup a (c_dict b) = None.
(** The order of resolution has the class first, and all that are above *)
Definition resolution (mro : pyclass -> list pyclass) : Prop :=
  forall c, (exists r, mro c = c :: r) /\ forall b, In b (mro c) <-> from c b.
(** Classes with the same identity are the same *)
Definition identities (cs : list pyclass) : Prop :=
  forall c d, In c cs -> In d cs -> c_id c = c_id d -> c = d.

(** The nearest class in a line of parents that has an entry *)
Inductive nearest (k : str) : pyclass -> value -> Prop :=
| nearest_own c v : lookup k (c_dict c) = Some v -> nearest k c v
| nearest_parent c b v : c_bases c = [b] -> lookup k (c_dict c) = None -> nearest k b v -> nearest k c v.
(** Every class has one base at most *)
Definition single (c : pyclass) : Prop := forall b, from c b -> length (c_bases b) <= 1.
(** Dicts have no key twice *)
Definition dicts_wf (c : pyclass) : Prop := forall b, from c b -> wf (c_dict b).

(** What the string utilities should do. *)
From Coq Require Import List Bool Arith NArith.
From Verif.Base Require Import Str.
From Verif.Model Require Import StringUtils.
Import ListNotations.

(** [p] is a prefix of [s]. *)
Definition is_prefix (p s : str) : Prop := exists r, s = p ++ r.

(** [ps] are the pieces of [s] between the separators [c]. *)
Definition pieces_of (c : char) (s : str) (ps : list str) : Prop :=
  join [c] ps = s /\ ps <> nil /\ Forall (fun p => ~ In c p) ps.

(** [t] is [s] without the white space around it. *)
Definition is_stripped (s t : str) : Prop :=
  exists a b, s = a ++ t ++ b /\ Forall (fun c => is_space c = true) (a ++ b) /\
    (forall c r, t = c :: r -> is_space c = false) /\
    (forall c r, t = r ++ [c] -> is_space c = false).

(** A clean item: not empty, no white space around it. *)
Definition clean_item (s : str) : Prop := s <> nil /\ is_stripped s s.

(** What a reader sees of a content, in document order: the characters, where
    tags begin and end, and other (non-empty) objects. *)
Inductive event := Char (c : char) | Open (id : nat) | Close (id : nat) | Object (id : nat).
Fixpoint events (v : node) : list event :=
  match v with
  | NStr s => map Char s
  | NTag i c => Open i :: events c ++ [Close i]
  | NList l => flat_map events l
  | NObj i t => if t then [Object i] else nil
  end.

Definition is_str (v : node) : Prop := match v with NStr _ => True | _ => False end.

(** No two neighbours in a list are strings, and no string in a list is empty:
    at every depth. *)
Inductive grouped : node -> Prop :=
| grouped_str s : grouped (NStr s)
| grouped_obj i t : grouped (NObj i t)
| grouped_tag i c : grouped c -> grouped (NTag i c)
| grouped_list l :
    Forall grouped l ->
    ~ In (NStr nil) l ->
    (forall l1 a b l2, l = l1 ++ a :: b :: l2 -> ~ (is_str a /\ is_str b)) ->
    grouped (NList l).

(** No tag has an empty list as its content. *)
Inductive no_hollow_tag : node -> Prop :=
| no_hollow_str s : no_hollow_tag (NStr s)
| no_hollow_obj i t : no_hollow_tag (NObj i t)
| no_hollow_in_tag i c : c <> NList nil -> no_hollow_tag c -> no_hollow_tag (NTag i c)
| no_hollow_list l : Forall no_hollow_tag l -> no_hollow_tag (NList l).

(** Contents in which no list is an item of another list, and a list that is the
    content of a tag has something to see (as made by the parser: lists only
    occur as contents of tags, and have at least two items). *)
Inductive plain_content : node -> Prop :=
| plain_str s : plain_content (NStr s)
| plain_obj i t : plain_content (NObj i t)
| plain_tag i c : plain_content c -> (forall l, c = NList l -> events c <> nil) ->
    plain_content (NTag i c)
| plain_list l : Forall plain_content l -> (forall l', ~ In (NList l') l) ->
    plain_content (NList l).

(** Captions in figures and tables *)
From Coq Require Import List Bool NArith.
From Verif.Base Require Import Str.
From Verif.Model Require Import Captions.
Import ListNotations.

(** [a] is inside of [b] *)
Inductive within (a : tag) : tag -> Prop :=
  | within_child h id content : In a content -> within a (Node h id content)
  | within_deep h id content b : within a b -> In b content -> within a (Node h id content).
Definition part (a t : tag) : Prop := a = t \/ within a t.
(** Figures and tables *)
Definition is_holder (t : tag) : Prop := exists k id content, t = Node (Some k) id content.
(** There is a caption inside *)
Definition captioned (t : tag) : Prop := exists id text, within (Cap id text) t.
(** No figure or table with a caption is inside of a figure or table *)
Definition unnested (t : tag) : Prop := forall a b, part a t -> is_holder a -> within b a -> is_holder b -> ~ captioned b.

(** The captions of a tag, in order, with the ids that authors gave *)
Fixpoint written (t : tag) : list (option str * str) :=
  match t with Cap id text => [(id, text)] | Node _ _ content => concat (map written content) end.
(** The kinds of labels for figures and tables *)
Definition label_kind (k : holder) : list str :=
  [lit "caption"; match k with Figure => lit "figure" | Table => lit "table" end].
(** What links can lead to: the ids of the captions of figures and tables, with their kinds *)
Definition anchors (l : list cap) : list (str * list str) :=
  flat_map (fun c => match cp_id c, cp_kind c with Some i, Some k => [(i, label_kind k)] | _, _ => nil end) l.
(** The ids that authors gave *)
Fixpoint given (t : tag) : list str :=
  match t with
  | Cap (Some i) _ => [i]
  | Cap None _ => nil
  | Node _ id content => (match id with Some i => [i] | None => nil end) ++ concat (map given content)
  end.

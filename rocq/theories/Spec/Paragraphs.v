(** What the paragraphs of a content are. *)
From Coq Require Import List Bool Arith NArith.
From Verif.Base Require Import Str.
From Verif.Model Require Import Paragraphs.
Import ListNotations.

(** A content as a sequence of characters and things (tags, objects).  The role
    of a tag is not part of what it is. *)
Inductive event := Chr (c : char) | Thing (i : item).
Definition no_role (i : item) : item := match i with ITag id inc _ => ITag id inc None | _ => i end.
Definition item_events (i : item) : list event :=
  match i with IStr s => map Chr s | _ => [Thing (no_role i)] end.
Definition events (l : list item) : list event := concat (map item_events l).
Definition items_of (c : content) : list item :=
  match c with CStr s => [IStr s] | CList l => l | CItem i => [i] end.

(** Things that stand outside of paragraphs: tags that say so, and paragraphs. *)
Definition solo (i : item) : Prop := (exists id ro, i = ITag id false ro) \/ (exists l, i = IPar l).
(** No lists inside the list. *)
Definition flat (l : list item) : Prop := forall l', ~ In (IList l') l.

Notation newline := 10%N.
(** A paragraph break: two newlines with only white space between them. *)
Definition has_break (s : str) : Prop :=
  exists a u b, s = a ++ newline :: u ++ newline :: b /\ Forall (fun c => rx_space c = true) u.
Definition blank (s : str) : Prop := Forall (fun c => is_space c = true) s.

(** What a paragraph may hold: text without breaks, and things that do not stand
    outside of paragraphs. *)
Definition par_item (i : item) : Prop :=
  match i with
  | IStr s => ~ has_break s
  | ITag _ include _ => include = true
  | IObj _ => True
  | _ => False
  end.

(** [laid_out after_par e l]: the events [e] are the paragraphs and solitary
    things of [l] in order, with only white space left out around them; two
    successive paragraphs have a break between them ([after_par]: a paragraph
    came before). *)
Inductive laid_out : bool -> list event -> list item -> Prop :=
| lo_end b w : blank w -> laid_out b (map Chr w) nil
| lo_par b w p e l :
    blank w -> (b = true -> has_break w) ->
    Forall par_item p -> ~ (exists t, events p = map Chr t /\ blank t) ->
    laid_out true e l ->
    laid_out b (map Chr w ++ events p ++ e) (IPar p :: l)
| lo_solo b w i e l :
    blank w -> solo i -> laid_out false e l ->
    laid_out b (map Chr w ++ Thing (no_role i) :: e) (i :: l).

(** The role of the tags in a paragraph: 'block' for a tag that is the only one
    and has no text beside it, 'inline' otherwise. *)
Definition tags_in (p : list item) : nat := length (filter is_tag p).
Definition text_beside (p : list item) : Prop := exists s, In (IStr s) p /\ ~ blank s.
Definition right_roles (p : list item) : Prop :=
  forall id inc ro, In (ITag id inc ro) p ->
    (tags_in p = 1 /\ ~ text_beside p -> ro = Some Block) /\
    (tags_in p <> 1 \/ text_beside p -> ro = Some Inline).

(** Texts of paragraphs that are set apart by breaks: [apart ps x]: [x] is
    made of the texts [ps], with white space that has two newlines between them. *)
Definition par_text (p : str) : Prop :=
  ~ has_break p /\
  (exists c r, p = c :: r /\ is_space c = false) /\ (exists c r, p = r ++ [c] /\ is_space c = false).
Definition gap (u : str) : Prop := Forall (fun c => rx_space c = true) u /\ has_break u.
Inductive apart : list str -> str -> Prop :=
| ap_one p : par_text p -> apart [p] p
| ap_cons p u ps x : par_text p -> gap u -> apart ps x -> apart (p :: ps) (p ++ u ++ x).

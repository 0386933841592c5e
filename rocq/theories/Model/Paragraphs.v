(** Model of /repo/src/disseminate/tags/receivers/paragraphs.py *)
From Coq Require Import List Bool Arith NArith.
From Verif.Base Require Import Str PyText.
From Verif.Model Require Import Attributes.
Import ListNotations.

(** tags/tag.py:94 paragraph_role: None, 'block' or 'inline' *)
Inductive role := Block | Inline.

(** The items of a content.  A tag has a name to tell it from others ([id]), its
    class attribute include_paragraphs and its paragraph_role; a paragraph tag P
    (text.py:48-59, include_paragraphs = False) is shown with its content (a list
    of one item stands for the item, see [process]); other objects have no
    attribute include_paragraphs and count as included (paragraphs.py:64). *)
Inductive item :=
| IStr (s : str)
| ITag (id : nat) (include : bool) (r : option role)
| IPar (l : list item)
| IObj (id : nat)
| IList (l : list item).

(** paragraphs.py:21 [re_para] at the start of [x]: the rest after the match.
    The last two stars take all they can, since nothing follows them. *)
Definition match_para (x : str) : option str :=
  first_match (fun a : str * str =>
    match eat [10%N] (snd a) with
    | Some r1 =>
        first_match (fun b : str * str =>
          match eat [10%N] (snd b) with
          | Some r2 => Some (snd (span (N.eqb 10) (snd (span rx_space r2))))
          | None => None
          end) (star_greedy rx_space r1)
    | None => None
    end) (star_greedy rx_space x).

(** [re_para.split(x)].  [skip] is the number of characters that still belong to
    the last match. *)
Fixpoint split_para (skip : nat) (x : str) : list str :=
  match x with
  | nil => [nil]
  | c :: r =>
      match skip with
      | S k => split_para k r
      | O => match match_para x with
             | Some rest => nil :: split_para (length r - length rest) r
             | None => match split_para 0 r with
                       | p :: ps => (c :: p) :: ps
                       | nil => [[c]]
                       end
             end
      end
  end.

(** [if sublist: overall_list.append(sublist)] *)
Definition flush (sub : list item) : list item := match sub with nil => nil | _ => [IList sub] end.

(** paragraphs.py:89-98: the pieces of a string with a paragraph break.  The
    groups that are finished, and the group that is still open. *)
Fixpoint add_pieces (sub : list item) (ps : list str) : list item * list item :=
  match ps with
  | nil => (nil, sub)
  | p :: ps' =>
      let sub := match p with nil => sub | _ => sub ++ [IStr p] end in
      match ps' with
      | nil => (nil, sub)
      | _ => let '(gs, sub') := add_pieces nil ps' in (flush sub ++ gs, sub')
      end
  end.

(** paragraphs.py:56-104 [group_paragraphs] on a list (a string is wrapped in a
    list, see [process]); the list is returned instead of changed in place.
    Lines 82-86 are a special case of the loop after them. *)
Fixpoint group_from (sub : list item) (l : list item) : list item :=
  match l with
  | nil => flush sub
  | IStr s :: r =>
      let '(gs, sub') := add_pieces sub (split_para 0 s) in gs ++ group_from sub' r
  | ITag id true ro :: r => group_from (sub ++ [ITag id true ro]) r
  | IObj id :: r => group_from (sub ++ [IObj id]) r
  | i :: r => flush sub ++ i :: group_from nil r
  end.
Definition group_paragraphs (l : list item) : list item := group_from nil l.

(** paragraphs.py:137-151 [clean_paragraphs] *)
Definition blank_item (i : item) : bool :=
  match i with IStr s => eqb (strip s) nil | _ => false end.
Definition clean_paragraphs (l : list item) : list item :=
  filter (fun i => match i with IList sub => negb (forallb blank_item sub) | _ => true end) l.

(** paragraphs.py:181-208 [assign_paragraph_roles]; tags are changed in place
    there, here they are replaced *)
Definition is_tag (i : item) : bool := match i with ITag _ _ _ | IPar _ => true | _ => false end.
Definition nonblank_string (i : item) : bool :=
  match i with IStr s => negb (eqb (strip s) nil) | _ => false end.
Definition set_role (ro : role) (i : item) : item :=
  match i with ITag id inc _ => ITag id inc (Some ro) | _ => i end.
Definition assign_sub (sub : list item) : list item :=
  if Nat.eqb (length (filter is_tag sub)) 1 && Nat.eqb (length (filter nonblank_string sub)) 0
  then map (set_role Block) sub
  else if Nat.ltb 1 (length sub) then map (set_role Inline) sub
  else sub.
Definition assign_roles (l : list item) : list item :=
  map (fun i => match i with IList sub => IList (assign_sub sub) | _ => i end) l.

(** paragraphs.py:247-258: every list becomes a paragraph tag.  Its constructor
    runs the receivers of tag_created again, which are not part of this
    function. *)
Definition make_pars (l : list item) : list item :=
  map (fun i => match i with IList sub => IPar sub | _ => i end) l.

(** paragraphs.py:211-268 [process_paragraph_tags] on the content of a tag: a
    string, a list or something else (None, or a single tag), which is left
    alone.  A group of one item is unwrapped. *)
Inductive content :=
| CStr (s : str)
| CList (l : list item)
| CItem (i : item).
Definition process (c : content) : content :=
  let pars l := match make_pars (assign_roles (clean_paragraphs (group_paragraphs l))) with
                | [i] => CItem i
                | g => CList g
                end in
  match c with
  | CStr s => pars [IStr s]
  | CList l => pars l
  | CItem i => c
  end.

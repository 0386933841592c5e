(** Model of the equality of tags, of the contents of tables and of lists for tex:
    /repo/src/disseminate/tags/tag.py, table.py and list.py *)
From Coq Require Import List Bool NArith Arith.
From Verif.Base Require Import Str Dict Result.
Import ListNotations.

(** Tags, with their class, name, attributes (values are texts here), content and context (None after the
    document is gone), and the elements of their contents *)
Inductive elem :=
  | Text (s : str)
  | Tag (cls name : str) (attributes : dict str str) (content : elem) (context : option nat)
  | Elems (l : list elem).
(** Python's equality of dicts (Attributes is a dict) *)
Definition dict_eqb (a b : dict str str) : bool :=
  Nat.eqb (length a) (length b) && forallb (fun kv => eqb (lookup (fst kv) b) (Some (snd kv))) a.
(** tag.py:109-114 [Tag.__eq__], with Python's equality of texts and lists.  A tag and
    another object have different classes. *)
Fixpoint elem_eqb (a b : elem) : bool :=
  match a, b with
  | Text s, Text t => eqb s t
  | Tag c n at1 x ctx, Tag c' n' at2 y ctx' => eqb c c' && eqb n n' && dict_eqb at1 at2 && elem_eqb x y && eqb ctx ctx'
  | Elems l, Elems m =>
      (fix all l m := match l, m with
                      | nil, nil => true
                      | x :: l, y :: m => elem_eqb x y && all l m
                      | _, _ => false
                      end) l m
  | _, _ => false
  end.

(** tag.py:116-122 [Tag.__getitem__] (for positions from the start) and 124-128 [Tag.__len__] *)
Definition getitem (content : elem) (i : nat) : result elem :=
  match content with
  | Elems l => match nth_error l i with Some x => Ok x | None => Raise IndexError end
  | _ => Raise TagError
  end.
Definition len (content : elem) : nat := match content with Elems l => length l | _ => 1 end.

(** table.py:44-64 and 82-105: the contents of a table, with what the items become
    ([fmt]: of a list, for data, or of one element).  The content is that of the tag. *)
Definition table_items {A} (fmt : elem -> list A) (t : elem) : list A :=
  match t with
  | Tag _ _ _ content _ =>
      let items := match content with Elems l => l | x => [x] end in
      flat_map (fun item => if elem_eqb item t then nil else fmt item) items
  | _ => nil
  end.

(** table.py:75-79: the attribute class of a table, with the class of its kind *)
Definition table_class (attributes : dict str str) (html_class : option str) : dict str str :=
  match html_class with
  | None => attributes
  | Some c => set (lit "class") (match lookup (lit "class") attributes with Some a => a ++ lit " " ++ c | None => c end) attributes
  end.

(** list.py:208-211 [ListItem.tex_fmt] for the level and the formatted content *)
Definition item_tex (level : nat) (content : str) : str := repeat 167%N (level + 1) ++ lit " " ++ content ++ [10%N].
(** list.py:238-239: the items of a list, one after the other *)
Definition list_tex (l : list (nat * str)) : str := concat (map (fun x => item_tex (fst x) (snd x)) l).
